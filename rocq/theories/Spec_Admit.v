(** * Spec_Admit.v : who may be in a namespace or room.

    For C57.  [agrees p]: the callback [p] has an execution in which it
    returns no error.  (A callback that only looks at the message and returns
    [e] agrees exactly if [e] is nil.) *)
From Coq Require Import ZArith Ascii.
From stdpp Require Import gmap strings list.
From Verif Require Import Go Errors Message Spec_Wire World Lang Code Sem Spec_App.

Fixpoint agrees (p : prog (option gerr)) : Prop :=
  match p with
  | Ret e => e = None
  | Do o k => exists r, agrees (k r)
  | Call a k => exists r, agrees (k r)
  | Crash _ => False
  end.

(** If a callback is responsible for the event of [m] in [n], it has run with
    [m], and it agrees with [m]. *)
Definition permitted (G : cfg) (log : list event) (n : nsref) (m : message) : Prop :=
  match chosen G n (m_event m) with
  | Some (key, h) => LFire n key m ∈ log /\ agrees (h n m)
  | None => True
  end.

(** Connection [c] was admitted to namespace [ns] with NSConn [n]. *)
Definition admitted (G : cfg) (log : list event) (c : cid) (ns : string) (n : nsref) : Prop :=
  n_conn n = c /\ n_name n = ns /\ is_Some (g_namespaces G c !! ns) /\
  exists m, m_event m = OnNamespaceConnect /\ m_namespace m = ns /\ permitted G log n m.

(** ... and to [room]. *)
Definition let_in (G : cfg) (log : list event) (n : nsref) (room : string) : Prop :=
  exists m, m_event m = OnRoomJoin /\ m_namespace m = n_name n /\ m_room m = room /\ permitted G log n m.

(** An event of the application: not one of the seven events of the protocol
    of namespaces and rooms. *)
Definition custom (m : message) : Prop :=
  existsb (String.eqb (m_event m)) [OnNamespaceConnect; OnNamespaceConnected; OnNamespaceDisconnect; OnRoomJoin; OnRoomJoined; OnRoomLeave; OnRoomLeft] = false.

(** The same, or OnNamespaceDisconnect: an event of a namespace that is connected. *)
Definition inside (m : message) : Prop :=
  existsb (String.eqb (m_event m)) [OnNamespaceConnect; OnNamespaceConnected; OnRoomJoin; OnRoomJoined; OnRoomLeave; OnRoomLeft] = false.

(** For C68: what kinds of frames go out.  A frame of the handshake begins
    with one of three letters; an empty reply is a token and six separators; [b]
    are the bytes of message [m]. *)
Definition handshake_frame (b : string) : Prop :=
  match b with
  | String h _ => h = "M"%char \/ h = "A"%char \/ h = "H"%char
  | EmptyString => False
  end.
Definition empty_reply (b : string) : Prop := exists token, no_semicolon token /\ b = (token ++ ";;;;;;")%string.
Definition bytes_of (m : message) (b : string) : Prop := m_fromExplicit m = "" /\ serializeMessage m = Ok b.
(** It asks for a namespace to be connected or disconnected, or answers such a request. *)
Definition about_admission (m : message) : Prop := m_event m = OnNamespaceConnect \/ m_event m = OnNamespaceDisconnect.
(** It is meant for the members of a room (and not about joining or having left it). *)
Definition to_room (m : message) : Prop := m_room m <> "" /\ m_event m <> OnRoomJoin /\ m_event m <> OnRoomLeft.
