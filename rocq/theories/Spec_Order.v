(** * Spec_Order.v : words for the order in which messages are handled (C56). *)
From Coq Require Import ZArith Ascii.
From stdpp Require Import gmap strings list.
From RecordUpdate Require Import RecordUpdate.
From Verif Require Import Go Errors Message World Lang Code Sem Spec_View.

(** The events of the connect, disconnect, join and leave protocols. *)
Definition protocol_events : list string :=
  [OnNamespaceConnect; OnNamespaceConnected; OnNamespaceDisconnect; OnRoomJoin; OnRoomJoined; OnRoomLeave; OnRoomLeft].
Definition ordinary (m : message) : bool := negb (existsb (String.eqb (m_event m)) protocol_events).

Definition is_binary (typ : mtype) : bool := match typ with BinaryMessage => true | TextMessage => false end.

(** The payloads of the frames of one kind, in their order. *)
Definition of_kind (typ : mtype) (fs : list (mtype * string)) : list string :=
  flat_map (fun f => if Bool.eqb (is_binary (fst f)) (is_binary typ) then [snd f] else []) fs.

(** The messages that arrived on [c] in frames of one kind, in their order. *)
Definition arrived (G : cfg) (c : cid) (typ : mtype) (w : world) : list message :=
  map (received G c typ) (of_kind typ (c_got (conn_of w c))).

(** The messages of one kind that callbacks of [c] for ordinary events ran
    with, the first one first. *)
Definition is_handled (c : cid) (typ : mtype) (n : nsref) (m : message) : bool :=
  Nat.eqb (n_conn n) c && ordinary m && negb (m_isLocal m) && Bool.eqb (m_setBinary m) (is_binary typ).
Definition handled (c : cid) (typ : mtype) (w : world) : list message :=
  rev (flat_map (fun e => match e with LFire n _ m => if is_handled c typ n m then [m] else [] | _ => [] end) (w_log w)).

(** How often the handshake of [c] was completed on this side. *)
Definition handshakes (c : cid) (w : world) : nat :=
  length (flat_map (fun e => match e with LAcked c' => if Nat.eqb c' c then [tt] else [] | _ => [] end) (w_log w)).
(** Connections with native messages only have no handshake. *)
Definition shook_hands_once (G : cfg) (c : cid) (w : world) : Prop := handshakes c w <= if onlyNative G c then 0 else 1.
