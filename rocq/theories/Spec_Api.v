(** * Spec_Api.v : words for the calls of NSConn, Room, Conn and Server. *)
From Coq Require Import ZArith.
From stdpp Require Import gmap strings list.
From Verif Require Import Go Errors Message World Lang Code.

(** What Emit, EmitBinary and Room.Emit say: namespace, room (none for Emit),
    event, body, as text or binary. *)
Definition said (ns room event body : string) (binary : bool) : message :=
  set_setBinary binary (set_body body (set_event event (set_room room (set_namespace ns no_message)))).

(** The events that travel without membership. *)
Definition connecting (event : string) : Prop := event = OnNamespaceConnect \/ event = OnNamespaceDisconnect.

(** The events that are requests of the protocol and not events of the application. *)
Definition protocol (event : string) : Prop :=
  connecting event \/ event = OnRoomJoin \/ event = OnRoomLeave.

(** A context that is over, and with what. *)
Definition ended (w : world) (x : ctxref) : option gerr :=
  match x with
  | Some k => match w_ctxs w !! k with Some xc => x_done xc | None => None end
  | None => None
  end.

(** Emit and EmitBinary. *)
Definition emits (G : cfg) (n : option nsref) (event body : string) (binary : bool) : prog bool :=
  if binary then impl G (AEmitBinary n event body) else impl G (AEmit n event body).

(** A query changes no connection, no namespace, nothing at the server, and is seen by nobody. *)
Record untouched (w w' : world) : Prop := Untouched {
  n_conns : w_conns w' = w_conns w;
  n_nss : w_nss w' = w_nss w;
  n_srv : w_srv w' = w_srv w;
  n_procs : w_procs w' = w_procs w;
  n_chans : w_chans w' = w_chans w;
  n_spawn : w_spawn w' = w_spawn w;
  n_log : w_log w' = w_log w }.

(** The connections of the server: those its loop has registered and not removed. *)
Definition registered (w : world) (c : cid) : Prop := c ∈ s_conns (w_srv w).
Definition id_of (w : world) (c : cid) : string := c_id (conn_of w c).
Definition in_namespace (w : world) (c : cid) (ns : string) (n : nsref) : Prop := c_nss (conn_of w c) !! ns = Some n.
