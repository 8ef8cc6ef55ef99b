(** * Spec_Stuck.v : goroutines that never move again. *)
From Coq Require Import ZArith.
From stdpp Require Import gmap strings list relations.
From Verif Require Import Go Errors Message World Lang Code Sem.

(** Goroutine [t] exists, and in every continuation (whatever the other
    goroutines, the network and the clock do) it is still where it is now and
    cannot make a step. *)
Definition stuck (G : cfg) (s : sys) (t : tid) : Prop :=
  exists p, s_th s !! t = Some p /\
    forall s', steps G s s' -> s_th s' !! t = Some p /\ step G (Step t) s' = None.

(** Goroutine [t] is about to do [o]. *)
Definition at_op (s : sys) (t : tid) (o : op) : Prop := exists k, s_th s !! t = Some (Do o k).

(** All goroutines but [t] are between two tasks: a reader waits for the next
    message, the server loop for the next event, others have not begun. *)
Definition others_idle (G : cfg) (s : sys) (t : tid) : Prop :=
  forall t' p, s_th s !! t' = Some p -> t' <> t -> exists c, p = code G c.

(** Connection [c] is open, has finished its handshake, and its socket is
    broken: writes fail with an error that IsCloseError recognises
    (conn.go:834). *)
Record broken (G : cfg) (w : world) (c : cid) : Prop := {
  br_there : is_Some (w_conns w !! c);
  br_mixed : onlyNative G c = false;
  br_open : c_closed (conn_of w c) = false /\ c_sockclosed (conn_of w c) = false;
  br_fail : exists e, c_wfail (conn_of w c) = Some e /\ is_close_error (Some e) = true;
  br_ready : g_client G c = false -> w_ready (c_wait (conn_of w c)) = true }.

(** The context [x] has no deadline or one that has not passed. *)
Definition in_time (w : world) (x : ctxref) : Prop :=
  forall k xc d, x = Some k -> w_ctxs w !! k = Some xc -> x_deadline xc = Some d -> (w_now w <= d)%Z.

(** The calls of a NSConn or Room that look at the rooms of [n]. *)
Definition room_query (n : nsref) (a : api) : Prop :=
  a = ARooms (Some n) \/ (exists r, a = ARoom (Some n) r) \/ (exists x r, a = AJoinRoom (Some n) x r) \/
  (exists x, a = ALeaveAll (Some n) x) \/ (exists x r, a = ARoomLeave n r x).

(** The calls that look at the namespaces of [c]. *)
Definition ns_query (G : cfg) (c : cid) (a : api) : Prop :=
  (exists ns, a = ANamespace c ns) \/ (exists n x, a = ADisconnect (Some n) x /\ n_conn n = c) \/ (exists x, a = ADisconnectAll c x /\ onlyNative G c = false).
