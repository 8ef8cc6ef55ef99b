(** * Spec_Jam.v : broadcasts inside a delivery. *)
From Coq Require Import ZArith.
From stdpp Require Import gmap strings list relations.
From Verif Require Import Go Errors Message World Lang Code Sem Spec_Stuck.

(** Goroutine [t] is in the middle of handing a broadcast over to a connection:
    it holds the lock of the broadcaster, which is held while the messages are
    written and, when a write fails, while the connection is closed and the
    callbacks for its end run (server.go:458-468, broadcaster.go:41-53). *)
Definition delivering (s : sys) (t : tid) : Prop := b_mu (w_srv (s_w s)) = Some t.

(** [a] is Server.Broadcast, or Broadcast or BroadcastOthers of a NSConn of the server. *)
Definition broadcast_call (G : cfg) (a : api) : Prop :=
  (exists e msgs, a = ABroadcast e msgs) \/
  (exists n o msgs, a = ANSBroadcast (Some n) o msgs /\ g_client G (n_conn n) = false).

(** Goroutine [t] has called [a], which has not begun. *)
Definition calls (s : sys) (t : tid) (a : api) : Prop :=
  valid_api (s_w s) a = true /\ exists k, s_th s !! t = Some (Call a k).
