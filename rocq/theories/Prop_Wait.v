(** * Prop_Wait.v : property theorems (generated by tools/genprops.py from WaitProofs.v).
    Every proof is the lemma of the same name in WaitProofs.v. *)
From Coq Require Import ZArith.
From stdpp Require Import gmap strings list relations.
From RecordUpdate Require Import RecordUpdate.
From Verif Require Import Go Errors Message World Lang Code Sem Spec_Conn Spec_View Examples Spec_Answer.
From Verif Require Import WaitProofs.

(** C39, violated: in every execution in which the client of a server side connection does not acknowledge it, a
    goroutine that called Connect is still in that call or has got ErrWrite from it.  It never gets a
    deadline error, whatever time has passed. *)
Theorem C39_refuted : forall G c x ns k t s s', g_client G c = false ->
  reachable G s -> s_th s !! t = Some (bind (impl G (AConnect c x ns)) k) ->
  while G (fun w => c_acked (conn_of w c) = false) s s' ->
  still G s' t (impl G (AConnect c x ns)) k \/
  exists s1, while G (fun w => c_acked (conn_of w c) = false) s s1 /\
    while G (fun w => c_acked (conn_of w c) = false) s1 s' /\ got s1 t k (None, Some EWrite).
Proof. exact l_C39_refuted. Qed.
Print Assumptions C39_refuted.

(** C39, violated: as long as moreover the connection is not closed, the call does not return at all. *)
Theorem C39_forever_refuted : forall G c x ns k t s s', g_client G c = false ->
  reachable G s -> s_th s !! t = Some (bind (impl G (AConnect c x ns)) k) ->
  while G (fun w => c_acked (conn_of w c) = false /\ c_closed (conn_of w c) = false) s s' ->
  still G s' t (impl G (AConnect c x ns)) k.
Proof. exact l_C39_forever_refuted. Qed.
Print Assumptions C39_forever_refuted.

(** C39, violated: the wait really goes on for ever.  From any state in which a goroutine enters Connect on an open,
    accepted but unacknowledged connection there is, for every [n], an execution in which the countdown
    has been decreased [n] times and the goroutine is about to go round again; the countdown passes zero
    after 667 rounds and goes on below it. *)
Theorem C39_endless_refuted : forall G c x ns k t s n,
  g_client G c = false -> s_crash s = None -> valid_conn (s_w s) c = true ->
  c_acked (conn_of (s_w s) c) = false -> c_closed (conn_of (s_w s) c) = false -> w_ready (c_wait (conn_of (s_w s) c)) = true ->
  s_th s !! t = Some (bind (impl G (AConnect c x ns)) k) ->
  exists s', while G (fun w => c_acked (conn_of w c) = false /\ c_closed (conn_of w c) = false) s s' /\
    s_th s' !! t = Some (bind (impl G (AConnectLoop c x ns (maxSyncWaitDur - Z.of_nat n * syncWaitDur)%Z)) k).
Proof. exact l_C39_endless_refuted. Qed.
Print Assumptions C39_endless_refuted.

(** C39. The other half: once the connection is acknowledged the wait ends and Connect goes on with its request. *)
Theorem C39_acked_partial : forall G c x ns t left w, c_acked (conn_of w c) = true ->
  exec t (impl G (AConnectLoop c x ns left)) w = exec t (askConnect G c x ns) w.
Proof. exact l_C39_acked_partial. Qed.
Print Assumptions C39_acked_partial.

(** C39. The client has connected but sent no acknowledgment when a goroutine calls Connect. *)
Example C39_example : exists s,
  reachable waitG s /\ s_crash s = None /\ valid_conn (s_w s) 1 = true /\ c_acked (conn_of (s_w s) 1) = false /\
  c_closed (conn_of (s_w s) 1) = false /\ w_ready (c_wait (conn_of (s_w s) 1)) = true /\
  s_th s !! 3 = Some (bind (impl waitG (AConnect 1 None "chat")) (fun _ => Ret None)).
Proof. exact x_C39_example. Qed.
