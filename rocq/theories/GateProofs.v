(** * GateProofs.v : whom the readiness gate lets through, and when (C31). *)
From Coq Require Import ZArith Ascii.
From stdpp Require Import gmap strings list relations.
From RecordUpdate Require Import RecordUpdate.
From Verif Require Import Go Errors Message World Lang Code Sem ExecProofs Logic Spec_App Spec_Stuck Gate.
From Verif Require Import Spec_Conn Spec_View Spec_Ready SeqProofs ConnProofs Examples Scenes StuckProofs.

(*@file Prop_Gate.v
From Coq Require Import ZArith Ascii.
From stdpp Require Import gmap strings list relations.
From RecordUpdate Require Import RecordUpdate.
From Verif Require Import Go Errors Message World Lang Code Sem Spec_App Spec_Stuck Spec_Conn Spec_View Spec_Ready Examples Scenes StuckProofs GateProofs. @*)

(*@prop C31.  In every schedule of any application: a goroutine that waits at the gate of a connection moves only after the
    gate was opened. @*)
Lemma l_C31_not_before_partial : forall G s t c s',
  user_app (fun _ => True) G -> reachable G s -> at_op s t (OWRecv c) -> step G (Step t) s = Some s' ->
  w_ready (c_wait (conn_of (s_w s) c)) = true.
Proof.
  intros G s t c s' HA Hr [k Hk] Hs. apply (gate_reachable G HA s c Hr). unfold step in Hs. destruct (s_crash s); [discriminate Hs|].
  rewrite Hk in Hs. cbn [tstep ostep] in Hs. destruct (w_chclosed (c_wait (conn_of (s_w s) c))); [reflexivity|discriminate Hs].
Qed.

Lemma c_wait_upd c f w : c_wait (conn_of (upd_conn c (fun k => k <| c_wait ::= f |>) w) c) = f (c_wait (conn_of w c)).
Proof. rewrite conn_upd_eq. reflexivity. Qed.

Definition lock_gate (c : cid) (w : world) : world := upd_conn c (fun k => k <| c_wait ::= fun x => x <| w_locked := true |> |>) w.
Lemma wait_blocks : forall c t w,
  w_ready (c_wait (conn_of w c)) = false -> w_locked (c_wait (conn_of w c)) = false -> w_chclosed (c_wait (conn_of w c)) = false ->
  exists k, exec t (wait c) w = XBlocked (lock_gate c w) (OWRecv c) k.
Proof.
  intros c t w H1 H2 H3. unfold wait. cbn [bind opr exec ostep]. rewrite H1. cbn [bind opr exec ostep]. rewrite H2. cbn [bind opr exec ostep].
  rewrite c_wait_upd. change (w_chclosed (c_wait (conn_of w c) <| w_locked := true |>)) with (w_chclosed (c_wait (conn_of w c))). rewrite H3.
  eexists. reflexivity.
Qed.
(*@prop C31.  The first waiter that finds the gate closed waits, and changes nothing the application or the peer can see.  While
    it waits the gate is opened with a result: whatever else has happened in between, the waiter then gets this result. @*)
Lemma l_C31_waits_partial : forall c t w,
  w_ready (c_wait (conn_of w c)) = false -> w_locked (c_wait (conn_of w c)) = false -> w_chclosed (c_wait (conn_of w c)) = false ->
  exists w1 k, exec t (wait c) w = XBlocked w1 (OWRecv c) k /\ view w1 c = view w c /\ w_log w1 = w_log w /\
    (forall t' e w2, c_wait (conn_of w2 c) = c_wait (conn_of w1 c) ->
      exec t (Do (OWRecv c) k) w2 = XBlocked w2 (OWRecv c) k /\
      exists w3, exec t' (unwait c e) w2 = XDone w3 tt /\ exec t (Do (OWRecv c) k) w3 = XDone w3 e).
Proof.
  intros c t w H1 H2 H3. unfold wait. cbn [bind opr exec ostep]. rewrite H1. cbn [bind opr exec ostep]. rewrite H2. cbn [bind opr exec ostep].
  rewrite c_wait_upd. change (w_chclosed (c_wait (conn_of w c) <| w_locked := true |>)) with (w_chclosed (c_wait (conn_of w c))). rewrite H3.
  eexists _, _. split; [reflexivity|]. split; [unfold view; rewrite conn_upd_eq; reflexivity|]. split; [reflexivity|].
  intros t' e w2 E. rewrite c_wait_upd in E. cbn [bind opr exec ostep]. rewrite E.
  change (w_chclosed (c_wait (conn_of w c) <| w_locked := true |>)) with (w_chclosed (c_wait (conn_of w c))). rewrite H3.
  split; [reflexivity|]. unfold unwait. cbn [bind opr exec ostep]. rewrite E.
  change (w_ready (c_wait (conn_of w c) <| w_locked := true |>)) with (w_ready (c_wait (conn_of w c))). rewrite H1. cbn [bind opr exec ostep].
  rewrite !c_wait_upd, E.
  match goal with |- context [w_locked ?x] => change (w_locked x) with true end. cbn [bind opr exec ostep]. rewrite !c_wait_upd, E.
  match goal with |- context [w_chclosed ?x] => change (w_chclosed x) with (w_chclosed (c_wait (conn_of w c))) end. rewrite H3.
  eexists. split; [reflexivity|]. rewrite !c_wait_upd, E.
  match goal with |- context [w_chclosed ?x] => change (w_chclosed x) with true end. cbn [bind opr exec ostep].
  rewrite !c_wait_upd, E. reflexivity.
Qed.

(*@prop C31.  The acknowledgment request "M" of a client arrives at a server side connection whose Upgrade has not decided yet:
    the reader waits, nothing is answered and nothing is handled. @*)
Lemma l_C31_undecided_partial : forall G c t w typ more rest,
  c_sockclosed (conn_of w c) = false -> c_acked (conn_of w c) = false -> c_in (conn_of w c) = (typ, String "M" more) :: rest ->
  w_ready (c_wait (conn_of w c)) = false -> w_locked (c_wait (conn_of w c)) = false -> w_chclosed (c_wait (conn_of w c)) = false ->
  exists w1 k, exec t (reader_step G c) w = XBlocked w1 (OWRecv c) k /\
    view w1 c = view w c /\ w_log w1 = w_log w /\ c_acked (conn_of w1 c) = false /\ c_id (conn_of w1 c) = c_id (conn_of w c).
Proof.
  intros G c t w typ more rest Hs Ha Hi H1 H2 H3. unfold reader_step. cbn [bind opr exec ostep]. rewrite Hs, Hi. cbn [bind opr exec ostep is_empty].
  set (w1 := upd_conn c (fun k => k <| c_in ::= @tl (mtype * string) |>) w).
  assert (Ea : c_acked (conn_of w1 c) = false) by (unfold w1; rewrite conn_upd_eq; exact Ha). rewrite Ea. cbn [negb].
  unfold handleACK, ackBinary. rewrite Ascii.eqb_refl.
  assert (Hw : c_wait (conn_of w1 c) = c_wait (conn_of w c)) by (unfold w1; rewrite conn_upd_eq; reflexivity).
  destruct (wait_blocks c t w1) as [k E]; [rewrite Hw; assumption..|].
  rewrite exec_bind, E. cbn [xbind]. eexists _, _. split; [reflexivity|]. unfold lock_gate, view. rewrite conn_upd_eq.
  unfold w1. rewrite conn_upd_eq. repeat split. exact Ha.
Qed.

Definition early_run : list cmd :=
  [Act1 (Env (EGo (TUpgrade 1))); Act1 (Step 1); Act1 (Step 1); Act1 (Step 1); Act1 (Env (EDeliver 1 TextMessage "M"))].
Definition opened_run : list cmd :=
  [Go 0; Act1 (Env (EGo (TDial 2))); Go 1; Act1 Start; Act1 (Env (EDeliver 2 TextMessage "Aid-1")); Go 2].
(*@exl C31. The server side of an example whose Upgrade is still running, with the "M" of the client at the door; and a Dial
    that waits at its gate and then moves, because the acknowledgment has opened it. @*)
Lemma x_C31_gate_example :
  (let s := play exG early_run (init exG) in
   reachable exG s /\ c_sockclosed (conn_of (s_w s) 1) = false /\ c_acked (conn_of (s_w s) 1) = false /\
   c_in (conn_of (s_w s) 1) = [(TextMessage, "M")] /\ w_ready (c_wait (conn_of (s_w s) 1)) = false /\
   w_locked (c_wait (conn_of (s_w s) 1)) = false /\ w_chclosed (c_wait (conn_of (s_w s) 1)) = false) /\
  (let s := play dialer opened_run (init dialer) in
   user_app (fun _ => True) dialer /\ reachable dialer s /\ at_op s 1 (OWRecv 2) /\ is_Some (step dialer (Step 1) s)).
Proof.
  split.
  - cbv zeta. split; [apply play_reachable|]. repeat split; vm_compute; reflexivity.
  - cbv zeta. split; [exact dialer_app|]. split; [apply play_reachable|]. split; [at_op_tac|].
    assert (H : match step dialer (Step 1) (play dialer opened_run (init dialer)) with Some _ => true | None => false end = true) by (vm_compute; reflexivity).
    destruct (step _ _ _); [eauto|discriminate H].
Qed.
