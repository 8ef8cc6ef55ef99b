(** * WaitProofs.v : C39, the countdown of a server side Connect. *)
From Coq Require Import ZArith Lia.
From stdpp Require Import gmap strings list relations.
From RecordUpdate Require Import RecordUpdate.
From Verif Require Import Go Errors Message World Lang Code Sem ExecProofs Spec_Conn Spec_View Examples Spec_Answer AnswerProofs.

(*@file Prop_Wait.v
From Coq Require Import ZArith.
From stdpp Require Import gmap strings list relations.
From RecordUpdate Require Import RecordUpdate.
From Verif Require Import Go Errors Message World Lang Code Sem Spec_Conn Spec_View Examples Spec_Answer.
@*)

Lemma countdown t : (t mod syncWaitDur = 10000000 -> t - syncWaitDur <> 0 /\ (t - syncWaitDur) mod syncWaitDur = 10000000)%Z.
Proof.
  unfold syncWaitDur. intros H. pose proof (Z.div_mod t 15000000 ltac:(lia)) as E. rewrite H in E.
  split; [intros E'; lia|].
  symmetry. apply (Z.mod_unique _ _ (t / 15000000 - 1)); lia.
Qed.

Lemma loop_returns G c n : forall x ns t r, (t mod syncWaitDur = 10000000)%Z ->
  returns G (never_acked c) n (Connect_loop G c x ns t) r -> r = (None, Some EWrite).
Proof.
  induction n as [|n IH]; intros x ns t r Ht H; [destruct H|].
  destruct (countdown t Ht) as [Hz Hm].
  unfold Connect_loop in H. cbn [opr bind] in H. destruct H as (acked & Ha & H). rewrite (Ha eq_refl) in H.
  destruct n as [|n]; [destruct H|]. destruct H as (u & _ & H).
  apply returns_bind in H as (early & _ & H). destruct early.
  { destruct n; [destruct H|]. exact H. }
  apply Z.eqb_neq in Hz. rewrite Hz in H.
  destruct n as [|n]; [destruct H|]. destruct H as (r' & Hr' & H).
  destruct n as [|n]; [destruct H|]. cbn in H. subst r'.
  eapply IH; [exact Hm|]. eapply returns_mono; [exact Hr'|lia].
Qed.

Lemma connect_returns G c x ns r : g_client G c = false ->
  may_return G (never_acked c) (impl G (AConnect c x ns)) r -> r = (None, Some EWrite).
Proof.
  intros Hc (n & H). cbn [impl] in H. unfold Connect, IsClient in H. rewrite Hc in H.
  apply returns_bind in H as (u & _ & H). eapply loop_returns, H. reflexivity.
Qed.

(*@prop C39, violated: in every execution in which the client of a server side connection does not acknowledge it, a
    goroutine that called Connect is still in that call or has got ErrWrite from it.  It never gets a
    deadline error, whatever time has passed. @*)
Lemma l_C39_refuted : forall G c x ns k t s s', g_client G c = false ->
  reachable G s -> s_th s !! t = Some (bind (impl G (AConnect c x ns)) k) ->
  while G (fun w => c_acked (conn_of w c) = false) s s' ->
  still G s' t (impl G (AConnect c x ns)) k \/
  exists s1, while G (fun w => c_acked (conn_of w c) = false) s s1 /\
    while G (fun w => c_acked (conn_of w c) = false) s1 s' /\ got s1 t k (None, Some EWrite).
Proof.
  intros G c x ns k t s s' Hc Hr Ht Hw.
  destruct (schedule G (fun w => c_acked (conn_of w c) = false) (never_acked c)) with (p := impl G (AConnect c x ns)) (k := k) (t := t) (s := s) (s' := s')
    as [H|(a & s1 & Ha & H1 & H2 & H3)]; [|apply (reachable_numbered G), Hr|exact Ht|exact Hw|left; exact H|].
  - intros t' w o w' r HJ E. destruct o; try exact I. intros ->. cbn in E. injection E as _ <-. exact HJ.
  - apply connect_returns in Ha; [subst a|exact Hc]. right. exists s1. auto.
Qed.

Lemma loop_open G c n : forall x ns t r, (t mod syncWaitDur = 10000000)%Z ->
  returns G (never_acked_open c) n (Connect_loop G c x ns t) r -> False.
Proof.
  induction n as [|n IH]; intros x ns t r Ht H; [destruct H|].
  destruct (countdown t Ht) as [Hz Hm].
  unfold Connect_loop in H. cbn [opr bind] in H. destruct H as (acked & Ha & H). rewrite (Ha eq_refl) in H.
  destruct n as [|n]; [destruct H|]. destruct H as (u & _ & H).
  apply returns_bind in H as (early & He & H). 
  assert (early = false) as ->.
  { destruct (_ <=? _)%Z; [|destruct n; [destruct He|exact He]].
    destruct n as [|n]; [destruct He|]. destruct He as (b & Hb & He). destruct n; [destruct He|]. cbn in He. subst b. exact (Hb eq_refl). }
  apply Z.eqb_neq in Hz. rewrite Hz in H.
  destruct n as [|n]; [destruct H|]. destruct H as (r' & Hr' & _).
  eapply IH; [exact Hm|]. eapply returns_mono; [exact Hr'|lia].
Qed.

(*@prop C39, violated: as long as moreover the connection is not closed, the call does not return at all. @*)
Lemma l_C39_forever_refuted : forall G c x ns k t s s', g_client G c = false ->
  reachable G s -> s_th s !! t = Some (bind (impl G (AConnect c x ns)) k) ->
  while G (fun w => c_acked (conn_of w c) = false /\ c_closed (conn_of w c) = false) s s' ->
  still G s' t (impl G (AConnect c x ns)) k.
Proof.
  intros G c x ns k t s s' Hc Hr Ht Hw.
  destruct (schedule G (fun w => c_acked (conn_of w c) = false /\ c_closed (conn_of w c) = false) (never_acked_open c)) with (p := impl G (AConnect c x ns)) (k := k) (t := t) (s := s) (s' := s')
    as [H|(a & s1 & Ha & _)]; [|apply (reachable_numbered G), Hr|exact Ht|exact Hw|exact H|].
  - intros t' w o w' r [HJ1 HJ2] E. destruct o; try exact I; intros ->; cbn in E; injection E as _ <-; assumption.
  - exfalso. destruct Ha as (n & H). cbn [impl] in H. unfold Connect, IsClient in H. rewrite Hc in H.
    apply returns_bind in H as (u & _ & H). eapply loop_open, H. reflexivity.
Qed.

(** *** The loop goes round *)
Lemma while_step G (J : world -> Prop) s s' t w' q q' : J (s_w s) -> s_crash s = None -> s_th s !! t = Some q ->
  tstep G t (s_w s) q = TNext w' q' -> s' = Sys w' (<[t := q']> (s_th s)) (s_next s) None -> while G J s s'.
Proof. intros HJ Hc Ht E ->. apply rtc_once. split; [exact HJ|]. exists (Step t). unfold step. rewrite Hc, Ht, E. reflexivity. Qed.

Lemma round G c x ns (k : option nsref * option gerr -> prog (option tcode)) (t : tid) th nx w left :
  g_client G c = false -> c_acked (conn_of w c) = false -> c_closed (conn_of w c) = false -> valid_conn w c = true ->
  (left mod syncWaitDur = 10000000)%Z ->
  while G (fun w => c_acked (conn_of w c) = false /\ c_closed (conn_of w c) = false)
    (Sys w (<[t := bind (impl G (AConnectLoop c x ns left)) k]> th) nx None)
    (Sys w (<[t := bind (impl G (AConnectLoop c x ns (left - syncWaitDur)%Z)) k]> th) nx None).
Proof.
  intros Hc Ha Ho Hv Hm. destruct (countdown _ Hm) as [Hz _]. apply Z.eqb_neq in Hz.
  assert (HJ : c_acked (conn_of w c) = false /\ c_closed (conn_of w c) = false) by auto.
  assert (S1 : forall q w' q', tstep G t w q = TNext w' q' -> w' = w ->
    while G (fun w => c_acked (conn_of w c) = false /\ c_closed (conn_of w c) = false)
      (Sys w (<[t := q]> th) nx None) (Sys w (<[t := q']> th) nx None)).
  { intros q w' q' E ->. eapply while_step; [exact HJ|reflexivity|apply lookup_insert|exact E|]. cbn. rewrite insert_insert. reflexivity. }
  cbn [impl]. unfold Connect_loop at 1. cbn [opr bind].
  eapply rtc_transitive; [eapply S1; [cbn [tstep ostep]; reflexivity|reflexivity]|]. rewrite Ha. cbn [bind].
  eapply rtc_transitive; [eapply S1; [cbn [tstep ostep]; reflexivity|reflexivity]|].
  assert (Hlast : while G (fun w => c_acked (conn_of w c) = false /\ c_closed (conn_of w c) = false)
     (Sys w (<[t := Call (AConnectLoop c x ns (left - syncWaitDur)%Z) k]> th) nx None)
     (Sys w (<[t := bind (Connect_loop G c x ns (left - syncWaitDur)) k]> th) nx None)).
  { eapply S1; [cbn [tstep valid_api]; rewrite Hv; reflexivity|reflexivity]. }
  destruct (left - syncWaitDur <=? maxSyncWaitDur / 2)%Z; cbn [opr bind].
  - eapply rtc_transitive; [eapply S1; [cbn [tstep ostep]; reflexivity|reflexivity]|]. rewrite Ho. cbn [bind]. rewrite Hz. exact Hlast.
  - rewrite Hz. exact Hlast.
Qed.

(*@prop C39, violated: the wait really goes on for ever.  From any state in which a goroutine enters Connect on an open,
    accepted but unacknowledged connection there is, for every [n], an execution in which the countdown
    has been decreased [n] times and the goroutine is about to go round again; the countdown passes zero
    after 667 rounds and goes on below it. @*)
Lemma l_C39_endless_refuted : forall G c x ns k t s n,
  g_client G c = false -> s_crash s = None -> valid_conn (s_w s) c = true ->
  c_acked (conn_of (s_w s) c) = false -> c_closed (conn_of (s_w s) c) = false -> w_ready (c_wait (conn_of (s_w s) c)) = true ->
  s_th s !! t = Some (bind (impl G (AConnect c x ns)) k) ->
  exists s', while G (fun w => c_acked (conn_of w c) = false /\ c_closed (conn_of w c) = false) s s' /\
    s_th s' !! t = Some (bind (impl G (AConnectLoop c x ns (maxSyncWaitDur - Z.of_nat n * syncWaitDur)%Z)) k).
Proof.
  intros G c x ns k t s n Hc Hcr Hv Ha Ho Hrd Ht.
  exists (Sys (s_w s) (<[t := bind (impl G (AConnectLoop c x ns (maxSyncWaitDur - Z.of_nat n * syncWaitDur)%Z)) k]> (s_th s)) (s_next s) None).
  split; [|apply lookup_insert].
  assert (Hm : forall n, ((maxSyncWaitDur - Z.of_nat n * syncWaitDur) mod syncWaitDur = 10000000)%Z).
  { intros j. rewrite <- Z.add_opp_r, <- Z.mul_opp_l, Z.mod_add by discriminate. reflexivity. }
  induction n as [|n IH].
  - eapply while_step; [auto|exact Hcr|exact Ht| |].
    + cbn [impl]. unfold Connect, IsClient, unwait. rewrite Hc. cbn [opr bind tstep ostep]. rewrite Hrd. reflexivity.
    + reflexivity.
  - eapply rtc_transitive; [exact IH|].
    replace (maxSyncWaitDur - Z.of_nat (S n) * syncWaitDur)%Z with (maxSyncWaitDur - Z.of_nat n * syncWaitDur - syncWaitDur)%Z by lia.
    apply round; auto.
Qed.

(*@prop C39. The other half: once the connection is acknowledged the wait ends and Connect goes on with its request. @*)
Lemma l_C39_acked_partial : forall G c x ns t left w, c_acked (conn_of w c) = true ->
  exec t (impl G (AConnectLoop c x ns left)) w = exec t (askConnect G c x ns) w.
Proof.
  intros G c x ns t left w H. cbn [impl]. unfold Connect_loop.
  rewrite (exec_opb t (OIsAcked c) _ _ w true); [reflexivity|]. cbn [ostep]. rewrite H. reflexivity.
Qed.

(** An application whose goroutine connects to a namespace. *)
Definition waitG : cfg := {|
  g_client := fun _ => false;
  g_namespaces := fun _ => lift exA;
  g_connid := fun c => "id-1";
  g_uuid := "u";
  g_ptr := fun c => "0x1";
  g_known := knownErrors0;
  g_exch := None;
  g_sync := true;
  g_firealways := false;
  g_onconnect := None;
  g_ondisconnect := None;
  g_do := fun _ _ => Ret tt;
  g_user := fun _ => Call (AConnect 1 None "chat") (fun _ => Ret tt) |}.
Definition waitS : sys := play waitG
  [Go 0; Act1 (Env (EGo (TUpgrade 1))); Go 1; Act1 Start; Go 0; Go 2; Go 1] (init waitG).

(*@exl C39. The client has connected but sent no acknowledgment when a goroutine calls Connect. @*)
Lemma x_C39_example : exists s,
  reachable waitG s /\ s_crash s = None /\ valid_conn (s_w s) 1 = true /\ c_acked (conn_of (s_w s) 1) = false /\
  c_closed (conn_of (s_w s) 1) = false /\ w_ready (c_wait (conn_of (s_w s) 1)) = true /\
  s_th s !! 3 = Some (bind (impl waitG (AConnect 1 None "chat")) (fun _ => Ret None)).
Proof.
  assert (Hr : reachable waitG waitS) by apply play_reachable.
  assert (Hc : s_crash waitS = None) by (vm_compute; reflexivity).
  assert (Hn : s_next waitS = 3) by (vm_compute; reflexivity).
  assert (Hv : valid_conn (s_w waitS) 1 = true) by (vm_compute; reflexivity).
  assert (Ha : c_acked (conn_of (s_w waitS) 1) = false) by (vm_compute; reflexivity).
  assert (Ho : c_closed (conn_of (s_w waitS) 1) = false) by (vm_compute; reflexivity).
  assert (Hw : w_ready (c_wait (conn_of (s_w waitS) 1)) = true) by (vm_compute; reflexivity).
  destruct waitS as [w th nx cr]. cbn in Hc, Hn, Hv, Ha, Ho, Hw. subst cr nx.
  exists (Sys w (<[3 := bind (impl waitG (AConnect 1 None "chat")) (fun _ => Ret None)]> th) 4 None).
  cbn [s_w s_th s_crash]. split; [|split; [reflexivity|]; do 4 (split; [assumption|]); apply lookup_insert].
  eapply rtc_transitive; [exact Hr|].
  eapply rtc_l; [exists (Env (EGo (TUser 0))); reflexivity|].
  eapply rtc_l; [|apply rtc_refl]. exists (Step 3).
  cbn [step s_crash s_th s_w s_next spawn]. rewrite lookup_insert. 
  change (code waitG (TUser 0)) with (Call (AConnect 1 None "chat") (fun _ => Ret (@None tcode))).
  cbn [tstep valid_api]. rewrite Hv, insert_insert. reflexivity.
Qed.
