(** * JamProofs.v : broadcasts made by the callbacks that run while a broadcast is delivered (C70). *)
From Coq Require Import ZArith.
From stdpp Require Import gmap strings list relations.
From RecordUpdate Require Import RecordUpdate.
From Verif Require Import Go Errors Message World Lang Code Sem ExecProofs Logic Spec_App Spec_Async Spec_Stuck Spec_Jam SafeRules SafeOps SafeCode SafeProofs StuckProofs End Jam CarelessProofs IdentProofs QuitProofs.
From Verif Require Import Examples Scenes.

(*@file Prop_Jam.v
From Coq Require Import ZArith.
From stdpp Require Import gmap strings list relations.
From Verif Require Import Go Errors Message World Lang Code Sem Spec_App Spec_Async Spec_Stuck Spec_Jam Examples CarelessProofs JamProofs. @*)

Definition touches (o : op) : bool := match o with OBSet _ | OLog (LBatch _ _) | OLog (LBcast _) => true | _ => false end.
Definition quietlog (w w' : world) : Prop := sent_in (w_log w') = sent_in (w_log w) /\ forall c, got_in c (w_log w') = got_in c (w_log w).
Lemma touch_op t w o w' r : ostep t w o = Goes w' r -> touches o = false -> quietlog w w'.
Proof.
  intros H Hs. destruct o; try discriminate Hs; cbn [ostep] in H; cbv zeta in H;
    repeat match goal with H : match ?x with _ => _ end = Goes _ _ |- _ => destruct x eqn:?; try discriminate H end; try discriminate H; injection H as <- <-;
    try (split; reflexivity).
  all: try (destruct e; try discriminate Hs; split; reflexivity).
  all: match goal with x : srvmsg |- _ => destruct x end; split; reflexivity.
Qed.

(** Goroutine [t] waits for the lock that it holds. *)
Definition jammed (s : sys) (t : tid) k : Prop := s_th s !! t = Some (Do OBLock k) /\ delivering s t /\ t < s_next s.
Lemma jam_step G s s' t k a : holds JS JInv s -> jammed s t k -> step G a s = Some s' -> jammed s' t k /\ quietlog (s_w s) (s_w s').
Proof.
  intros (_ & Ls & [I1 _] & H1 & _ & H3) (Ht & Hd & Hlt) Hs. unfold delivering in *. unfold step in Hs. destruct (s_crash s); [discriminate|].
  assert (Hq : forall w, quietlog w w) by (split; reflexivity).
  destruct a as [u| |e].
  - destruct (s_th s !! u) as [p|] eqn:Eu; [|discriminate].
    destruct (decide (u = t)) as [->|Hne].
    { rewrite Ht in Eu. injection Eu as <-. cbn [tstep ostep] in Hs. rewrite Hd in Hs. discriminate. }
    destruct p as [x|o kk|a kk|why]; cbn [tstep] in Hs.
    + destruct x as [c|]; injection Hs as <-; (split; [|apply Hq]); (split; [|split; [exact Hd|exact Hlt]]); cbn; rewrite ?lookup_insert_ne, ?lookup_delete_ne by exact Hne; exact Ht.
    + destruct (ostep u (s_w s) o) as [w' r| |why] eqn:E; [|discriminate|].
      * injection Hs as <-. destruct (H3 u _ Eu) as (l & Hl & Hok). cbn [ok] in Hok.
        assert (Hnt : touches o = false).
        { destruct (touches o) eqn:Et; [|reflexivity]. exfalso. assert (l = true).
          { destruct o; try discriminate Et; [apply Hok|]. destruct e; try discriminate Et; [destruct Hok|apply Hok] || apply Hok. }
          subst l. apply I1 in Hl. congruence. }
        split; [|eapply touch_op; eassumption]. split; [|split; [|exact Hlt]].
        -- cbn. rewrite lookup_insert_ne by exact Hne. exact Ht.
        -- cbn. pose proof (bmu_op t u (s_w s) o Hd Hne) as Hb. rewrite E in Hb. exact Hb.
      * injection Hs as <-. split; [|apply Hq]. split; [exact Ht|]. split; [exact Hd|exact Hlt].
    + destruct (valid_api (s_w s) a); [|discriminate]. injection Hs as <-. split; [|apply Hq]. split; [|split; [exact Hd|exact Hlt]].
      cbn. rewrite lookup_insert_ne by exact Hne. exact Ht.
    + injection Hs as <-. split; [|apply Hq]. split; [exact Ht|]. split; [exact Hd|exact Hlt].
  - destruct (w_spawn (s_w s)) as [|x rest]; [discriminate|]. injection Hs as <-. split; [|split; reflexivity]. split; [|split; [exact Hd|cbn; lia]].
    cbn. rewrite lookup_insert_ne by lia. exact Ht.
  - assert (Hs' : (exists x, s' = spawn G x s) \/ s' = Sys (env_step e (s_w s)) (s_th s) (s_next s) None).
    { destruct e; repeat match goal with H : match ?b with _ => _ end = Some _ |- _ => destruct b; try discriminate H end; injection Hs as <-; eauto. }
    destruct Hs' as [[x ->]| ->].
    + split; [|apply Hq]. split; [|split; [exact Hd|cbn; lia]]. cbn. rewrite lookup_insert_ne by lia. exact Ht.
    + split.
      * split; [exact Ht|]. split; [|exact Hlt]. cbn [s_w]. unfold delivering. cbn [s_w]. destruct (jenv (s_w s) e) as [E _]. rewrite E. exact Hd.
      * cbn [s_w]. split; [|intros c]; rewrite log_env; reflexivity.
Qed.
Lemma jam_steps G s s' t k : user_app (fun _ => True) G -> g_sync G = false -> reachable G s -> jammed s t k -> steps G s s' -> jammed s' t k /\ quietlog (s_w s) (s_w s').
Proof.
  intros HA HG Hr Hj Hst. induction Hst as [s|s s1 s2 [a Ha] Hst IH]; [split; [exact Hj|split; reflexivity]|].
  destruct (jam_step G s s1 t k a (jam_reachable G s HA HG Hr) Hj Ha) as [J1 [Q1 Q2]].
  destruct IH as [J2 [Q3 Q4]]; [eapply rtc_r; [exact Hr|exists a; exact Ha]|exact J1|]. split; [exact J2|]. split; [congruence|]. intros c. rewrite Q4. apply Q2.
Qed.
Lemma call_bcast G s t a : reachable G s -> s_crash s = None -> g_sync G = false -> g_exch G = None -> calls s t a -> broadcast_call G a ->
  exists s1, steps G s s1 /\ at_op s1 t OBLock /\ w_srv (s_w s1) = w_srv (s_w s) /\ w_log (s_w s1) = w_log (s_w s).
Proof.
  intros Hr Hc HG HX [Hv [k Hk]] Hb.
  assert (Hstep : step G (Step t) s = Some (Sys (s_w s) (<[t := bind (impl G a) k]> (s_th s)) (s_next s) None)).
  { unfold step. rewrite Hc, Hk. cbn [tstep]. rewrite Hv. reflexivity. }
  assert (Hbc : exists e msgs k', bind (impl G a) k = bind (Broadcast G e msgs) k').
  { destruct Hb as [(e & msgs & ->)|(n & o & msgs & -> & Hn)]; [exists e, msgs, k; reflexivity|]. cbn [impl]. unfold NSBroadcast, IsClient. rewrite Hn. eauto. }
  destruct Hbc as (e & msgs & k' & Ei). rewrite Ei in Hstep. unfold Broadcast in Hstep. unfold usesStackExchange in Hstep. rewrite HX, HG in Hstep.
  assert (Hone : forall p, step G (Step t) s = Some (Sys (s_w s) (<[t := Do OBLock p]> (s_th s)) (s_next s) None) ->
    exists s1, steps G s s1 /\ at_op s1 t OBLock /\ w_srv (s_w s1) = w_srv (s_w s) /\ w_log (s_w s1) = w_log (s_w s)).
  { intros p Hp. eexists. split; [apply rtc_once; exists (Step t); exact Hp|]. split; [exists p; apply lookup_insert|]. split; reflexivity. }
  destruct e as [[c|n|n|x]|]; cbn [exclusion bind fst snd] in Hstep; try (eapply Hone; exact Hstep).
  cbn [opr bind] in Hstep.
  eexists. split; [eapply rtc_l; [exists (Step t); exact Hstep|]; apply rtc_once; exists (Step t); unfold step; cbn [s_crash s_th s_w]; rewrite lookup_insert; cbn [tstep ostep]; reflexivity|].
  split; [eexists; apply lookup_insert|]. split; reflexivity.
Qed.

(*@prop C70.  Violated: a callback that the server runs because a write failed while a broadcast was delivered must not broadcast.  If it does, its
    goroutine never moves again, and from then on no broadcast is taken over and none is offered to any connection, whatever happens: every goroutine
    that comes to broadcast or to deliver waits for ever too. @*)
Lemma l_C70_refuted : forall G s t a,
  user_app (fun _ => True) G -> g_sync G = false -> g_exch G = None -> reachable G s -> s_crash s = None ->
  delivering s t -> calls s t a -> broadcast_call G a ->
  exists s1, steps G s s1 /\ stuck G s1 t /\
    forall s2, steps G s1 s2 -> sent s2 = sent s /\ (forall c, got_batches c s2 = got_batches c s) /\
      forall u, at_op s2 u OBLock -> stuck G s2 u.
Proof.
  intros G s t a HA HG HX Hr Hc Hd Hk Hb. destruct (call_bcast G s t a Hr Hc HG HX Hk Hb) as (s1 & Hst & [k Ha] & Es & El).
  assert (Hr1 : reachable G s1) by (eapply rtc_transitive; eassumption).
  assert (Hd1 : delivering s1 t) by (unfold delivering in *; rewrite Es; exact Hd).
  assert (Hj : jammed s1 t k). { split; [exact Ha|]. split; [exact Hd1|]. destruct (decide (t < s_next s1)) as [|Hn]; [assumption|]. exfalso.
    destruct (jam_reachable G s1 HA HG Hr1) as (_ & Ls & _ & H1 & _). assert (Hle : s_next s1 <= t) by lia. rewrite (H1 t Hle) in Ha. discriminate. }
  exists s1. split; [exact Hst|]. split; [apply stuck_bmu; [exact Hr1|exists k; exact Ha|exact Hd1]|].
  intros s2 Hs2. destruct (jam_steps G s1 s2 t k HA HG Hr1 Hj Hs2) as [Hj2 [Q1 Q2]].
  split; [unfold sent; rewrite Q1, El; reflexivity|]. split; [intros c; unfold got_batches; rewrite Q2, El; reflexivity|].
  intros u [k' Hu]. exists (Do OBLock k'). split; [exact Hu|].
  assert (Hr2 : reachable G s2) by (eapply rtc_transitive; eassumption). clear Hs2 Q1 Q2 Hj. intros s3 Hs3.
  assert (H : s_th s3 !! u = Some (Do OBLock k') /\ jammed s3 t k).
  { clear - HA HG Hr2 Hj2 Hu Hs3. induction Hs3 as [s2|s2 s3 s4 [a Ha] Hst IH]; [auto|].
    pose proof (jam_reachable G s2 HA HG Hr2) as Hh. destruct (jam_step G s2 s3 t k a Hh Hj2 Ha) as [J3 _]. apply IH; [exact J3| |eapply rtc_r; [exact Hr2|exists a; exact Ha]].
    destruct Hj2 as (_ & Hd & _). destruct Hh as (_ & Ls & _ & H1 & _ & _). assert (Hlt : u < s_next s2) by (destruct (decide (u < s_next s2)); [assumption|rewrite H1 in Hu by lia; discriminate]).
    unfold step in Ha. destruct (s_crash s2); [discriminate|]. destruct a as [v| |e].
    - destruct (s_th s2 !! v) as [p|] eqn:Ev; [|discriminate]. destruct (decide (v = u)) as [->|Hne].
      { rewrite Hu in Ev. injection Ev as <-. cbn [tstep ostep] in Ha. unfold delivering in Hd. rewrite Hd in Ha. discriminate. }
      destruct (tstep G v (s_w s2) p); try discriminate; injection Ha as <-; cbn; rewrite ?lookup_insert_ne, ?lookup_delete_ne by exact Hne; exact Hu.
    - destruct (w_spawn (s_w s2)); [discriminate|]. injection Ha as <-. cbn. rewrite lookup_insert_ne by lia. exact Hu.
    - assert (Hs' : (exists x, s3 = spawn G x s2) \/ s3 = Sys (env_step e (s_w s2)) (s_th s2) (s_next s2) None).
      { destruct e; repeat match goal with H : match ?b with _ => _ end = Some _ |- _ => destruct b; try discriminate H end; injection Ha as <-; eauto. }
      destruct Hs' as [[x ->]| ->]; cbn; [rewrite lookup_insert_ne by lia|]; exact Hu. }
  destruct H as [H (_ & Hd3 & _)]. split; [exact H|]. unfold step. destruct (s_crash s3); [reflexivity|]. rewrite H. cbn [tstep ostep]. unfold delivering in Hd3. rewrite Hd3. reflexivity.
Qed.

(*@prop C70 (the case of no delivery under way; missing: Broadcasts that have to wait for deliveries).  While nobody holds the lock of the broadcaster, Broadcast called by any
    goroutine, with any sender to leave out, is taken over and returns after at most seven steps of its own. @*)
Lemma l_C70_free_partial : forall G s t e msgs k,
  application (careful G) G -> g_sync G = false -> g_exch G = None -> reachable G s -> s_crash s = None -> b_mu (w_srv (s_w s)) = None ->
  valid_api (s_w s) (ABroadcast e msgs) = true -> s_th s !! t = Some (Call (ABroadcast e msgs) k) ->
  exists n batch s', n <= 7 /\ run G (replicate n (Step t)) s = Some s' /\ s_th s' !! t = Some (k tt) /\
    sent s' = sent s ++ [batch] /\ length batch = length msgs /\ (e = None -> batch = msgs) /\ b_mu (w_srv (s_w s')) = None.
Proof.
  intros G s t e msgs k HA HG HX Hr Hc Hmu Hv Hk. pose proof (gen_open G s HA Hr) as Hg.
  destruct s as [w th nx cr]. cbn in Hc, Hmu, Hk, Hg. cbn [s_w] in Hv. subst cr.
  assert (Hstep : forall n s', run G (replicate n (Step t)) (Sys w (<[t := bind (Broadcast G e msgs) k]> th) nx None) = Some s' ->
    run G (replicate (S n) (Step t)) (Sys w th nx None) = Some s').
  { intros n s' H. cbn [replicate run]. unfold step at 1. cbn [s_crash s_th s_w s_next]. rewrite Hk. cbn [tstep]. rewrite Hv. exact H. }
  assert (Hb : forall batch, exists s', run G (replicate 5 (Step t)) (Sys w (<[t := bind (broadcast batch) k]> th) nx None) = Some s' /\
    s_th s' !! t = Some (k tt) /\ sent s' = sent (Sys w th nx None) ++ [batch] /\ b_mu (w_srv (s_w s')) = None).
  { intros batch. eexists. split; [|shelve]. unfold broadcast. cbn [bind opr].
    eapply (run_do G t _ _ _ _ OBLock); [apply lookup_insert|cbn [ostep]; rewrite Hmu; reflexivity|].
    cbv beta; eapply (run_do G t _ _ _ _ (OBSet batch)); [apply lookup_insert|cbn [ostep]; reflexivity|].
    cbv beta; eapply (run_do G t _ _ _ _ OBUnlock); [apply lookup_insert|cbn; rewrite Nat.eqb_refl; reflexivity|].
    cbv beta; eapply (run_do G t _ _ _ _ OBSwap); [apply lookup_insert|cbn [ostep]; reflexivity|].
    cbv beta; eapply (run_do G t _ _ _ _ (OBClose _)); [apply lookup_insert| |].
    { cbn [ostep]. rewrite bool_decide_eq_false_2; [reflexivity|]. exact Hg. }
    reflexivity.
    Unshelve. split; [apply lookup_insert|]. split; reflexivity. }
  assert (Hmap : forall f : message -> message, length (map f msgs) = length msgs) by (intros f; apply map_length).
  destruct e as [[c|n|n|x]|].
  - destruct (Hb (map (exclude (serverConnID G c) "") msgs)) as (s' & R & H1 & H2 & H3). exists 6, (map (exclude (serverConnID G c) "") msgs), s'.
    split; [lia|]. split; [apply Hstep; unfold Broadcast, usesStackExchange; rewrite HX, HG; exact R|]. repeat split; auto; discriminate.
  - destruct (Hb (map (exclude (serverConnID G (n_conn n)) "") msgs)) as (s' & R & H1 & H2 & H3). exists 6, (map (exclude (serverConnID G (n_conn n)) "") msgs), s'.
    split; [lia|]. split; [apply Hstep; unfold Broadcast, usesStackExchange; rewrite HX, HG; exact R|]. repeat split; auto; discriminate.
  - destruct (Hb (map (exclude "" (c_id (conn_of w (n_conn n)))) msgs)) as (s' & R & H1 & H2 & H3). exists 7, (map (exclude "" (c_id (conn_of w (n_conn n)))) msgs), s'.
    split; [lia|]. split.
    + apply Hstep. unfold Broadcast, usesStackExchange. rewrite HX, HG. cbn [exclusion opr bind].
      eapply (run_do G t _ _ _ _ (OGetId _)); [apply lookup_insert|cbn [ostep]; reflexivity|]. rewrite insert_insert. exact R.
    + repeat split; auto; discriminate.
  - destruct (Hb (map (exclude "" x) msgs)) as (s' & R & H1 & H2 & H3). exists 6, (map (exclude "" x) msgs), s'.
    split; [lia|]. split; [apply Hstep; unfold Broadcast, usesStackExchange; rewrite HX, HG; exact R|]. repeat split; auto; discriminate.
  - destruct (Hb msgs) as (s' & R & H1 & H2 & H3). exists 6, msgs, s'.
    split; [lia|]. split; [apply Hstep; unfold Broadcast, usesStackExchange; rewrite HX, HG; exact R|]. repeat split; auto.
Qed.

(** An application that tells the others when somebody has left, in the usual
    way: its OnNamespaceDisconnect callback broadcasts a message. *)
Definition bye : message := set_body "bye" (set_event "left" (set_namespace "chat" no_message)).
Definition byeA : gmap string (gmap string handler) :=
  {["chat" := {[OnNamespaceDisconnect := fun n m => Call (ANSBroadcast (Some n) true [bye]) (fun _ => Ret None)]}]}.
Definition byeG : cfg := alone byeA (Call (ABroadcast None [bye]) (fun _ => Ret tt)).
Definition byeS : sys := play byeG (handshake1 ++ [Act1 (Env (EDeliver 1 TextMessage "$1;chat;;_OnNamespaceConnect;0;0;")); Go 3; Go 0; Go 2;
  Act1 (Env (EWriteFail 1 EEOF)); Act1 (Env (EGo (TUser 0))); Go 4] ++ repeat (Act1 (Step 2)) 18) (init byeG).
Definition byeN : nsref := NsRef 1 "chat" 1.
Lemma byeG_app : user_app (fun _ => True) byeG.
Proof.
  constructor; try discriminate; try (intros; exact Logic.I).
  - intros c ns evs ev h n m H1 H2. change (byeA !! ns = Some evs) in H1. unfold byeA in H1. apply lookup_singleton_Some in H1 as [<- <-]. apply lookup_singleton_Some in H2 as [<- <-].
    cbn. split; [exact Logic.I|]. intros r. exact Logic.I.
  - intros k. cbn. split; [exact Logic.I|]. intros r. exact Logic.I.
Qed.
Definition calls_ns (s : sys) (t : tid) : option (nsref * bool * list message) :=
  match s_th s !! t with Some (Call (ANSBroadcast (Some n) o ms) _) => Some (n, o, ms) | _ => None end.
Lemma calls_nsE s t n o ms : calls_ns s t = Some (n, o, ms) -> valid_api (s_w s) (ANSBroadcast (Some n) o ms) = true -> calls s t (ANSBroadcast (Some n) o ms).
Proof.
  unfold calls_ns, calls. intros H Hv. split; [exact Hv|]. destruct (s_th s !! t) as [[x|op k|a k|why]|]; try discriminate H.
  destruct a; try discriminate H. match goal with y : option nsref |- _ => destruct y end; try discriminate H. injection H as -> -> ->. eauto.
Qed.
(*@exl C70.  Connection 1 is in "chat".  Its socket breaks, an application goroutine broadcasts, and the goroutine that delivers to connection 1
    (goroutine 2) has failed to write, closes it and runs OnNamespaceDisconnect, which broadcasts: the hypotheses of C70_refuted hold. @*)
Lemma x_C70_example : user_app (fun _ => True) byeG /\ reachable byeG byeS /\ s_crash byeS = None /\ delivering byeS 2 /\
  calls byeS 2 (ANSBroadcast (Some byeN) true [bye]) /\ broadcast_call byeG (ANSBroadcast (Some byeN) true [bye]) /\
  sent byeS = [[bye]] /\ got_batches 1 byeS = [[bye]].
Proof.
  split; [apply byeG_app|]. split; [apply play_reachable|]. split; [vm_compute; reflexivity|]. split; [vm_compute; reflexivity|].
  split; [apply calls_nsE; vm_compute; reflexivity|]. split; [right; exists byeN, true, [bye]; split; reflexivity|]. split; vm_compute; reflexivity.
Qed.
Definition freeG : cfg := alone ∅ (Call (ABroadcast (Some (SendExclude "id-1")) [bye]) (fun _ => Ret tt)).
Definition freeS : sys := play freeG (handshake1 ++ [Act1 (Env (EGo (TUser 0)))]) (init freeG).
(*@exl C70_free.  Connection 1 has finished its handshake, and goroutine 4 of the application broadcasts: the hypotheses of C70_free_partial hold. @*)
Lemma x_C70_free_example : application (careful freeG) freeG /\ reachable freeG freeS /\ s_crash freeS = None /\ b_mu (w_srv (s_w freeS)) = None /\
  valid_api (s_w freeS) (ABroadcast (Some (SendExclude "id-1")) [bye]) = true /\
  s_th freeS !! (4 : tid) = Some (Call (ABroadcast (Some (SendExclude "id-1")) [bye]) (fun _ => Ret None)).
Proof.
  split.
  { apply alone_app; [intros ns evs ev h n m H; rewrite lookup_empty in H; discriminate|]. cbn. split; [reflexivity|]. intros r. auto. }
  split; [apply play_reachable|]. split; [vm_compute; reflexivity|]. split; [vm_compute; reflexivity|]. split; vm_compute; reflexivity.
Qed.
