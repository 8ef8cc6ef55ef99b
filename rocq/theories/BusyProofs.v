(** * BusyProofs.v : proofs of C65: the server loop and callbacks that wait for it. *)
(*@file Prop_Busy.v
From Coq Require Import ZArith.
From stdpp Require Import gmap strings list relations.
From RecordUpdate Require Import RecordUpdate.
From Verif Require Import Go Errors Message World Lang Code Sem Spec_App Spec_Loop Spec_Stuck Spec_Busy Examples BusyProofs.
@*)
From Coq Require Import ZArith Lia.
From stdpp Require Import gmap strings list relations.
From RecordUpdate Require Import RecordUpdate.
From Verif Require Import Go Errors Message World Lang Code Sem ExecProofs Logic Spec_App Frame Spec_Loop Loop Spec_Stuck Spec_Busy Spec_Conn Spec_View Examples Scenes.

(** ** The counters of broadcasts *)
Definition bcok (w : world) : Prop := s_bcaccepted (w_srv w) + length (s_bcast (w_srv w)) = s_bcsent (w_srv w).
Lemma pick_ready w x : pick w (srv_ready (w_srv w)) = Some x ->
  match x with SBroadcast m => exists l, s_bcast (w_srv w) = m :: l | _ => True end.
Proof.
  intros H. unfold pick in H. apply nth_error_In in H. unfold srv_ready in H. destruct x; auto.
  repeat (apply in_app_or in H as [H|H]);
    match type of H with In _ (match ?l with _ => _ end) => destruct l; [destruct H|destruct H as [H|[]]]; try discriminate H; injection H as ->; eauto end.
Qed.
Lemma bcok_op t w o w' r : ostep t w o = Goes w' r -> bcok w -> bcok w'.
Proof.
  intros H Hw. unfold bcok in *. destruct o; cbn [ostep] in H;
    repeat match goal with
    | H : match ?x with _ => _ end = Goes _ _ |- _ => destruct x eqn:?; try discriminate H
    end; try discriminate H; injection H as <- <-; try exact Hw.
  - cbn. rewrite app_length. cbn. lia.
  - match goal with H : pick _ _ = Some _ |- _ => apply pick_ready in H end.
    match goal with x : srvmsg |- _ => destruct x end; cbn in *; try exact Hw. match goal with H : ex _ |- _ => destruct H as [l' E'] end. rewrite E' in *. cbn in *. lia.
Qed.
Lemma env_srv w e : w_srv (env_step e w) = w_srv w /\ w_log (env_step e w) = w_log w.
Proof. destruct e; cbn [env_step]; repeat match goal with |- context [match ?x with _ => _ end] => destruct x eqn:? end; split; reflexivity. Qed.
Lemma bcok_step G a s s' : step G a s = Some s' -> bcok (s_w s) -> bcok (s_w s').
Proof.
  unfold step. destruct (s_crash s); [discriminate|]. destruct a as [t| |e].
  - destruct (s_th s !! t) as [p|]; [|discriminate]. destruct p as [[x|]|o k|b k|why]; cbn [tstep].
    + intros H; injection H as <-. auto.
    + intros H; injection H as <-. auto.
    + destruct (ostep t (s_w s) o) eqn:E; intros H; try discriminate H; injection H as <-; auto. cbn. eapply bcok_op, E.
    + destruct (valid_api (s_w s) b); intros H; try discriminate H; injection H as <-; auto.
    + intros H; injection H as <-. auto.
  - destruct (w_spawn (s_w s)) as [|x l]; [discriminate|]. intros H; injection H as <-. auto.
  - assert (He : bcok (s_w s) -> bcok (env_step e (s_w s))) by (unfold bcok; rewrite (proj1 (env_srv _ _)); auto).
    destruct e; try (destruct (env_ok _); [|discriminate]; intros H; injection H as <-; exact He).
    destruct (startable G code); intros H; try discriminate H; injection H as <-; auto.
Qed.
Lemma bcok_reachable G s : reachable G s -> bcok (s_w s).
Proof.
  intros H. assert (Hi : bcok (s_w (init G))) by reflexivity. revert Hi. unfold reachable, steps in H. induction H as [|x y z [a Ha] _ IH]; auto. intros Hi. apply IH. eapply bcok_step; eassumption.
Qed.

(** ** Programs that wait for the loop whatever happens *)
Definition calm (o : op) : bool :=
  match o with OSrvSelect | OSAdd _ | OSDel _ | OLog (LSrv _) | OActSend _ _ | OBcSend _ | OSClosedReset => false | _ => true end.
Notation tprog := (prog (option tcode)).
Inductive doomed (G : cfg) (a b : nat) : tprog -> Prop :=
| d_act n k : a < n -> doomed G a b (Do (OActAccepted n) k)
| d_bc n k : b < n -> doomed G a b (Do (OBcAccepted n) k)
| d_asend f y k : (forall n, a < n -> doomed G a b (k n)) -> doomed G a b (Do (OActSend f y) k)
| d_bsend m k : (forall n, b < n -> doomed G a b (k n)) -> doomed G a b (Do (OBcSend m) k)
| d_op o k : calm o = true -> (forall r, doomed G a b (k r)) -> doomed G a b (Do o k)
| d_call e k : doomed G a b (bind (impl G e) k) -> doomed G a b (Call e k)
| d_crash why : doomed G a b (Crash why).
Lemma do_doomed G a b f async k : doomed G a b (bind (DoAct f async) k).
Proof. unfold DoAct. cbn [bind opr]. apply d_asend. intros n Hn. cbn. apply d_act. exact Hn. Qed.
Lemma broadcast_doomed G a b except msgs {X} (f : unit -> prog X) k : g_sync G = true -> g_exch G = None -> doomed G a b (bind (bind (Broadcast G except msgs) f) k).
Proof.
  intros H1 H2. assert (H : forall m, doomed G a b (bind (bind (if usesStackExchange G then exch_call G (XPublish m) else if g_sync G then let! n := opr (OBcSend m) in opr (OBcAccepted n) else broadcast m) f) k)).
  { intros m. unfold usesStackExchange. rewrite H1, H2. cbn [bind opr]. apply d_bsend. intros n Hn. cbn. apply d_bc. exact Hn. }
  unfold Broadcast. destruct except as [[c'|n|n|x]|]; cbn [bind exclusion opr]; try apply H; apply d_op; try reflexivity; intros r; cbn [bind]; apply H.
Qed.
Lemma broadcast_doomed1 G a b except msgs k : g_sync G = true -> g_exch G = None -> doomed G a b (bind (Broadcast G except msgs) k).
Proof.
  intros H1 H2. assert (H : forall m, doomed G a b (bind (if usesStackExchange G then exch_call G (XPublish m) else if g_sync G then let! n := opr (OBcSend m) in opr (OBcAccepted n) else broadcast m) k)).
  { intros m. unfold usesStackExchange. rewrite H1, H2. cbn [bind opr]. apply d_bsend. intros n Hn. cbn. apply d_bc. exact Hn. }
  unfold Broadcast. destruct except as [[c'|n|n|x]|]; cbn [bind exclusion opr]; try apply H; apply d_op; try reflexivity; intros r; cbn [bind]; apply H.
Qed.
Lemma call_doomed G a b e k : needs_loop G e -> doomed G a b (Call e k).
Proof.
  intros H. apply d_call. destruct e; cbn [needs_loop] in H; try contradiction; cbn [impl].
  - destruct n as [n|]; [|contradiction]. unfold NSBroadcast. destruct (IsClient G (n_conn n)); [apply d_crash|]. apply broadcast_doomed1; apply H.
  - apply broadcast_doomed1; apply H.
  - unfold ServerAsk. destruct H as [H1 H2]. rewrite H2. cbn [bind opr]. apply d_op; [reflexivity|]. intros now. cbn [bind]. apply d_op; [reflexivity|]. intros ch. cbn [bind]. apply d_op; [reflexivity|]. intros []. cbn [bind].
    apply broadcast_doomed; assumption.
  - apply do_doomed.
Qed.

(** ** The loop never moves on *)
Definition tops (o : op) : bool := match o with OSrvSelect | OSAdd _ | OSDel _ | OLog (LSrv _) => false | _ => true end.
Record same (w w' : world) : Prop := MkSame {
  sm_act : s_actaccepted (w_srv w') = s_actaccepted (w_srv w);
  sm_bc : s_bcaccepted (w_srv w') = s_bcaccepted (w_srv w);
  sm_conns : s_conns (w_srv w') = s_conns (w_srv w);
  sm_log : taken (w_log w') = taken (w_log w) }.
Lemma same_refl w : same w w.
Proof. constructor; reflexivity. Qed.
Lemma same_trans a b c : same a b -> same b c -> same a c.
Proof. intros [] []. constructor; congruence. Qed.
Lemma op_same t w o w' r : tops o = true -> ostep t w o = Goes w' r -> same w w'.
Proof.
  intros Ho H. destruct o; try discriminate Ho; cbn [ostep] in H;
    repeat match goal with
    | H : match ?x with _ => _ end = Goes _ _ |- _ => destruct x eqn:?; try discriminate H
    end; try discriminate H; injection H as <- <-; try (constructor; reflexivity).
  destruct e; try discriminate Ho; constructor; reflexivity.
Qed.
Lemma step_busy G s s' : user_app (fun _ => True) G -> holds (LS G) (Loop.Inv G None None) s -> bcok (s_w s) ->
  (exists p, s_th s !! (0 : tid) = Some p /\ doomed G (s_actaccepted (w_srv (s_w s))) (s_bcaccepted (w_srv (s_w s))) p) ->
  sstep G s s' -> same (s_w s) (s_w s') /\ exists p, s_th s' !! (0 : tid) = Some p /\ doomed G (s_actaccepted (w_srv (s_w s))) (s_bcaccepted (w_srv (s_w s))) p.
Proof.
  intros A (_ & Ls & HI & Hn & _ & Hth) Hb (p & H0 & Hd) [ac Hs]. unfold step in Hs. destruct (s_crash s); [discriminate|].
  destruct (in_loop _ _ _ _ _ HI) as (l0 & _ & HL & _). pose proof (proj2 (li_acts _ _ _ HL)) as Hle.
  destruct ac as [t| |e].
  - destruct (decide (t = (0 : tid))) as [->|Hne].
    + rewrite H0 in Hs. destruct Hd; cbn [tstep] in Hs.
      * cbn [ostep] in Hs. destruct (Nat.leb_spec n (s_actaccepted (w_srv (s_w s)))); [lia|discriminate].
      * cbn [ostep] in Hs. destruct (Nat.leb_spec n (s_bcaccepted (w_srv (s_w s)))); [lia|discriminate].
      * cbn [ostep] in Hs. injection Hs as <-. cbn. split; [constructor; reflexivity|]. eexists. split; [apply lookup_insert|]. apply H. lia.
      * cbn [ostep] in Hs. injection Hs as <-. cbn. split; [constructor; reflexivity|]. eexists. split; [apply lookup_insert|]. apply H. unfold bcok in Hb. lia.
      * destruct (ostep 0 (s_w s) o) as [w' r| |why] eqn:E; try discriminate Hs; injection Hs as <-; cbn.
        -- split; [eapply op_same, E; destruct o; try discriminate; try reflexivity; destruct e; try discriminate; reflexivity|]. eexists. split; [apply lookup_insert|]. apply H1.
        -- split; [apply same_refl|]. exists (Do o k). split; [exact H0|apply d_op; assumption].
      * destruct (valid_api (s_w s) e); [|discriminate]. injection Hs as <-. cbn. split; [apply same_refl|]. eexists. split; [apply lookup_insert|exact Hd].
      * injection Hs as <-. cbn. split; [apply same_refl|]. eexists. split; [exact H0|apply d_crash].
    + destruct (s_th s !! t) as [p'|] eqn:Ht; [|discriminate]. destruct (Hth _ _ Ht) as (l & Hl & Hok). pose proof (in_other _ _ _ _ _ HI _ _ Hl Hne) as Hno.
      assert (Hk : forall w' p1, same (s_w s) w' -> same (s_w s) w' /\ exists p2, <[t := p1]> (s_th s) !! (0 : tid) = Some p2 /\ doomed G (s_actaccepted (w_srv (s_w s))) (s_bcaccepted (w_srv (s_w s))) p2).
      { intros w' p1 H. split; [exact H|]. exists p. rewrite lookup_insert_ne by exact Hne. auto. }
      destruct p' as [[x|]|o k|b k|why]; cbn [tstep] in Hs.
      * injection Hs as <-. apply Hk, same_refl.
      * injection Hs as <-. cbn. split; [apply same_refl|]. exists p. rewrite lookup_delete_ne by exact Hne. auto.
      * destruct (ostep t (s_w s) o) as [w' r| |why] eqn:E; try discriminate Hs; injection Hs as <-; cbn; [|split; [apply same_refl|exists p; auto]].
        apply Hk. eapply op_same, E. cbn [ok] in Hok. destruct o; try reflexivity; cbn in Hok.
        -- exfalso. destruct Hok as [H _]. pose proof (rests_loop _ _ H) as X. exact (eq_true_false_abs _ X Hno).
        -- destruct Hok as [-> _]. discriminate Hno.
        -- destruct Hok as [-> _]. discriminate Hno.
        -- destruct e; try reflexivity. cbn in Hok. destruct Hok as [-> _]. discriminate Hno.
      * destruct (valid_api (s_w s) b); [|discriminate]. injection Hs as <-. apply Hk, same_refl.
      * injection Hs as <-. cbn. split; [apply same_refl|exists p; auto].
  - destruct (w_spawn (s_w s)) as [|x l]; [discriminate|]. injection Hs as <-. cbn. split; [constructor; reflexivity|]. exists p. split; [|exact Hd].
    rewrite lookup_insert_ne; [exact H0|]. intros E. rewrite (Hn (0 : tid)) in H0; [discriminate|lia].
  - assert (He : same (s_w s) (env_step e (s_w s))) by (destruct (env_srv (s_w s) e) as [E1 E2]; constructor; rewrite ?E1, ?E2; reflexivity).
    destruct e; try (destruct (env_ok _); [|discriminate]; injection Hs as <-; cbn [s_w s_th]; split; [exact He|exists p; auto]).
    destruct (startable G code); [|discriminate]. injection Hs as <-. cbn. split; [apply same_refl|]. exists p. split; [|exact Hd].
    rewrite lookup_insert_ne; [exact H0|]. intros E. rewrite (Hn (0 : tid)) in H0; [discriminate|lia].
Qed.
Lemma steps_busy G s s' : user_app (fun _ => True) G -> holds (LS G) (Loop.Inv G None None) s -> bcok (s_w s) ->
  (exists p, s_th s !! (0 : tid) = Some p /\ doomed G (s_actaccepted (w_srv (s_w s))) (s_bcaccepted (w_srv (s_w s))) p) ->
  steps G s s' -> same (s_w s) (s_w s') /\ is_Some (s_th s' !! (0 : tid)).
Proof.
  intros A Hh Hb Hd Hst. revert Hh Hb Hd. unfold steps in Hst. induction Hst as [s|s y z H1 _ IH]; intros Hh Hb Hd.
  - split; [apply same_refl|]. destruct Hd as (p & -> & _). eauto.
  - destruct (step_busy G s y A Hh Hb Hd H1) as [Hs Hd']. destruct IH as [Hs' Hd''].
    + destruct H1 as [a H1]. eapply (step_holds (LS G) (lmono G) G); [apply loop_respects, A|exact Hh|exact H1].
    + destruct H1 as [a H1]. eapply bcok_step; eassumption.
    + rewrite (sm_act _ _ Hs), (sm_bc _ _ Hs). exact Hd'.
    + split; [eapply same_trans; eassumption|exact Hd''].
Qed.

(*@prop C65 fails: whatever the application and the schedule, once a callback that runs on the server's goroutine
    (OnDisconnect, a function given to Do) calls Do, or Broadcast or Ask with a synchronous broadcaster, the server
    takes up nothing any more: no connection, no disconnection, no broadcast and no function, and its set of
    connections stays as it is, for ever. @*)
Lemma l_C65_refuted : forall G s a, user_app (fun _ => True) G -> reachable G s -> loop_calls s a -> needs_loop G a ->
  forall s', steps G s s' ->
    taken (w_log (s_w s')) = taken (w_log (s_w s)) /\ s_conns (w_srv (s_w s')) = s_conns (w_srv (s_w s)) /\ is_Some (s_th s' !! (0 : tid)).
Proof.
  intros G s a A Hr (k & H0) Ha s' Hst.
  destruct (steps_busy G s s' A (loop_reachable G s A Hr) (bcok_reachable G s Hr)) as [[H1 H2 H3 H4] H5]; [|exact Hst|auto].
  exists (Call a k). split; [exact H0|apply call_doomed, Ha].
Qed.
(*@prop C65 fails for Close too: if OnDisconnect, or a function given to Do, closes a server that is still open, then
    the server may end up so that nothing is taken up any more, and the connections are not closed. @*)
Lemma l_C65_close_refuted : forall G s, user_app (fun _ => True) G -> reachable G s -> s_crash s = None -> loop_calls s AServerClose ->
  s_closed (w_srv (s_w s)) = false ->
  exists s1, steps G s s1 /\ forall s', steps G s1 s' ->
    taken (w_log (s_w s')) = taken (w_log (s_w s)) /\ s_conns (w_srv (s_w s')) = s_conns (w_srv (s_w s)) /\ is_Some (s_th s' !! (0 : tid)).
Proof.
  intros G s A Hr Hc (k & H0) Hcl. set (w1 := upd_srv (fun s => s <| s_closed := true |>) (s_w s)).
  assert (H1 : steps G s (Sys w1 (<[(0 : tid) := bind (DoAct ActClose false) k]> (s_th s)) (s_next s) None)).
  { eapply rtc_l; [exists (Step 0); unfold step; rewrite Hc, H0; cbn [tstep]; change (valid_api (s_w s) AServerClose) with true; cbn match; reflexivity|].
    apply rtc_once. exists (Step 0). cbn [step s_crash s_th s_w s_next]. rewrite lookup_insert.
    change (bind (impl G AServerClose) k) with (Do OSClosedCas (fun r => bind (if r : bool then DoAct ActClose false else Ret tt) k)). cbn [tstep ostep]. rewrite Hcl, insert_insert. reflexivity. }
  eexists. split; [exact H1|]. intros s' Hst.
  assert (Hr1 := rtc_transitive _ _ _ Hr H1).
  destruct (steps_busy G _ s' A (loop_reachable G _ A Hr1) (bcok_reachable G _ Hr1)) as [[E1 E2 E3 E4] H5]; [|exact Hst|split; [exact E4|split; [exact E3|exact H5]]].
  eexists. split; [apply lookup_insert|apply do_doomed].
Qed.

(** ** Example *)
Definition call (a : api) : prog unit := Call a (fun _ => Ret tt).
Definition busyG : cfg := {|
  g_client := fun _ => false; g_namespaces := fun _ => lift exA; g_connid := fun _ => "id-1"; g_uuid := "u"; g_ptr := fun c => "0x1";
  g_known := knownErrors0; g_exch := None; g_sync := true; g_firealways := true; g_onconnect := None;
  g_ondisconnect := Some (fun _ => call (ABroadcast None [no_message])); g_do := fun _ _ => call AServerClose;
  g_user := fun k => match k with 0 => call (AClose 1) | _ => call (ADo 7 true) end |}.
Lemma busyG_app : user_app (fun _ => True) busyG.
Proof.
  constructor; try discriminate; try (intros; exact Logic.I).
  - intros. eapply exA_user; eassumption.
  - intros f c [= <-]. cbn. auto.
  - cbn. auto.
  - intros [|k]; cbn; auto.
Qed.
Definition comes (c u : nat) : list cmd := [Act1 (Env (EGo (TUpgrade c))); Go u; Act1 Start; Go 0; Go (S u); Go u].
Definition go0 (n : nat) : list cmd := repeat (Act1 (Step 0)) n.
Definition at_call (f : api -> bool) (p : option tprog) : bool := match p with Some (Call a _) => f a | _ => false end.
Lemma calls_b s f : at_call f (s_th s !! (0 : tid)) = true -> exists a, f a = true /\ loop_calls s a.
Proof.
  unfold loop_calls. generalize (s_th s !! (0 : tid)). intros p H. destruct p as [p|]; [|discriminate H]. destruct p as [r|o k|b k|why]; try discriminate H.
  cbn in H. eauto.
Qed.
Definition bye_run : list cmd := [Go 0] ++ comes 1 1 ++ comes 2 3 ++ [Act1 (Env (EGo (TUser 0))); Go 5; Act1 Start; Go 6] ++ go0 6.
Definition end_run : list cmd := [Go 0] ++ comes 1 1 ++ comes 2 3 ++ [Act1 (Env (EGo (TUser 1))); Go 5] ++ go0 4.

(*@exl C65. A server with two connections.  Connection 1 was closed and OnDisconnect broadcasts; in another run a function
    given to Do closes the server.  Connection 2 is registered in both. @*)
Lemma x_C65_example :
  user_app (fun _ => True) busyG /\
  (exists s, reachable busyG s /\ (exists a, loop_calls s a /\ needs_loop busyG a) /\ told (w_log (s_w s)) = [1] /\ elements (s_conns (w_srv (s_w s))) = [2]) /\
  exists s, reachable busyG s /\ s_crash s = None /\ loop_calls s AServerClose /\ s_closed (w_srv (s_w s)) = false /\ elements (s_conns (w_srv (s_w s))) = [1; 2].
Proof.
  split; [apply busyG_app|]. split.
  - exists (play busyG bye_run (init busyG)). split; [apply play_reachable|]. split; [|split; vm_compute; reflexivity].
    destruct (calls_b (play busyG bye_run (init busyG)) (fun a => match a with ABroadcast _ _ => true | _ => false end)) as (a & Ha & Hc); [vm_compute; reflexivity|].
    exists a. split; [exact Hc|]. destruct a; try discriminate Ha. split; reflexivity.
  - exists (play busyG end_run (init busyG)). split; [apply play_reachable|]. split; [vm_compute; reflexivity|].
    destruct (calls_b (play busyG end_run (init busyG)) (fun a => match a with AServerClose => true | _ => false end)) as (a & Ha & Hc); [vm_compute; reflexivity|].
    destruct a; try discriminate Ha. split; [exact Hc|]. split; vm_compute; reflexivity.
Qed.
