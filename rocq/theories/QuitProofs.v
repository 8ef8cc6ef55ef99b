(** * QuitProofs.v : a closed connection leaves no goroutine behind (C69). *)
From Coq Require Import ZArith.
From stdpp Require Import gmap strings list relations.
From RecordUpdate Require Import RecordUpdate.
From Verif Require Import Go Errors Message World Lang Code Sem ExecProofs Logic Spec_App Spec_Gone SafeRules SafeOps SafeCode SafeProofs End EndProofs Gone AnswerProofs LoopProofs AsyncProofs GoneProofs IdentProofs.
From Verif Require Import Spec_Conn Spec_View Examples Scenes.

(*@file Prop_Quit.v
From Coq Require Import ZArith.
From stdpp Require Import gmap strings list relations.
From Verif Require Import Go Errors Message World Lang Code Sem Spec_App Spec_Gone Examples LoopProofs AsyncProofs QuitProofs. @*)

Definition wg_panic : string := "sync: WaitGroup is reused before previous Wait has returned".

Section quick.
Context (G : cfg) (t : tid) (I : world -> Prop).
(** [p] makes at most [n] more steps, none of which can block in a world of [I]. *)
Fixpoint quick (n : nat) (p : prog (option tcode)) : Prop :=
  match n with
  | 0 => False
  | S n =>
      match p with
      | Ret None => True
      | Do o k => forall w, I w -> match ostep t w o with Goes w' r => quick n (k r) | Blocked => False | Panics why => why <> wg_panic end
      | _ => False
      end
  end.

Context (stable : forall s s', sstep G s s' -> I (s_w s) -> I (s_w s')).

Lemma stable_steps s s' : steps G s s' -> I (s_w s) -> I (s_w s').
Proof. intros H. induction H; eauto. Qed.

Definition ending n (s : sys) : Prop := t < s_next s /\ (s_th s !! t = None \/ exists p, s_th s !! t = Some p /\ quick n p).
Lemma ending_S n p : quick n p -> quick (S n) p.
Proof.
  revert p. induction n as [|n IH]; intros p H; [destruct H|]. destruct p as [[x|]|o k|a k|why]; try exact H.
  intros w Hw. specialize (H w Hw). destruct (ostep t w o); auto.
Qed.
Lemma ending_step n s s' : sstep G s s' -> I (s_w s) -> ending n s -> ending n s'.
Proof.
  intros [a Ha] HI [Hlt H]. unfold step in Ha. destruct (s_crash s) eqn:Ec; [discriminate Ha|]. destruct a as [t'| |e].
  - destruct (s_th s !! t') as [p|] eqn:Ep; [|discriminate Ha]. destruct (decide (t' = t)) as [->|Hne].
    + destruct H as [H|(p0 & H & Hq)]; [congruence|]. rewrite H in Ep. injection Ep as ->.
      destruct n as [|n]; [destruct Hq|]. destruct p as [[x|]|o k|a k|why]; try destruct Hq; cbn in Ha.
      * injection Ha as <-. split; [exact Hlt|]. left. cbn. apply lookup_delete.
      * pose proof (Hq _ HI) as Hk. destruct (ostep t (s_w s) o) as [w' r| |why]; [|discriminate Ha|]; injection Ha as <-; (split; [exact Hlt|]); right; cbn.
        -- rewrite lookup_insert. eexists. split; [reflexivity|]. apply ending_S, Hk.
        -- eauto.
    + destruct (tstep G t' (s_w s) p); try discriminate Ha; injection Ha as <-; (split; [exact Hlt|]); cbn; [rewrite lookup_insert_ne by congruence|rewrite lookup_delete_ne by congruence|]; exact H.
  - destruct (w_spawn (s_w s)) as [|x l]; [discriminate Ha|]. injection Ha as <-. split; cbn; [lia|]. rewrite lookup_insert_ne by lia. exact H.
  - destruct e; try (destruct (env_ok _); [|discriminate Ha]; injection Ha as <-; split; [exact Hlt|exact H]).
    destruct (startable G code); [|discriminate Ha]. injection Ha as <-. split; cbn; [lia|]. rewrite lookup_insert_ne by lia. exact H.
Qed.
Lemma ending_steps n s s' : steps G s s' -> I (s_w s) -> ending n s -> ending n s'.
Proof. intros H. induction H as [|s1 s2 s3 H1 _ IH]; [auto|]. intros HI He. apply IH; [eapply stable; eassumption|eapply ending_step; eassumption]. Qed.

(** It ends by its own steps. *)
Lemma quick_run n : forall s p, application (careful G) G -> reachable G s -> s_crash s = None -> I (s_w s) -> s_th s !! t = Some p -> quick n p ->
  exists m s', m <= n /\ run G (replicate m (Step t)) s = Some s' /\ s_th s' !! t = None.
Proof.
  induction n as [|n IH]; intros s p HA Hr Hc HI Ht Hq; [destruct Hq|]. destruct p as [[x|]|o k|a k|why0]; try destruct Hq.
  - exists 1. eexists. split; [lia|]. split; [|shelve]. cbn [replicate run]. unfold step. rewrite Hc, Ht. cbn. reflexivity.
    Unshelve. cbn. apply lookup_delete.
  - pose proof (Hq _ HI) as Hk'. destruct (ostep t (s_w s) o) as [w' r| |why] eqn:Eo; [|destruct Hk'|].
    + assert (Es : step G (Step t) s = Some (Sys w' (<[t := k r]> (s_th s)) (s_next s) None)).
      { unfold step. rewrite Hc, Ht. cbn. rewrite Eo. reflexivity. }
      assert (Hs : sstep G s (Sys w' (<[t := k r]> (s_th s)) (s_next s) None)) by (eexists; exact Es).
      destruct (IH (Sys w' (<[t := k r]> (s_th s)) (s_next s) None) (k r) HA) as (m & s' & Hm & Hrun & Hn).
      * eapply rtc_r; eassumption.
      * reflexivity.
      * exact (stable _ _ Hs HI).
      * cbn. apply lookup_insert.
      * exact Hk'.
      * exists (S m), s'. split; [lia|]. split; [|exact Hn]. cbn [replicate run]. rewrite Es. exact Hrun.
    + exfalso. apply Hk'.
      assert (Es : step G (Step t) s = Some (Sys (s_w s) (s_th s) (s_next s) (Some why))).
      { unfold step. rewrite Hc, Ht. cbn. rewrite Eo. reflexivity. }
      eapply (l_C45_one_panic G); [exact HA| |].
      * eapply rtc_r; [exact Hr|]. eexists. exact Es.
      * reflexivity.
Qed.
End quick.

Lemma sock_op c t w o w' r : ostep t w o = Goes w' r -> c_sockclosed (conn_of w c) = true -> c_sockclosed (conn_of w' c) = true.
Proof.
  intros H Hg.
  assert (Hu : forall c0 f w1, conn_of w1 c = conn_of w c -> (c0 = c -> c_sockclosed (f (conn_of w c)) = true) -> c_sockclosed (conn_of (upd_conn c0 f w1) c) = true).
  { intros c0 f w1 E Hf. destruct (decide (c0 = c)) as [->|Hne]; unfold conn_of at 1; cbn; [rewrite lookup_insert; cbn; rewrite E; auto|rewrite lookup_insert_ne by exact Hne; fold (conn_of w1 c); rewrite E; exact Hg]. }
  destruct o; cbn [ostep] in H;
    repeat match goal with
    | H : match ?x with _ => _ end = Goes _ _ |- _ => destruct x eqn:?; try discriminate H
    end; try discriminate H; injection H as <- <-; try exact Hg;
    first [apply Hu; [reflexivity|intros _; cbn; first [exact Hg|reflexivity|match goal with |- context [match ?x with _ => _ end] => destruct x; exact Hg end]] | idtac].
  all: match goal with H : w_conns _ !! ?x = None |- _ => unfold conn_of in *; cbn; destruct (decide (x = c)) as [->|Hne]; [rewrite H in Hg; discriminate Hg|rewrite lookup_insert_ne by exact Hne; exact Hg] end.
Qed.
Lemma sock_env c w e : c_sockclosed (conn_of w c) = true -> c_sockclosed (conn_of (env_step e w) c) = true.
Proof.
  intros Hg.
  destruct e; cbn [env_step]; repeat match goal with |- context [match ?x with _ => _ end] => destruct x eqn:? end; try exact Hg.
  all: unfold conn_of, upd_conn in *; cbn; match goal with |- context [<[?x := _]> _ !! ?y] => destruct (decide (x = y)) as [->|Hne]; [rewrite lookup_insert; exact Hg|rewrite lookup_insert_ne by exact Hne; exact Hg] end.
Qed.
Lemma world_stable (I : world -> Prop) G :
  (forall t w o w' r, ostep t w o = Goes w' r -> I w -> I w') -> (forall w e, I w -> I (env_step e w)) -> (forall w l, I w -> I (w <| w_spawn := l |>)) ->
  forall s s', sstep G s s' -> I (s_w s) -> I (s_w s').
Proof.
  intros Ho He Hsp s s' [a Ha] HI. unfold step in Ha. destruct (s_crash s) eqn:Ec; [discriminate Ha|]. destruct a as [t| |e].
  - destruct (s_th s !! t) as [p|]; [|discriminate Ha]. destruct (tstep G t (s_w s) p) as [w' p'|w'| |why] eqn:E; try discriminate Ha; injection Ha as <-; cbn; [| |exact HI].
    + destruct p as [[x|]|o k|a k|why]; cbn in E; try discriminate E; [injection E as <- _; exact HI| |].
      * destruct (ostep t (s_w s) o) eqn:Eo; try discriminate E. injection E as <- _. eapply Ho; eassumption.
      * destruct (valid_api (s_w s) a); [|discriminate E]. injection E as <- _. exact HI.
    + destruct p as [[x|]|o k|a k|why]; cbn in E; try discriminate E; [injection E as <-; exact HI| |].
      * destruct (ostep t (s_w s) o); discriminate E.
      * destruct (valid_api (s_w s) a); discriminate E.
  - destruct (w_spawn (s_w s)); [discriminate Ha|]. injection Ha as <-. exact (Hsp _ _ HI).
  - assert (Hx : (exists x, e = EGo x) \/ s' = Sys (env_step e (s_w s)) (s_th s) (s_next s) None).
    { destruct e; try (left; eauto; fail); right; match type of Ha with (if ?b then _ else _) = _ => destruct b; [|discriminate Ha] end; congruence. }
    destruct Hx as [[x ->]| ->]; [|exact (He _ _ HI)]. destruct (startable G x); [|discriminate Ha]. injection Ha as <-. exact HI.
Qed.

Definition shutdown (c : cid) (w : world) : Prop := c_sockclosed (conn_of w c) = true /\ gone c w.
Lemma shutdown_stable G c s s' : sstep G s s' -> shutdown c (s_w s) -> shutdown c (s_w s').
Proof.
  intros Hs [H1 H2]. split; [revert Hs H1; apply (world_stable (fun w => c_sockclosed (conn_of w c) = true)); [intros; eapply sock_op; eassumption|apply sock_env|auto]|].
  eapply stays_gone; [apply rtc_once; eassumption|exact H2].
Qed.
Lemma quick_do t (I : world -> Prop) n o k : (forall w, I w -> match ostep t w o with Goes w' r => quick t I n (k r) | Blocked => False | Panics why => why <> wg_panic end) -> quick t I (S n) (Do o k).
Proof. auto. Qed.
Lemma quick_ret t (I : world -> Prop) n : quick t I (S n) (Ret None).
Proof. exact Logic.I. Qed.
Lemma close_quick G c t n : quick t (shutdown c) (S (S n)) (bind (Close G c) (fun _ => Ret None)).
Proof. unfold Close. apply quick_do. intros w [_ Hg]. unfold gone in Hg. cbn [ostep]. rewrite Hg. apply quick_ret. Qed.
Lemma reader_quick G c t : quick t (shutdown c) 10 (code G (TReader c)) /\ quick t (shutdown c) 10 (code G (TReaderLoop c)).
Proof.
  split; cbn [code].
  - apply quick_do. intros w [_ Hg]. unfold gone in Hg. cbn [ostep]. rewrite Hg. apply quick_ret.
  - unfold reader_step, unwait. apply quick_do. intros w [Hs _]. cbn [ostep]. rewrite Hs.
    apply quick_do. intros w1 _. cbn [ostep bind opr]. destruct (w_ready _); [apply close_quick|].
    apply quick_do. intros w2 _. cbn [ostep]. apply quick_do. intros w3 _. cbn [ostep]. apply quick_do. intros w4 _. cbn [ostep].
    destruct (w_locked _); [|apply close_quick].
    apply quick_do. intros w5 _. cbn [ostep]. destruct (w_chclosed _); [discriminate|]. apply close_quick.
Qed.

(*@prop C69.  Whatever the application and the schedule: a goroutine that reads (or is about to read) a connection that has been closed needs nobody to
    end.  At any later moment it has ended, or it ends after at most ten steps of its own. @*)
Lemma l_C69_reader_partial : forall G c t s s',
  application (careful G) G -> reachable G s -> is_closed G s c -> c_sockclosed (conn_of (s_w s) c) = true ->
  s_th s !! t = Some (code G (TReader c)) \/ s_th s !! t = Some (code G (TReaderLoop c)) ->
  steps G s s' -> s_crash s' = None ->
  exists n s'', n <= 10 /\ run G (replicate n (Step t)) s' = Some s'' /\ s_th s'' !! t = None.
Proof.
  intros G c t s s' HA Hr Hcl Hs Ht Hst Hcr. apply says_closed in Hcl.
  assert (HI : shutdown c (s_w s)) by (split; assumption).
  assert (He : ending t (shutdown c) 10 s).
  { split.
    - destruct (Nat.lt_ge_cases t (s_next s)) as [|Hge]; [assumption|]. rewrite (reachable_numbered G s Hr t Hge) in Ht. destruct Ht; discriminate.
    - right. destruct (reader_quick G c t). destruct Ht as [->| ->]; eauto. }
  apply (ending_steps G t (shutdown c) (shutdown_stable G c) 10 s s' Hst HI) in He as [_ [Hn|(p & Hp & Hq)]].
  - exists 0, s'. split; [lia|]. split; [reflexivity|exact Hn].
  - eapply quick_run; try eassumption; [apply shutdown_stable|eapply rtc_transitive; eassumption|].
    eapply stable_steps; [apply shutdown_stable|exact Hst|exact HI].
Qed.

(** The current channel of the broadcaster is open. *)
Lemma gen_open G s : application (careful G) G -> reachable G s -> b_gen (w_srv (s_w s)) ∉ b_closed (w_srv (s_w s)).
Proof.
  intros HA Hr.
  assert (HA' : application (fun a => careful G a /\ (true = false -> no_connect a)) G) by (eapply application_mono; [|exact HA]; intros a H; split; [exact H|discriminate]).
  eapply (reachable_holds (safe G true) (rule_mono_safe G true) G (SafeRules.Inv G true) (SafeProofs.safe_respects G true HA')) in Hr.
  - destruct Hr as (_ & Ls & [_ HI] & _). intros H. destruct (i_swap _ _ _ _ HI (b_gen (w_srv (s_w s)))) as (_ & _ & Hlt). apply Hlt in H. lia.
  - exists (GL [] RNone ∅ 1). split; [split; reflexivity|apply SafeProofs.init_inv].
Qed.

Lemma select_closed (t : tid) w g c : g ∉ b_closed (w_srv w) -> c_closeCh (conn_of w c) = true -> ostep t w (OBSelect g c) = Goes (pop_seed w) false.
Proof. intros E1 E2. cbn [ostep]. cbn. rewrite bool_decide_eq_false_2 by exact E1. rewrite E2. cbn [Datatypes.app]. rewrite AskProofs.pick_one. reflexivity. Qed.
Lemma run_do G (t : tid) n w th nx o k w' r s' : th !! t = Some (Do o k) -> ostep t w o = Goes w' r ->
  run G (replicate n (Step t)) (Sys w' (<[t := k r]> th) nx None) = Some s' -> run G (replicate (S n) (Step t)) (Sys w th nx None) = Some s'.
Proof. intros H E R. cbn [replicate run]. unfold step. cbn [s_crash s_th s_w s_next]. rewrite H. cbn [tstep]. rewrite E. exact R. Qed.

(*@prop C69 (missing: the rounds that are under way).  Whatever the application: if the goroutine that delivers the broadcasts to a connection is at the
    start of a round, the connection has been closed, and nobody holds the lock of the broadcaster, then it ends after at most
    ten steps of its own. @*)
Lemma l_C69_deliverer_partial : forall G c t s,
  application (careful G) G -> reachable G s -> s_crash s = None -> c_closeCh (conn_of (s_w s) c) = true -> b_mu (w_srv (s_w s)) = None ->
  s_th s !! t = Some (code G (TWaitMessages c)) ->
  exists n s', n <= 10 /\ run G (replicate n (Step t)) s = Some s' /\ s_th s' !! t = None.
Proof.
  intros G c t s HA Hr Hcr Hch Hmu Ht. pose proof (gen_open G s HA Hr) as Hg.
  destruct s as [w th nx cr]. cbn in Hcr, Hch, Hmu, Ht, Hg. subst cr. unfold code, waitMessages in Ht. cbn [bind opr] in Ht.
  exists 7. eexists. split; [lia|]. split; [|shelve].
  eapply (run_do G t _ _ _ _ OBLock); [exact Ht|cbn [ostep]; rewrite Hmu; reflexivity|].
  cbv beta; eapply (run_do G t _ _ _ _ OBAwaiter); [apply lookup_insert|cbn [ostep]; reflexivity|].
  cbv beta; eapply (run_do G t _ _ _ _ OBUnlock); [apply lookup_insert|cbn [ostep w_srv b_mu upd_srv]; cbn; rewrite Nat.eqb_refl; reflexivity|].
  cbv beta; eapply (run_do G t _ _ _ _ (OBSelect _ c)); [apply lookup_insert| |].
  { apply select_closed; [exact Hg|exact Hch]. }
  cbv beta; eapply (run_do G t _ _ _ _ OBLock); [apply lookup_insert|cbn; reflexivity|].
  cbv beta; eapply (run_do G t _ _ _ _ OBUnlock); [apply lookup_insert|cbn; rewrite Nat.eqb_refl; reflexivity|].
  cbn [replicate run]. unfold step. cbn [s_crash s_th s_w s_next]. rewrite lookup_insert. cbn. reflexivity.
  Unshelve. cbn. apply lookup_delete.
Qed.

(** A goroutine that is not run stays where it is. *)
Definition away (t : tid) (x : cmd) : bool := match x with Go t' => negb (Nat.eqb t' t) | Act1 (Step t') => negb (Nat.eqb t' t) | _ => true end.
Lemma away_step G (t : tid) a s s' : away t (Act1 a) = true -> t < s_next s -> step G a s = Some s' -> s_th s' !! t = s_th s !! t /\ t < s_next s'.
Proof.
  intros Ha Hlt H. unfold step in H. destruct (s_crash s); [discriminate H|]. destruct a as [t'| |e]; cbn in Ha.
  - apply negb_true_iff, Nat.eqb_neq in Ha. destruct (s_th s !! t') as [p|]; [|discriminate H].
    destruct (tstep G t' (s_w s) p); try discriminate H; injection H as <-; (split; [|exact Hlt]); cbn; [rewrite lookup_insert_ne by exact Ha|rewrite lookup_delete_ne by exact Ha|]; reflexivity.
  - destruct (w_spawn (s_w s)); [discriminate H|]. injection H as <-. cbn. split; [rewrite lookup_insert_ne by lia; reflexivity|lia].
  - destruct e; try (destruct (env_ok _); [|discriminate H]; injection H as <-; split; [reflexivity|exact Hlt]).
    destruct (startable G code); [|discriminate H]. injection H as <-. cbn. split; [rewrite lookup_insert_ne by lia; reflexivity|lia].
Qed.
Lemma away_drive G (t t' : tid) n : t' <> t -> forall s, t < s_next s -> s_th (drive G n t' s) !! t = s_th s !! t /\ t < s_next (drive G n t' s).
Proof.
  intros Hne. induction n as [|n IH]; intros s Hlt; [split; [reflexivity|exact Hlt]|]. cbn [drive]. destruct (step G (Step t') s) as [s1|] eqn:E; [|split; [reflexivity|exact Hlt]].
  apply away_step with (t := t) in E as [E1 E2]; [|cbn; apply negb_true_iff, Nat.eqb_neq, Hne|exact Hlt]. destruct (IH s1 E2) as [E3 E4]. split; [congruence|exact E4].
Qed.
Lemma away_play G (t : tid) l : forallb (away t) l = true -> forall s, t < s_next s -> s_th (play G l s) !! t = s_th s !! t.
Proof.
  induction l as [|x l IH]; intros Ha s Hlt; [reflexivity|]. cbn [forallb] in Ha. apply andb_true_iff in Ha as [Hx Hl]. destruct x as [a|t']; cbn [play].
  - destruct (step G a s) as [s1|] eqn:E; cbn [default]; [|apply IH; assumption]. destruct (away_step G t a s s1 Hx Hlt E) as [E1 E2].
    change (default s (Some s1)) with s1. rewrite IH by assumption. exact E1.
  - cbn in Hx. apply negb_true_iff, Nat.eqb_neq in Hx. destruct (away_drive G t t' 500 Hx s Hlt) as [E1 E2]. rewrite IH by assumption. exact E1.
Qed.

(** The application exG, one goroutine of which closes connection 1. *)
Definition quitG : cfg := {|
  g_client := fun c => Nat.eqb c 2;
  g_namespaces := fun _ => lift exA;
  g_connid := fun c => "id-1";
  g_uuid := "u";
  g_ptr := fun c => "0x1";
  g_known := knownErrors0;
  g_exch := None;
  g_sync := false;
  g_firealways := false;
  g_onconnect := None;
  g_ondisconnect := None;
  g_do := fun _ _ => Ret tt;
  g_user := fun _ => call (AClose 1) |}.
Lemma quitG_app : application (careful quitG) quitG.
Proof.
  constructor; try discriminate; try (intros; exact Logic.I).
  - intros. eapply exA_app; eassumption.
  - intros k. cbn. split; [exact Logic.I|]. intros r _. exact Logic.I.
  - exact known0_text.
Qed.
Definition quit_start : sys := play quitG [Go 0; Act1 (Env (EGo (TUpgrade 1))); Go 1] (init quitG).
Definition quit_end : list cmd := [Act1 (Env (EDeliver 1 TextMessage "M1")); Act1 (Env (EGo (TUser 0))); Go 4].
Definition quitS : sys := play quitG quit_end (play quitG [Act1 Start; Act1 Start] quit_start).
Lemma quitS_reachable : reachable quitG quitS.
Proof. unfold quitS, quit_start. rewrite <- !play_app. apply play_reachable. Qed.
Lemma two_starts G w th nx x y : w_spawn w = [x; y] ->
  let s := play G [Act1 Start; Act1 Start] (Sys w th nx None) in s_th s = <[S nx := code G y]> (<[nx := code G x]> th) /\ s_next s = S (S nx).
Proof.
  intros E. cbv zeta.
  assert (H : forall w th nx x l, w_spawn w = x :: l -> step G Start (Sys w th nx None) = Some (Sys (w <| w_spawn := l |>) (<[nx := code G x]> th) (S nx) None)).
  { intros w0 th0 nx0 x0 l E0. unfold step. cbn [s_crash s_w]. rewrite E0. reflexivity. }
  cbn [play]. rewrite (H _ _ _ _ _ E). change (default _ (Some ?x)) with x. rewrite (H (w <| w_spawn := [y] |>) _ _ y [] ltac:(destruct w; reflexivity)). split; reflexivity.
Qed.
Lemma quit_threads : s_th quitS !! (3 : tid) = Some (code quitG (TReader 1)) /\ s_th quitS !! (2 : tid) = Some (code quitG (TWaitMessages 1)).
Proof.
  assert (Hs : w_spawn (s_w quit_start) = [TWaitMessages 1; TReader 1] /\ s_next quit_start = 2 /\ s_crash quit_start = None) by (split; [|split]; vm_compute; reflexivity).
  unfold quitS. generalize dependent quit_start. intros [w th nx cr] (E1 & E2 & E3). cbn [s_w s_next s_crash] in E1, E2, E3. subst nx cr.
  pose proof (two_starts quitG w th 2 _ _ E1) as [Et En].
  generalize dependent (play quitG [Act1 Start; Act1 Start] (Sys w th 2 None)). intros s2 Et En.
  rewrite !away_play by (first [reflexivity|rewrite En; lia]). rewrite Et.
  split; [apply lookup_insert|]. rewrite lookup_insert_ne by discriminate. apply lookup_insert.
Qed.
(*@exl C69.  A goroutine of the application has closed connection 1 right after the upgrade; its reader (goroutine 3) and its deliverer (goroutine 2) have not
    done anything yet.  They end. @*)
Lemma x_C69_example : application (careful quitG) quitG /\ reachable quitG quitS /\ s_crash quitS = None /\
  is_closed quitG quitS 1 /\ c_sockclosed (conn_of (s_w quitS) 1) = true /\ c_closeCh (conn_of (s_w quitS) 1) = true /\ b_mu (w_srv (s_w quitS)) = None /\
  s_th quitS !! (3 : tid) = Some (code quitG (TReader 1)) /\ s_th quitS !! (2 : tid) = Some (code quitG (TWaitMessages 1)) /\
  let s := play quitG [Go 3; Go 2] quitS in s_th s !! (2 : tid) = None /\ s_th s !! (3 : tid) = None.
Proof.
  split; [apply quitG_app|]. split; [apply quitS_reachable|]. split; [vm_compute; reflexivity|]. split; [apply says_closed; vm_compute; reflexivity|].
  split; [vm_compute; reflexivity|]. split; [vm_compute; reflexivity|]. split; [vm_compute; reflexivity|].
  split; [apply quit_threads|]. split; [apply quit_threads|]. split; vm_compute; reflexivity.
Qed.
