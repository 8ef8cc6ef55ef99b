(** * LoopProofs.v : broadcasts, the registry, Do and Close of the server. *)
From Coq Require Import ZArith.
From stdpp Require Import gmap strings list relations.
From RecordUpdate Require Import RecordUpdate.
From Verif Require Import Go Errors Message World Lang Code Sem ExecProofs Logic Spec_App.
From Verif Require Import Spec_Answer AnswerProofs Frame Spec_Loop Loop History.
From Verif Require Import Spec_View Examples Scenes.

(** ** What the invariant says about a reachable state. *)
Lemma loop_state G b pa s : holds (LS G) (Inv G b pa) s -> exists Ls l0, Ls !! (0 : tid) = Some l0 /\ LInv G (s_w s) l0 /\ Inv G b pa (s_w s) Ls.
Proof. intros (_ & Ls & HI & _). destruct (in_loop _ _ _ _ _ HI) as (l0 & H0 & HL & _). eauto. Qed.
Lemma loop_linv G s : user_app (fun _ => True) G -> reachable G s -> exists l0, LInv G (s_w s) l0.
Proof. intros A H. destruct (loop_state _ _ _ _ (loop_reachable G s A H)) as (Ls & l0 & _ & HL & _). eauto. Qed.
(** A goroutine of the loop's code has the loop's label. *)
Lemma loop_label G s (t : tid) o k : user_app (fun _ => True) G -> reachable G s -> s_th s !! t = Some (Do o k) ->
  exists l (P : res o -> lab -> Prop), lrule G l o P /\ (loopl l = true -> LInv G (s_w s) l).
Proof.
  intros A H Ht. destruct (loop_reachable G s A H) as (_ & Ls & HI & _ & _ & Hok). destruct (Hok t _ Ht) as (l & Hl & Ho).
  exists l. cbn [ok] in Ho. eexists. split; [exact Ho|]. intros Hll. eapply loop_zero; eassumption.
Qed.
Lemma loop_idle G s : user_app (fun _ => True) G -> reachable G s -> loop_waits s -> LInv G (s_w s) Idle.
Proof.
  intros A H [k Hk]. destruct (loop_label G s 0 _ _ A H Hk) as (l & P & [Hr _] & HL).
  eapply linv_rest; [apply HL, rests_loop with (G := G); exact Hr|exact Hr].
Qed.
Lemma loop_took G s y l2 l1 : user_app (fun _ => True) G -> reachable G s -> w_log (s_w s) = l2 ++ LSrv y :: l1 ->
  exists s1, reachable G s1 /\ steps G s1 s /\ w_log (s_w s1) = l1 /\ LInv G (s_w s1) (Took y).
Proof.
  intros A H El. destruct (recorded G s l2 _ l1 H El) as (s1 & s2 & t & o & k & H1 & H2 & H3 & H4 & _ & Ht & Ho).
  exists s1. split; [exact H1|]. split; [eapply rtc_l; eassumption|]. split; [exact H4|].
  assert (o = OLog (LSrv y)) as -> by (destruct o; try discriminate; injection Ho as ->; reflexivity).
  destruct (loop_label G s1 t _ _ A H1 Ht) as (l & P & [-> _] & HL). apply HL. reflexivity.
Qed.

(** ** Histories *)
Lemma withdrawn_in l c : c ∈ withdrawn l -> LSrv (SConnect c) ∈ l /\ LSrv (SDisconnect c) ∈ l.
Proof.
  assert (Hm : forall l, c ∈ members l -> LSrv (SConnect c) ∈ l).
  { clear l. induction l as [|e l IH]; cbn [members]; [set_solver|]. destruct e; try (intros H; constructor; apply IH, H).
    destruct x as [c'|c'|m|a]; try (intros H; constructor; apply IH, H).
    - rewrite elem_of_union, elem_of_singleton. intros [->|H]; [constructor|constructor; apply IH, H].
    - rewrite elem_of_difference. intros [H _]. constructor. apply IH, H. }
  induction l as [|e l IH]; cbn [withdrawn]; [intros H; inversion H|].
  destruct e; try (intros H; destruct (IH H); split; constructor; assumption).
  destruct x as [c'|c'|m|a]; try (intros H; destruct (IH H); split; constructor; assumption).
  case_decide as Hd; [|intros H; destruct (IH H); split; constructor; assumption].
  rewrite elem_of_cons. intros [->|H]; [|destruct (IH H); split; constructor; assumption]. split; [constructor; apply Hm, Hd|constructor].
Qed.
Lemma in_announced l c : LSrv (SConnect c) ∈ l -> c ∈ announced l.
Proof.
  induction l as [|e l IH]; [intros H; inversion H|]. rewrite elem_of_cons. intros [<-|H]; [constructor|].
  specialize (IH H). destruct e; try exact IH. destruct x; try exact IH. constructor. exact IH.
Qed.
Lemma announced_tail e l : NoDup (announced (e :: l)) -> NoDup (announced l).
Proof. destruct e; auto. destruct x; auto. cbn. intros H. inversion H. assumption. Qed.
Lemma withdrawn_out l c : NoDup (announced l) -> c ∈ withdrawn l -> c ∉ members l.
Proof.
  induction l as [|e l IH]; [intros _ H; inversion H|]. intros Hn.
  pose proof (announced_tail e l Hn) as Hn'. specialize (IH Hn').
  destruct e; try exact IH. destruct x as [c'|c'|m|a]; try exact IH.
  - cbn [members withdrawn announced] in *. intros H. specialize (IH H). apply withdrawn_in in H as [H _]. apply in_announced in H.
    inversion Hn; subst. set_solver.
  - cbn [members withdrawn]. case_decide as Hd; [|intros H; specialize (IH H); set_solver].
    rewrite elem_of_cons. intros [->|H]; [set_solver|specialize (IH H); set_solver].
Qed.
Lemma withdrawn_once l : NoDup (announced l) -> NoDup (withdrawn l).
Proof.
  induction l as [|e l IH]; [constructor|]. intros Hn. pose proof (announced_tail e l Hn) as Hn'. specialize (IH Hn').
  destruct e; try exact IH. destruct x as [c'|c'|m|a]; try exact IH. cbn [withdrawn]. case_decide as Hd; [|exact IH].
  constructor; [|exact IH]. intros H. exact (withdrawn_out l c' Hn' H Hd).
Qed.
Lemma sublist_in {X} (l1 l2 : list X) x : sublist l1 l2 -> x ∈ l1 -> x ∈ l2.
Proof. induction 1; auto; rewrite ?elem_of_cons; intuition. Qed.
Lemma nodup_sublist {X} (l1 l2 : list X) : sublist l1 l2 -> NoDup l2 -> NoDup l1.
Proof.
  induction 1 as [|x l1 l2 H IH|x l1 l2 H IH]; intros Hn; [constructor| |]; inversion Hn as [|? ? Hx Hn']; subst; [|apply IH, Hn'].
  constructor; [|apply IH, Hn']. intros Hi. apply Hx. eapply sublist_in; eassumption.
Qed.

(** ** Following one goroutine *)
Lemma steps_numbered G s s' : numbered s -> steps G s s' -> numbered s'.
Proof. intros H Hs. induction Hs as [|s1 s2 s3 [a Ha] _ IH]; [exact H|]. apply IH. eapply step_numbered; eassumption. Qed.
Lemma until G s s' (t : tid) q : numbered s -> s_th s !! t = Some q -> steps G s s' ->
  s_th s' !! t = Some q \/
  exists s1 s2, steps G s s1 /\ s_th s1 !! t = Some q /\ sstep G s1 s2 /\ steps G s2 s' /\
    match tstep G t (s_w s1) q with
    | TNext w' q' => s_w s2 = w' /\ s_th s2 !! t = Some q'
    | TDone w' => s_th s2 !! t = None
    | _ => False
    end.
Proof.
  intros HN Ht Hs. revert HN Ht. induction Hs as [s|s s2 s3 [a Ha] Hs IH]; intros HN Ht; [left; exact Ht|].
  assert (Hgo : s_th s2 !! t = Some q -> s_th s3 !! t = Some q \/
    exists s1 s2', steps G s s1 /\ s_th s1 !! t = Some q /\ sstep G s1 s2' /\ steps G s2' s3 /\
    match tstep G t (s_w s1) q with
    | TNext w' q' => s_w s2' = w' /\ s_th s2' !! t = Some q'
    | TDone w' => s_th s2' !! t = None
    | _ => False
    end).
  { intros H2. destruct (IH (step_numbered _ _ _ _ HN Ha) H2) as [H|(s1 & s2' & H1 & H3)]; [left; exact H|].
    right. exists s1, s2'. split; [eapply rtc_l; [exists a; exact Ha|exact H1]|exact H3]. }
  destruct (step_thread _ _ _ _ _ _ HN Ha Ht) as [H|[-> H]]; [apply Hgo, H|].
  destruct (tstep G t (s_w s) q) as [w' q'|w'| |why] eqn:E; [| |contradiction|apply Hgo, H].
  - right. exists s, s2. split; [apply rtc_refl|]. split; [exact Ht|]. split; [exists (Step t); exact Ha|]. split; [exact Hs|]. rewrite E. exact H.
  - right. exists s, s2. split; [apply rtc_refl|]. split; [exact Ht|]. split; [exists (Step t); exact Ha|]. split; [exact Hs|]. rewrite E. exact H.
Qed.
Lemma until_op G s s' (t : tid) o k : numbered s -> s_th s !! t = Some (Do o k) -> steps G s s' ->
  s_th s' !! t = Some (Do o k) \/
  exists s1 s2 r, steps G s s1 /\ s_th s1 !! t = Some (Do o k) /\ sstep G s1 s2 /\ steps G s2 s' /\
    ostep t (s_w s1) o = Goes (s_w s2) r /\ s_th s2 !! t = Some (k r).
Proof.
  intros HN Ht Hs. destruct (until G s s' t _ HN Ht Hs) as [H|(s1 & s2 & H1 & H2 & H3 & H4 & H)]; [left; exact H|]. right.
  cbn [tstep] in H. destruct (ostep t (s_w s1) o) as [w' r| |] eqn:E; try contradiction. destruct H as [<- H].
  exists s1, s2, r. auto 8.
Qed.

(** The action [a0] that a goroutine sent is the only one with its ticket. *)
Lemma same_ticket (l : list act) a b : NoDup (a_ticket <$> l) -> a ∈ l -> b ∈ l -> a_ticket a = a_ticket b -> a = b.
Proof.
  induction l as [|x l IH]; [intros _ H; inversion H|]. rewrite fmap_cons, NoDup_cons. intros [Hx Hn]. rewrite !elem_of_cons.
  intros [->|Ha] [->|Hb] E; auto.
  - exfalso. apply Hx. rewrite E. apply elem_of_list_fmap_1, Hb.
  - exfalso. apply Hx. rewrite <- E. apply elem_of_list_fmap_1, Ha.
Qed.
Lemma offered_inv G w Ls a0 : Inv G None None w Ls -> a0 ∈ s_acts (w_srv w) -> Inv G None (Some a0) w Ls.
Proof.
  intros [(l0 & H0 & HI & HU & HC & HF) Ho Hu Hs] Ha. constructor; auto. exists l0. split; [exact H0|]. split; [exact HI|]. split; [exact HU|].
  split; [exact HC|]. intros a1 [= <-]. destruct (li_acts _ _ _ HI) as [Ht Hle].
  assert (Hin : a_ticket a0 ∈ seq (S (s_actaccepted (w_srv w))) (s_actsent (w_srv w) - s_actaccepted (w_srv w))).
  { rewrite <- Ht. apply elem_of_list_fmap_1, Ha. }
  rewrite elem_of_seq in Hin. split; [lia|]. intros a [H|[H|H]] E.
  - eapply same_ticket; [|exact H|exact Ha|exact E]. rewrite Ht. apply NoDup_seq.
  - subst l0. destruct (li_cur _ _ _ HI a eq_refl) as [H _]. lia.
  - destruct (li_old _ _ _ HI a H) as [H' _]. lia.
Qed.
Lemma split_after {X} (l2 : list X) x l1 l m : l2 ++ x :: l1 = l ++ m -> x ∉ m -> exists l', l1 = l' ++ m.
Proof.
  revert l. induction l2 as [|y l2 IH]; intros l E Hx; destruct l as [|z l]; cbn in E.
  - subst m. exfalso. apply Hx. constructor.
  - injection E as _ E. eauto.
  - subst m. exfalso. apply Hx. constructor. apply elem_of_app. right. constructor.
  - injection E as _ E. eapply IH; eassumption.
Qed.

Lemma do_run G f (t : tid) kont s s' : user_app (fun _ => True) G -> reachable G s ->
  s_th s !! t = Some (bind (DoAct f false) kont) -> steps G s s' ->
  still G s' t (DoAct f false) kont \/
  exists s1, steps G s s1 /\ steps G s1 s' /\ s_th s1 !! t = Some (kont tt) /\ performed s s1 f.
Proof.
  intros A Hr Ht Hs. pose proof (reachable_numbered G s Hr) as HN.
  assert (Hst : forall p', s_th s' !! t = Some (bind p' kont) -> inside G (DoAct f false) p' -> still G s' t (DoAct f false) kont).
  { intros p' Hp Hin. exists (bind p' kont), p'. split; [exact Hp|]. split; [exact Hin|]. apply same_refl. }
  pose proof (inside_here G (DoAct f false)) as In1. unfold DoAct in In1 at 2. cbn [bind opr negb] in In1.
  unfold DoAct in Ht. cbn [bind opr negb] in Ht.
  destruct (until_op G s s' t _ _ HN Ht Hs) as [H|(s1 & s2 & i & H1 & H2 & H3 & H4 & E & H5)].
  { left. refine (Hst _ _ In1). exact H. }
  apply inside_do with (r := i) in In1. cbn in In1. cbn in H5.
  assert (Hr1 : reachable G s1) by (eapply rtc_transitive; [exact Hr|exact H1]).
  assert (Hr2 : reachable G s2) by (eapply rtc_r; [exact Hr1|exact H3]).
  destruct (until_op G s2 s' t _ _ (reachable_numbered G s2 Hr2) H5 H4) as [H|(s3 & s4 & u & H6 & H7 & H8 & H9 & _ & H10)].
  { left. refine (Hst _ _ In1). exact H. }
  apply inside_do with (r := u) in In1. cbn in In1. cbn in H10.
  assert (Hr4 : steps G s2 s4) by (eapply rtc_r; [exact H6|exact H8]).
  destruct (until_op G s4 s' t _ _ (steps_numbered _ _ _ (reachable_numbered G s2 Hr2) Hr4) H10 H9) as [H|(s5 & s6 & u' & H11 & H12 & H13 & H14 & Ew & H15)].
  { left. refine (Hst _ _ In1). exact H. }
  right. exists s6. cbn in E. injection E as E1 E2.
  set (a0 := Act f true i).
  assert (Ha0 : a0 ∈ s_acts (w_srv (s_w s2))).
  { rewrite <- E1. cbn. apply elem_of_app. right. unfold a0. rewrite <- E2. apply elem_of_list_singleton. reflexivity. }
  assert (Hold : LSrv (SAction a0) ∉ w_log (s_w s1)).
  { intros Hin. destruct (loop_linv G s1 A Hr1) as (l0 & HL). destruct (li_old _ _ _ HL _ Hin) as [Hk _].
    destruct (li_acts _ _ _ HL) as [_ Hk']. cbn in Hk. lia. }
  assert (Hh : holds (LS G) (Inv G None (Some a0)) s2).
  { destruct (loop_reachable G s2 A Hr2) as (Hc & Ls & HI & Hrest). split; [exact Hc|]. exists Ls. split; [|exact Hrest]. apply offered_inv; assumption. }
  assert (H26 : steps G s2 s6) by (eapply rtc_transitive; [exact Hr4|]; eapply rtc_r; eassumption).
  apply (steps_holds (LS G) (lmono G) G _ (loop_respects G None (Some a0) A) s2 s6) in Hh; [|exact H26].
  destruct Hh as (_ & Ls & HI & _). destruct (in_loop _ _ _ _ _ HI) as (l0 & H0 & HL & _ & _ & HF).
  assert (Hdone : i ∈ s_actdone (w_srv (s_w s6))).
  { cbn in Ew. case_bool_decide as Hd; [|discriminate]. injection Ew as <- _. exact Hd. }
  destruct (li_done _ _ _ HL i Hdone) as (a & Hin & Ek).
  destruct (HF a0 eq_refl) as [_ HF']. assert (a = a0) as -> by (apply HF'; [right; right; exact Hin|exact Ek]).
  apply elem_of_list_split in Hin as (l2 & l1 & El).
  split; [eapply rtc_transitive; [exact H1|]; eapply rtc_l; [exact H3|exact H26]|]. split; [exact H14|].
  split; [destruct u'; exact H15|]. exists i, l2, l1. split; [exact El|]. split.
  - destruct (steps_log G s1 s6) as [l El']; [eapply rtc_l; [exact H3|exact H26]|].
    rewrite El in El'. destruct (split_after _ _ _ _ _ El' Hold) as [l' ->]. destruct (steps_log _ _ _ H1) as [l'' ->].
    exists (l' ++ l''). apply app_assoc.
  - apply (li_served _ _ _ HL _ _ _ El). exact Hdone.
Qed.

Lemma booted G s : user_app (fun _ => True) G -> reachable G s -> started s -> holds (LS G) (Inv G (Some false) None) s.
Proof.
  intros A Hr Hst. destruct (loop_reachable G s A Hr) as (Hcr & Ls & HI & Hn & Hd & Hok). split; [exact Hcr|]. exists Ls. split; [|auto].
  destruct HI as [(l0 & H0 & HI & HU & HC & HF) Ho Hu Hsp]. constructor; auto. exists l0. split; [exact H0|]. split; [exact HI|]. split; [exact HU|].
  split; [|exact HF]. intros b [= <-]. split; [discriminate|]. intros ->. destruct Hst as [[k Hk]|[y Hy]].
  - destruct (Hok 0 _ Hk) as (l & Hl & Hrule). pose proof (eq_trans (eq_sym H0) Hl) as E. injection E as <-. cbn in Hrule. destruct Hrule as [[] _].
  - exact (li_boot _ _ _ HI y eq_refl Hy).
Qed.
Lemma flag_stays G s s1 s2 : user_app (fun _ => True) G -> reachable G s -> started s -> steps G s s1 ->
  s_closed (w_srv (s_w s1)) = true -> steps G s1 s2 -> s_closed (w_srv (s_w s2)) = true.
Proof.
  intros A Hr Hst Hs Hc Hs2. pose proof (booted G s A Hr Hst) as Hh.
  apply (steps_holds (LS G) (lmono G) G _ (loop_respects G (Some false) None A) s s1) in Hh; [|exact Hs].
  assert (Hh1 : holds (LS G) (Inv G (Some true) None) s1).
  { destruct Hh as (Hcr & Ls & HI & Hn & Hd & Hok). split; [exact Hcr|]. exists Ls. split; [|auto].
    destruct HI as [(l0 & H0 & HI & HU & HC & HF) Ho Hu Hsp]. constructor; auto. exists l0. split; [exact H0|]. split; [exact HI|]. split; [exact HU|].
    split; [|exact HF]. intros b [= <-]. split; [auto|]. apply (HC false eq_refl). }
  apply (steps_holds (LS G) (lmono G) G _ (loop_respects G (Some true) None A) s1 s2) in Hh1; [|exact Hs2].
  destruct Hh1 as (_ & Ls & HI & _). destruct (in_loop _ _ _ _ _ HI) as (l0 & H0 & HL & _ & HC & _). apply (HC true eq_refl). reflexivity.
Qed.

(*@file Prop_Loop.v
From Coq Require Import ZArith.
From stdpp Require Import gmap strings list relations.
From RecordUpdate Require Import RecordUpdate.
From Verif Require Import Go Errors Message World Lang Code Sem Spec_View Examples.
From Verif Require Import Spec_App Scenes Spec_Answer Spec_Loop. @*)

(*@prop C34. With SyncBroadcaster, whatever the application does and however goroutines interleave: when the server
    loop takes up anything, every connection has been offered exactly the broadcasts that were taken up before while it
    was registered, each once and in that order. @*)
Lemma l_C34_rounds : forall (G : cfg) (s : sys) c y l2 l1,
  user_app (fun _ => True) G -> g_sync G = true -> reachable G s ->
  w_log (s_w s) = l2 ++ LSrv y :: l1 -> offered c l1 = casts_for c l1.
Proof.
  intros G s c y l2 l1 A Hs Hr El. destruct (loop_took G s y l2 l1 A Hr El) as (s1 & _ & _ & <- & HL).
  symmetry. apply (li_cast _ _ _ HL Hs).
Qed.

(*@prop C34. The same holds for the whole history whenever the server loop waits. @*)
Lemma l_C34_rest : forall (G : cfg) (s : sys) c,
  user_app (fun _ => True) G -> g_sync G = true -> reachable G s -> loop_waits s ->
  offered c (w_log (s_w s)) = casts_for c (w_log (s_w s)).
Proof. intros G s c A Hs Hr Hw. symmetry. apply (li_cast _ _ _ (loop_idle G s A Hr Hw) Hs). Qed.

(*@prop C34. At any other time a connection lacks at most the broadcast that was taken up last, and no broadcast is
    offered that was not taken up or is offered twice. @*)
Lemma l_C34_always : forall (G : cfg) (s : sys) c,
  user_app (fun _ => True) G -> g_sync G = true -> reachable G s ->
  exists pending, length pending <= 1 /\ casts_for c (w_log (s_w s)) = pending ++ offered c (w_log (s_w s)).
Proof.
  intros G s c A Hs Hr. destruct (loop_linv G s A Hr) as (l0 & HL). exists (owedB (s_conns (w_srv (s_w s))) l0 c).
  split; [|apply (li_cast _ _ _ HL Hs)]. destruct l0 as [| | | | |[]| | | | | |]; cbn; try lia; case_decide; cbn; lia.
Qed.

(*@prop C37. In every reachable state in which the server loop waits, GetTotalConnections returns the number of
    connections that were announced and not withdrawn, and these are the registered connections. @*)
Lemma l_C37_total_partial : forall (G : cfg) (s : sys) (t : tid),
  user_app (fun _ => True) G -> reachable G s -> loop_waits s ->
  exec t (impl G ATotal) (s_w s) = XDone (s_w s) (Z.of_nat (size (members (w_log (s_w s))))) /\
  s_conns (w_srv (s_w s)) = members (w_log (s_w s)).
Proof.
  intros G s t A Hr Hw. pose proof (loop_idle G s A Hr Hw) as HL.
  pose proof (li_mem _ _ _ HL) as Hm. pose proof (li_count _ _ _ HL) as Hc. cbn in Hm, Hc. rewrite Hm.
  split; [|reflexivity]. cbn. rewrite Hc. repeat f_equal. lia.
Qed.

(*@prop C37. At any other time, too, GetTotalConnections is off by at most one, by the connection the loop is
    registering or removing. @*)
Lemma l_C37_any_time_partial : forall (G : cfg) (s : sys) (t : tid),
  user_app (fun _ => True) G -> reachable G s ->
  exists z, exec t (impl G ATotal) (s_w s) = XDone (s_w s) z /\ (Z.abs (z - Z.of_nat (size (members (w_log (s_w s))))) <= 1)%Z.
Proof.
  intros G s t A Hr. destruct (loop_linv G s A Hr) as (l0 & HL).
  pose proof (li_mem _ _ _ HL) as Hm. pose proof (li_count _ _ _ HL) as Hc. exists (s_count (w_srv (s_w s))). split; [reflexivity|]. rewrite Hm, Hc. clear Hm Hc.
  pose proof (li_lab _ _ _ HL) as Hl. destruct l0 as [| | | | |[]| | | | | |]; cbn [seen lag]; try lia.
  - rewrite size_union by set_solver. rewrite size_singleton. lia.
  - assert (size (s_conns (w_srv (s_w s)) ∖ {[c]}) <= size (s_conns (w_srv (s_w s))) <= S (size (s_conns (w_srv (s_w s)) ∖ {[c]}))); [|lia].
    split; [apply subseteq_size; set_solver|].
    etransitivity; [apply (subseteq_size _ ({[c]} ∪ (s_conns (w_srv (s_w s)) ∖ {[c]})))|]; [intros x; destruct (decide (x = c)); set_solver|].
    rewrite size_union by set_solver. rewrite size_singleton. lia.
  - assert (size (s_conns (w_srv (s_w s)) ∖ {[c]}) <= size (s_conns (w_srv (s_w s))) <= S (size (s_conns (w_srv (s_w s)) ∖ {[c]}))); [|lia].
    split; [apply subseteq_size; set_solver|].
    etransitivity; [apply (subseteq_size _ ({[c]} ∪ (s_conns (w_srv (s_w s)) ∖ {[c]})))|]; [intros x; destruct (decide (x = c)); set_solver|].
    rewrite size_union by set_solver. rewrite size_singleton. lia.
Qed.

Lemma announced_nodup G s : user_app (fun _ => True) G -> reachable G s -> NoDup (announced (w_log (s_w s))).
Proof.
  intros A Hr. destruct (loop_linv G s A Hr) as (l0 & HL). pose proof (li_tick _ _ _ HL) as H. unfold tickets in H.
  apply NoDup_app in H as (_ & _ & H). apply NoDup_app in H as (_ & _ & H). exact H.
Qed.
(*@prop C37. A connection is announced at most once.  OnDisconnect is called at most once per connection, only for
    connections that were announced and withdrawn, and such a connection is not registered again. @*)
Lemma l_C37_once_partial : forall (G : cfg) (s : sys),
  user_app (fun _ => True) G -> reachable G s ->
  NoDup (announced (w_log (s_w s))) /\ NoDup (told (w_log (s_w s))) /\
  forall c, c ∈ told (w_log (s_w s)) ->
    LSrv (SConnect c) ∈ w_log (s_w s) /\ LSrv (SDisconnect c) ∈ w_log (s_w s) /\ c ∉ members (w_log (s_w s)).
Proof.
  intros G s A Hr. pose proof (announced_nodup G s A Hr) as Hn. split; [exact Hn|].
  destruct (loop_linv G s A Hr) as (l0 & HL).
  assert (Hsub : sublist (told (w_log (s_w s))) (withdrawn (w_log (s_w s)))).
  { etransitivity; [|apply (li_told _ _ _ HL)]. apply sublist_inserts_l. reflexivity. }
  split; [eapply nodup_sublist; [exact Hsub|apply withdrawn_once, Hn]|].
  intros c Hc. apply (sublist_in _ _ _ Hsub) in Hc. destruct (withdrawn_in _ _ Hc) as [H1 H2].
  split; [exact H1|]. split; [exact H2|]. apply withdrawn_out; assumption.
Qed.

(*@prop C37. If OnDisconnect is set and FireDisconnectAlways too, then whenever the server loop waits OnDisconnect has
    been called for exactly the members that were withdrawn, in that order. @*)
Lemma l_C37_each_partial : forall (G : cfg) (s : sys),
  user_app (fun _ => True) G -> always_told G -> reachable G s -> loop_waits s ->
  told (w_log (s_w s)) = withdrawn (w_log (s_w s)).
Proof. intros G s A Ha Hr Hw. symmetry. apply (li_always _ _ _ (loop_idle G s A Hr Hw) Ha). Qed.

(*@prop C55. When the server loop takes up anything, every connection has been passed to exactly the functions given to
    Do that were taken up before while it was registered, each once and in that order. @*)
Lemma l_C55_rounds : forall (G : cfg) (s : sys) c y l2 l1,
  user_app (fun _ => True) G -> reachable G s ->
  w_log (s_w s) = l2 ++ LSrv y :: l1 -> done_for c l1 = dos_for c l1.
Proof.
  intros G s c y l2 l1 A Hr El. destruct (loop_took G s y l2 l1 A Hr El) as (s1 & _ & _ & <- & HL).
  symmetry. apply (li_do _ _ _ HL).
Qed.
(*@prop C55. The same holds for the whole history whenever the server loop waits. @*)
Lemma l_C55_rest : forall (G : cfg) (s : sys) c,
  user_app (fun _ => True) G -> reachable G s -> loop_waits s ->
  done_for c (w_log (s_w s)) = dos_for c (w_log (s_w s)).
Proof. intros G s c A Hr Hw. symmetry. apply (li_do _ _ _ (loop_idle G s A Hr Hw)). Qed.

(*@prop C55. A goroutine that called Do without async is still in that call, or the call returned in a state by which
    the loop had taken up the function, after the call, and had called it with every connection registered then. @*)
Lemma l_C55_sync : forall (G : cfg) (s s' : sys) (t : tid) f kont,
  user_app (fun _ => True) G -> reachable G s ->
  s_th s !! t = Some (bind (impl G (ADo f false)) kont) -> steps G s s' ->
  still G s' t (impl G (ADo f false)) kont \/
  exists s1, steps G s s1 /\ steps G s1 s' /\ got s1 t kont tt /\ performed s s1 (ActUser f).
Proof.
  intros G s s' t f kont A Hr Ht Hs. destruct (do_run G (ActUser f) t kont s s' A Hr Ht Hs) as [H|(s1 & H1 & H2 & H3 & H4)]; [left; exact H|].
  right. exists s1. split; [exact H1|]. split; [exact H2|]. split; [|exact H4]. exists (kont tt). split; [exact H3|apply same_refl].
Qed.

(*@prop C38. A goroutine that called Close of a running server is still in that call, or the call returned in a state in
    which the server is marked as closed and either every connection that was registered when the loop took up the
    closing, after the call, is closed, or another Close came first. @*)
Lemma l_C38_close_partial : forall (G : cfg) (s s' : sys) (t : tid) kont,
  user_app (fun _ => True) G -> reachable G s -> started s ->
  s_th s !! t = Some (bind (impl G AServerClose) kont) -> steps G s s' ->
  still G s' t (impl G AServerClose) kont \/
  exists s1, steps G s s1 /\ steps G s1 s' /\ got s1 t kont tt /\ s_closed (w_srv (s_w s1)) = true /\
    (performed s s1 ActClose \/
     exists s0, steps G s s0 /\ steps G s0 s1 /\ s_th s0 !! t = Some (bind (impl G AServerClose) kont) /\ s_closed (w_srv (s_w s0)) = true).
Proof.
  intros G s s' t kont A Hr Hst Ht Hs. pose proof (reachable_numbered G s Hr) as HN.
  pose proof (inside_here G (impl G AServerClose)) as In1. cbn [impl] in *. unfold ServerClose in In1 at 2. cbn [bind opr] in In1.
  unfold ServerClose in Ht. cbn [bind opr] in Ht.
  destruct (until_op G s s' t _ _ HN Ht Hs) as [H|(s0 & s2 & r & H1 & H2 & H3 & H4 & E & H5)].
  { left. eexists _, _. split; [exact H|]. split; [exact In1|]. apply same_refl. }
  apply inside_do with (r := r) in In1. cbn [bind] in In1, H5.
  assert (Hr0 : reachable G s0) by (eapply rtc_transitive; [exact Hr|exact H1]).
  assert (Hr2 : reachable G s2) by (eapply rtc_r; [exact Hr0|exact H3]).
  assert (Hs2 : steps G s s2) by (eapply rtc_r; [exact H1|exact H3]).
  assert (Hc2 : s_closed (w_srv (s_w s2)) = true).
  { cbn in E. destruct (s_closed (w_srv (s_w s0))) eqn:Ec; injection E as <- <-; [exact Ec|reflexivity]. }
  destruct r.
  - destruct (do_run G ActClose t kont s2 s' A Hr2 H5 H4) as [(q & p' & Hq & Hin & Hsame)|(s1 & H6 & H7 & H8 & H9)].
    + left. exists q, p'. split; [exact Hq|]. split; [|exact Hsame].
      clear -In1 Hin. induction Hin as [|o k r Hin IH|a k Hin IH]; [exact In1|apply (inside_do _ _ o), IH|apply inside_call, IH].
    + right. exists s1. assert (Hs1 : steps G s s1) by (eapply rtc_transitive; eassumption).
      split; [exact Hs1|]. split; [exact H7|]. split; [exists (kont tt); split; [exact H8|apply same_refl]|].
      destruct (steps_log _ _ _ Hs2) as [l El].
      destruct H9 as (i & l2 & l1 & E1 & [l' E2] & E3).
      split.
      * eapply flag_stays; [exact A|exact Hr|exact Hst|exact Hs2|exact Hc2|exact H6].
      * left. exists i, l2, l1. split; [exact E1|]. split; [exists (l' ++ l); rewrite E2, El; apply app_assoc|exact E3].
  - right. exists s2. split; [exact Hs2|]. split; [exact H4|]. split; [exists (kont tt); split; [exact H5|apply same_refl]|].
    split; [exact Hc2|]. right. exists s0. split; [exact H1|]. split; [apply rtc_once; exact H3|]. split; [exact H2|].
    cbn in E. destruct (s_closed (w_srv (s_w s0))) eqn:Ec; [reflexivity|discriminate E].
Qed.

(*@prop C38. Once a running server is marked as closed it stays so, and every Upgrade that starts then is refused with
    the error "server closed": its goroutine does nothing else. @*)
Lemma l_C38_refused_partial : forall (G : cfg) (s s1 s2 s3 : sys) (t : tid) c,
  user_app (fun _ => True) G -> reachable G s -> started s -> steps G s s1 -> s_closed (w_srv (s_w s1)) = true -> steps G s1 s2 ->
  s_closed (w_srv (s_w s2)) = true /\
  (s_th s2 !! t = Some (code G (TUpgrade c)) -> steps G s2 s3 ->
   s_th s3 !! t = Some (code G (TUpgrade c)) \/
   s_th s3 !! t = Some (Do (OLog (LUpgraded c (Some EServerClosed))) (fun _ => Ret None)) \/
   (s_th s3 !! t = Some (Ret None) \/ s_th s3 !! t = None) /\ LUpgraded c (Some EServerClosed) ∈ w_log (s_w s3)).
Proof.
  intros G s s1 s2 s3 t c A Hr Hst Hs1 Hc Hs2.
  assert (Hcl : forall s', steps G s2 s' -> s_closed (w_srv (s_w s')) = true).
  { intros s' H. eapply flag_stays; [exact A|exact Hr|exact Hst|exact Hs1|exact Hc|]. eapply rtc_transitive; eassumption. }
  split; [apply Hcl, rtc_refl|]. intros Ht Hs3.
  assert (HN : numbered s2) by (eapply steps_numbered; [|exact Hs2]; eapply steps_numbered; [|exact Hs1]; apply (reachable_numbered G), Hr).
  assert (Eq : exists k, code G (TUpgrade c) = Do OSClosedLoad k /\ k true = Do (OLog (LUpgraded c (Some EServerClosed))) (fun _ => Ret None)).
  { eexists. split; reflexivity. }
  destruct Eq as (k & Eq & Ek). rewrite Eq in *.
  destruct (until_op G s2 s3 t _ _ HN Ht Hs3) as [H|(s4 & s5 & r & H1 & H2 & H3 & H4 & E & H5)]; [left; exact H|]. right.
  assert (r = true) as ->. { cbn in E. injection E as _ <-. apply Hcl, H1. }
  rewrite Ek in H5. assert (HN5 : numbered s5) by (eapply steps_numbered; [exact HN|]; eapply rtc_r; eassumption).
  destruct (until_op G s5 s3 t _ _ HN5 H5 H4) as [H|(s6 & s7 & u & H6 & H7 & H8 & H9 & E' & H10)]; [left; exact H|]. right.
  assert (HN7 : numbered s7) by (eapply steps_numbered; [exact HN5|]; eapply rtc_r; eassumption).
  split.
  - assert (Hlt : t < s_next s7) by (destruct (Nat.lt_ge_cases t (s_next s7)) as [|Hge]; [assumption|rewrite (HN7 _ Hge) in H10; discriminate]).
    destruct (until G s7 s3 t _ HN7 H10 H9) as [H|(s8 & s9 & H11 & H12 & H13 & H14 & H15)]; [left; exact H|]. right. cbn in H15.
    assert (HN8 : numbered s8) by (eapply steps_numbered; eassumption).
    assert (Hlt9 : t < s_next s9 /\ numbered s9).
    { assert (Hmono : forall s s', numbered s -> t < s_next s -> sstep G s s' -> t < s_next s').
      { clear. intros s s' _ Hlt [a H]. unfold step in H. destruct (s_crash s); [discriminate|]. destruct a as [t'| |e].
        - destruct (s_th s !! t') as [p|]; [|discriminate]. destruct (tstep G t' (s_w s) p); inversion H; subst; exact Hlt.
        - destruct (w_spawn (s_w s)); [discriminate|]. inversion H; subst; cbn. lia.
        - destruct e; try (destruct (env_ok _); inversion H; subst; exact Hlt). destruct (startable G code); inversion H; subst; cbn. lia. }
      assert (H8' : t < s_next s8) by (destruct (Nat.lt_ge_cases t (s_next s8)) as [|Hge]; [assumption|rewrite (HN8 _ Hge) in H12; discriminate]).
      split; [eapply Hmono; eassumption|]. destruct H13 as [a Ha]. eapply step_numbered; eassumption. }
    clear -H15 Hlt9 H14. revert H15 Hlt9. induction H14 as [|s1 s2 s3 [a Ha] _ IH]; intros H [Hlt HN]; [exact H|]. apply IH.
    + clear IH. unfold step in Ha. destruct (s_crash s1); [discriminate|]. destruct a as [t'| |e].
      * destruct (s_th s1 !! t') as [p|] eqn:Ep; [|discriminate]. assert (t' <> t) by congruence.
        destruct (tstep G t' (s_w s1) p); inversion Ha; subst; cbn; [rewrite lookup_insert_ne by assumption|rewrite lookup_delete_ne by assumption|]; exact H.
      * destruct (w_spawn (s_w s1)); [discriminate|]. inversion Ha; subst; cbn. rewrite lookup_insert_ne by lia. exact H.
      * destruct e; try (destruct (env_ok _); inversion Ha; subst; exact H). destruct (startable G code); inversion Ha; subst; cbn. rewrite lookup_insert_ne by lia. exact H.
    + split; [|eapply step_numbered; eassumption]. unfold step in Ha. destruct (s_crash s1); [discriminate|]. destruct a as [t'| |e].
      * destruct (s_th s1 !! t') as [p|] eqn:Ep; [|discriminate].
        destruct (tstep G t' (s_w s1) p); inversion Ha; subst; exact Hlt.
      * destruct (w_spawn (s_w s1)); [discriminate|]. inversion Ha; subst; cbn. lia.
      * destruct e; try (destruct (env_ok _); inversion Ha; subst; exact Hlt). destruct (startable G code); inversion Ha; subst; cbn. lia.
  - destruct (steps_log _ _ _ H9) as [l ->]. apply elem_of_app. right. cbn in E'. injection E' as <- _. cbn. constructor.
Qed.

(** ** A server with an application that uses all of this *)
Definition hello : message := set_body "hi" (set_event "echo" (set_namespace "chat" no_message)).
Definition loopG : cfg := {|
  g_client := fun _ => false;
  g_namespaces := fun _ => lift exA;
  g_connid := fun _ => "id-1";
  g_uuid := "u";
  g_ptr := fun c => "0x1";
  g_known := knownErrors0;
  g_exch := None;
  g_sync := true;
  g_firealways := true;
  g_onconnect := None;
  g_ondisconnect := Some (fun _ => Ret tt);
  g_do := fun _ _ => Ret tt;
  g_user := fun k =>
    match k with
    | 0 => call (ABroadcast None [hello])
    | 1 => call (ADo 7 false)
    | 2 => call AServerClose
    | _ => call (AClose 1)
    end |}.
Lemma loopG_app : user_app (fun _ => True) loopG.
Proof.
  constructor; try discriminate; try (intros; exact Logic.I).
  - intros. eapply exA_user; eassumption.
  - intros f c [= <-]. exact Logic.I.
  - intros [|[|[|k]]]; cbn; auto.
Qed.
(** Connection [c] arrives: [u] is its Upgrade, [u + 1] its reader. *)
Definition comes (c u : nat) : list cmd :=
  [Act1 (Env (EGo (TUpgrade c))); Go u; Act1 Start; Go 0; Go (S u); Go u].
(** Goroutine [t] of the application does [k], the loop serves it. *)
Definition acts (k : nat) (t : nat) : list cmd := [Act1 (Env (EGo (TUser k))); Go t; Go 0; Go t].
Definition loop_run : list cmd :=
  [Go 0] ++ comes 1 1 ++ comes 2 3 ++ acts 0 5 ++ acts 3 6 ++ [Act1 Start; Go 7; Go 0] ++ acts 0 8 ++ acts 1 9.
Definition loopS : sys := play loopG loop_run (init loopG).
(** Server.Close is called and has returned. *)
Definition closedS : sys := play loopG (acts 2 10) loopS.

Definition at_select (p : option (prog (option tcode))) : bool :=
  match p with Some (Do OSrvSelect _) => true | _ => false end.
Lemma loop_waits_b s : at_select (s_th s !! (0 : tid)) = true -> loop_waits s.
Proof.
  unfold loop_waits. generalize (s_th s !! (0 : tid)). intros p H. destruct p as [p|]; [|discriminate H].
  destruct p as [r|o k|a k|why]; try discriminate H. destruct o; try discriminate H. eauto.
Qed.

Lemma loopS_reachable : reachable loopG loopS.
Proof. apply play_reachable. Qed.
Lemma closedS_steps : steps loopG loopS closedS.
Proof. apply play_steps. Qed.

(*@exl C34, C37, C55. A server with two connections.  The application broadcasts, closes connection 1, broadcasts again
    and passes a function to Do.  Connection 1 was offered one batch, connection 2 both; OnDisconnect was called for
    connection 1; the function was called with connection 2 only. @*)
Lemma x_C34_example :
  let l := w_log (s_w loopS) in
  user_app (fun _ => True) loopG /\ g_sync loopG = true /\ always_told loopG /\ reachable loopG loopS /\ loop_waits loopS /\
  offered 1 l = [[hello]] /\ offered 2 l = [[hello]; [hello]] /\ casts_for 2 l = [[hello]; [hello]] /\
  announced l = [2; 1] /\ told l = [1] /\ members l = {[2]} /\ done_for 1 l = [] /\ done_for 2 l = [7].
Proof.
  cbv zeta. split; [apply loopG_app|]. split; [reflexivity|]. split; [split; [discriminate|reflexivity]|]. split; [apply loopS_reachable|].
  split; [apply loop_waits_b; vm_compute; reflexivity|].
  assert (E : members (w_log (s_w loopS)) = {[2]}) by decide_eq. rewrite E.
  repeat split; vm_compute; reflexivity.
Qed.

(*@exl C38. The server is closed then: connection 2 is closed and an Upgrade is refused. @*)
Lemma x_C38_example :
  let s := play loopG [Act1 (Env (EGo (TUser 2))); Act1 (Step 10)] loopS in
  let s' := play loopG [Act1 (Env (EGo (TUpgrade 3))); Go 11] closedS in
  started s /\ s_th s !! (10 : tid) = Some (bind (impl loopG AServerClose) (fun _ => Ret None)) /\ c_closed (conn_of (s_w s) 2) = false /\
  s_th closedS !! (10 : tid) = None /\ c_closed (conn_of (s_w closedS) 2) = true /\ s_closed (w_srv (s_w closedS)) = true /\
  LUpgraded 3 (Some EServerClosed) ∈ w_log (s_w s').
Proof.
  cbv zeta. split; [left; apply loop_waits_b; vm_compute; reflexivity|].
  split; [vm_compute; reflexivity|]. split; [vm_compute; reflexivity|]. split; [vm_compute; reflexivity|]. split; [vm_compute; reflexivity|].
  split; [vm_compute; reflexivity|].
  assert (E : exists l, w_log (s_w (play loopG [Act1 (Env (EGo (TUpgrade 3))); Go 11] closedS)) = LUpgraded 3 (Some EServerClosed) :: l).
  { eexists. vm_compute. reflexivity. }
  destruct E as [l ->]. constructor.
Qed.

(** Connection 1 is closed by its peer before the loop has seen it. *)
Definition leak_run : list cmd :=
  [Go 0; Act1 (Env (EGo (TUpgrade 1))); Go 1; Act1 Start; Go 1;
   Act1 (Env (EReadEnd 1 EEOF)); Go 2; Act1 Start; Go 3; Act1 (Env (ESeeds [1; 0])); Go 0].
Definition leakS : sys := play loopG leak_run (init loopG).

(** Is the event recorded?  For the examples. *)
Definition upgraded (c : cid) (l : list event) : bool :=
  existsb (fun e => match e with LUpgraded c' None => Nat.eqb c' c | _ => false end) l.

(*@prop C37, violated: the loop may take up the disconnection of a connection before its connection.  In this state
    nothing is left to do, connection 1 is closed, and it stays registered and counted; OnDisconnect was not called
    although it is set and FireDisconnectAlways too. @*)
Lemma l_C37_refuted :
  always_told loopG /\ reachable loopG leakS /\ loop_waits leakS /\
  s_connbuf (w_srv (s_w leakS)) = [] /\ s_disc (w_srv (s_w leakS)) = [] /\ w_spawn (s_w leakS) = [] /\
  c_closed (conn_of (s_w leakS) 1) = true /\ s_conns (w_srv (s_w leakS)) = {[1]} /\ s_count (w_srv (s_w leakS)) = 1%Z /\
  told (w_log (s_w leakS)) = [].
Proof.
  split; [split; [discriminate|reflexivity]|]. split; [apply play_reachable|]. split; [apply loop_waits_b; vm_compute; reflexivity|].
  assert (E : s_conns (w_srv (s_w leakS)) = {[1]}) by decide_eq. rewrite E.
  repeat split; vm_compute; reflexivity.
Qed.

(** Close is called before the loop has run at all; then connection 1 arrives. *)
Definition early : sys := play loopG ([Act1 (Env (EGo (TUser 2))); Go 1; Go 0; Go 1]) (init loopG).
Definition late : sys := play loopG (comes 1 2) early.
(*@prop C38, violated: Close was called before the server loop had started and has returned; then an Upgrade is accepted. @*)
Lemma l_C38_early_refuted :
  reachable loopG early /\ s_th early !! (1 : tid) = None /\ s_closed (w_srv (s_w early)) = false /\
  steps loopG early late /\ s_th early !! (2 : tid) = None /\ upgraded 1 (w_log (s_w late)) = true /\
  s_conns (w_srv (s_w late)) = {[1]} /\ c_closed (conn_of (s_w late) 1) = false.
Proof.
  split; [apply play_reachable|]. assert (E : s_conns (w_srv (s_w late)) = {[1]}) by decide_eq. rewrite E.
  do 2 (split; [vm_compute; reflexivity|]). split; [apply play_steps|]. repeat split; vm_compute; reflexivity.
Qed.

(** Upgrade has read the flag when Close is called. *)
Definition passing : list cmd :=
  [Go 0; Act1 (Env (EGo (TUpgrade 1))); Act1 (Step 1); Act1 (Env (EGo (TUser 2))); Go 2; Go 0; Go 2].
Definition passed : sys := play loopG passing (init loopG).
Definition leftover : sys := play loopG [Go 1; Act1 Start; Go 0; Go 1] passed.
(*@prop C38, violated: Close of a running server has returned; an Upgrade that had read the flag before is accepted, and
    its connection is registered and stays open. @*)
Lemma l_C38_race_refuted :
  reachable loopG passed /\ s_th passed !! (2 : tid) = None /\ s_closed (w_srv (s_w passed)) = true /\
  steps loopG passed leftover /\ upgraded 1 (w_log (s_w leftover)) = true /\
  s_conns (w_srv (s_w leftover)) = {[1]} /\ c_closed (conn_of (s_w leftover) 1) = false /\ s_acts (w_srv (s_w leftover)) = [].
Proof.
  split; [apply play_reachable|]. assert (E : s_conns (w_srv (s_w leftover)) = {[1]}) by decide_eq. rewrite E.
  do 2 (split; [vm_compute; reflexivity|]). split; [apply play_steps|]. repeat split; vm_compute; reflexivity.
Qed.

(** Two goroutines call Close. *)
Definition second : sys := play loopG [Act1 (Env (EGo (TUser 2))); Go 10; Act1 (Env (EGo (TUser 2))); Go 11] loopS.
(*@prop C38, violated: a second Close returns at once while the first has not closed any connection yet. @*)
Lemma l_C38_second_refuted :
  reachable loopG second /\ is_Some (s_th second !! (10 : tid)) /\ s_th second !! (11 : tid) = None /\ s_next second = 12 /\
  s_conns (w_srv (s_w second)) = {[2]} /\ c_closed (conn_of (s_w second) 2) = false.
Proof.
  split; [eapply rtc_transitive; [apply loopS_reachable|apply play_steps]|]. assert (E : s_conns (w_srv (s_w second)) = {[2]}) by decide_eq. rewrite E.
  split; [eexists; vm_compute; reflexivity|]. repeat split; vm_compute; reflexivity.
Qed.
