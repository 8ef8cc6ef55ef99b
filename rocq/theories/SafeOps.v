(** * SafeOps.v : the operations, the start and the end of goroutines and the
    environment respect the invariant of SafeRules.v. *)
From Coq Require Import ZArith Ascii.
From stdpp Require Import gmap strings list relations.
From RecordUpdate Require Import RecordUpdate.
From Verif Require Import Go Errors Message World Lang Code Sem Logic Spec_App SafeRules SafeCode.

(** ** Worlds *)
Lemma conn_of_upd c f w c' : conn_of (upd_conn c f w) c' = if decide (c' = c) then f (conn_of w c) else conn_of w c'.
Proof.
  unfold upd_conn, conn_of. cbn. destruct (decide (c' = c)) as [->|Hn]; [rewrite lookup_insert|rewrite lookup_insert_ne by congruence]; reflexivity.
Qed.
Lemma dom_upd c f w : there w c -> dom (w_conns (upd_conn c f w)) = dom (w_conns w).
Proof. unfold there, upd_conn. cbn. rewrite dom_insert_L. set_solver. Qed.
Lemma mu_of_upd n f w i : mu_of (upd_ns n f w) i = if decide (i = n_id n) then o_mu (f (ns_of w n)) else mu_of w i.
Proof.
  unfold upd_ns, mu_of. cbn. destruct (decide (i = n_id n)) as [->|Hn]; [rewrite lookup_insert|rewrite lookup_insert_ne by congruence]; reflexivity.
Qed.
Lemma mu_of_ns w n : o_mu (ns_of w n) = mu_of w (n_id n).
Proof. unfold ns_of, mu_of. destruct (w_nss w !! n_id n); reflexivity. Qed.
Lemma proc_of_upd p f w p' : proc_of (upd_proc p f w) p' = if decide (p' = p) then f (proc_of w p) else proc_of w p'.
Proof.
  unfold upd_proc, proc_of. cbn. destruct (decide (p' = p)) as [->|Hn]; [rewrite lookup_insert|rewrite lookup_insert_ne by congruence]; reflexivity.
Qed.
Lemma chan_of_upd p f w p' : chan_of (upd_chan p f w) p' = if decide (p' = p) then f (chan_of w p) else chan_of w p'.
Proof.
  unfold upd_chan, chan_of. cbn. destruct (decide (p' = p)) as [->|Hn]; [rewrite lookup_insert|rewrite lookup_insert_ne by congruence]; reflexivity.
Qed.

Lemma in_insert_at {A} k (x y : A) l : y ∈ insert_at k x l -> y = x \/ y ∈ l.
Proof. revert k; induction l as [|z l IH]; intros [|k]; cbn [insert_at]; rewrite ?elem_of_cons; intros; naive_solver. Qed.
Lemma in_permute {A} k (y : A) l : y ∈ permute k l -> y ∈ l.
Proof.
  revert k; induction l as [|z l IH]; intros k; cbn [permute]; [auto|]. intros H. apply in_insert_at in H as [->|H]; [constructor|].
  constructor. eapply IH, H.
Qed.
Lemma in_pick {A} w (l : list A) x : pick w l = Some x -> x ∈ l.
Proof. unfold pick. intros H. apply nth_error_In in H. apply elem_of_list_In, H. Qed.

Section ops.
Context (G : cfg) (con : bool).
Notation Base := (Base G).
Notation Ghost := (Ghost G con).
Notation Inv := (Inv G con).

(** ** Base *)
Lemma base_conn c f w : Base w -> there w c ->
  (forall name n, c_nss (f (conn_of w c)) !! name = Some n -> there w (n_conn n) /\ n_id n < w_next w) ->
  (forall name p, c_procs (f (conn_of w c)) !! name = Some p -> p < w_next w) ->
  (onlyNative G c = true -> c_nss (f (conn_of w c)) !! "" <> None) ->
  err_ok (w_err (c_wait (f (conn_of w c)))) = true -> err_ok (c_inend (f (conn_of w c))) = true ->
  Base (upd_conn c f w).
Proof.
  intros HB Hc H1 H2 H3 H4 H5. assert (HD := dom_upd c f w Hc).
  destruct HB; constructor; unfold there in *; try rewrite HD; try assumption;
    try (intros c'; rewrite conn_of_upd; case_decide; subst; auto; fail).
  - intros c' name n; rewrite conn_of_upd; case_decide; subst; [apply H1|apply i_nss].
  - intros c' name n; rewrite conn_of_upd; case_decide; subst; [apply H2|apply i_procs].
  - eapply Forall_impl; [eassumption|]. unfold code_there, there. intros. rewrite HD in *. assumption.
Qed.
Lemma base_quiet c f w : Base w -> there w c ->
  c_nss (f (conn_of w c)) = c_nss (conn_of w c) -> c_procs (f (conn_of w c)) = c_procs (conn_of w c) ->
  w_err (c_wait (f (conn_of w c))) = w_err (c_wait (conn_of w c)) -> c_inend (f (conn_of w c)) = c_inend (conn_of w c) ->
  Base (upd_conn c f w).
Proof.
  intros HB Hc E1 E2 E3 E4. apply base_conn; [exact HB|exact Hc|..]; rewrite ?E1, ?E2, ?E3, ?E4; try apply HB.
  intros. apply HB; assumption.
Qed.
Lemma base_srv f w : Base w ->
  forallb msg_ok (b_msgs (f (w_srv w))) = true -> Forall (fun b => forallb msg_ok b = true) (s_bcast (f (w_srv w))) ->
  Forall (there w) (s_connbuf (f (w_srv w))) -> Forall (there w) (s_disc (f (w_srv w))) ->
  (forall c, c ∈ s_conns (f (w_srv w)) -> there w c) -> Base (upd_srv f w).
Proof. intros HB H1 H2 H3 H4 H5. destruct HB; constructor; assumption. Qed.
Lemma base_ns n f w : Base w -> n_id n < w_next w -> Base (upd_ns n f w).
Proof.
  intros HB Hn. destruct HB; constructor; try assumption. intros i o. unfold upd_ns. cbn. intros H.
  apply lookup_insert_Some in H as [[<- _]|[_ H]]; [exact Hn|]. eapply i_nsdom, H.
Qed.
Lemma base_proc p f w : Base w -> Base (upd_proc p f w).
Proof. intros HB. destruct HB; constructor; assumption. Qed.
Lemma base_chan ch f w : Base w -> forallb msg_ok (ch_buf (f (chan_of w ch))) = true -> Base (upd_chan ch f w).
Proof. intros HB H. destruct HB; constructor; try assumption. intros ch'. rewrite chan_of_upd. case_decide; subst; auto. Qed.
Lemma base_seed w : Base w -> Base (pop_seed w).
Proof. intros HB. destruct HB; constructor; assumption. Qed.
Lemma base_log e w : Base w -> Base (w <| w_log ::= cons e |>).
Proof. intros HB. destruct HB; constructor; assumption. Qed.

(** ** Ghost states *)
Definition snap (w : world) (l : gl) : gl := GL (stk l) (role l) (dom (w_conns w)) (w_next w).
Lemma snap_le w Ls t l : Ghost w Ls -> Ls !! t = Some l -> l ⊑ snap w l.
Proof. intros HG Hl. destruct (i_know _ _ _ _ HG t l Hl). repeat split; assumption. Qed.

Lemma hold_ins Ls (t t' : tid) l k : hold (<[t := l]> Ls) t' k = if decide (t' = t) then cnt k (stk l) else hold Ls t' k.
Proof.
  unfold hold. destruct (decide (t' = t)) as [->|Hn]; [rewrite lookup_insert|rewrite lookup_insert_ne by congruence]; reflexivity.
Qed.
Lemma rl_ins Ls (t t' : tid) l : rl (<[t := l]> Ls) t' = if decide (t' = t) then role l else rl Ls t'.
Proof.
  unfold rl. destruct (decide (t' = t)) as [->|Hn]; [rewrite lookup_insert|rewrite lookup_insert_ne by congruence]; reflexivity.
Qed.
Lemma hold_at Ls (t : tid) l k : Ls !! t = Some l -> hold Ls t k = cnt k (stk l).
Proof. unfold hold. intros ->. reflexivity. Qed.
Lemma rl_at Ls (t : tid) l : Ls !! t = Some l -> rl Ls t = role l.
Proof. unfold rl. intros ->. reflexivity. Qed.
Lemma hold_same Ls (t t' : tid) l l' k : Ls !! t = Some l -> cnt k (stk l') = cnt k (stk l) -> hold (<[t := l']> Ls) t' k = hold Ls t' k.
Proof. intros H E. rewrite hold_ins. case_decide; [subst; rewrite (hold_at _ _ _ _ H); exact E|reflexivity]. Qed.
Lemma rl_same Ls (t t' : tid) l l' : Ls !! t = Some l -> role l' = role l -> rl (<[t := l']> Ls) t' = rl Ls t'.
Proof. intros H E. rewrite rl_ins. case_decide; [subst; rewrite (rl_at _ _ _ H); exact E|reflexivity]. Qed.

(** ** Frames, clause by clause *)
Lemma lock_ext Ls Ls' mu W R : (forall t, hold Ls' t W = hold Ls t W) -> (forall t, hold Ls' t R = hold Ls t R) ->
  lock_ok Ls mu W R -> lock_ok Ls' mu W R.
Proof. intros H1 H2 (A & B & C). repeat split; intros; rewrite ?H1, ?H2; auto. Qed.
Lemma excl_ext Ls Ls' k : (forall t, hold Ls' t k = hold Ls t k) -> excl Ls k -> excl Ls' k.
Proof. intros H (A & B). split; intros *; rewrite !H; auto. Qed.

Lemma fr_know w w' (Ls : gmap tid gl) t l' : dom (w_conns w) ⊆ dom (w_conns w') -> w_next w <= w_next w' ->
  kd l' = dom (w_conns w') -> kx l' = w_next w' ->
  (forall t l, Ls !! t = Some l -> kd l ⊆ dom (w_conns w) /\ kx l <= w_next w) ->
  forall t0 l0, <[t := l']> Ls !! t0 = Some l0 -> kd l0 ⊆ dom (w_conns w') /\ kx l0 <= w_next w'.
Proof.
  intros H1 H2 H3 H4 H t0 l0 E. apply lookup_insert_Some in E as [[<- <-]|[_ E]].
  - rewrite H3, H4. split; reflexivity.
  - apply H in E as [E1 E2]. split; [etrans; eassumption|lia].
Qed.
Lemma fr_nsmu w w' Ls Ls' : (forall c, c_nsmu (conn_of w' c) = c_nsmu (conn_of w c)) ->
  (forall t c, hold Ls' t (KNsW c) = hold Ls t (KNsW c)) -> (forall t c, hold Ls' t (KNsR c) = hold Ls t (KNsR c)) ->
  (forall c, lock_ok Ls (c_nsmu (conn_of w c)) (KNsW c) (KNsR c)) -> forall c, lock_ok Ls' (c_nsmu (conn_of w' c)) (KNsW c) (KNsR c).
Proof. intros E H1 H2 H c. rewrite E. eapply lock_ext; [..|apply H]; auto. Qed.
Lemma fr_room w w' Ls Ls' : (forall i, mu_of w' i = mu_of w i) ->
  (forall t c, hold Ls' t (KRmW c) = hold Ls t (KRmW c)) -> (forall t c, hold Ls' t (KRmR c) = hold Ls t (KRmR c)) ->
  (forall i, lock_ok Ls (mu_of w i) (KRmW i) (KRmR i)) -> forall i, lock_ok Ls' (mu_of w' i) (KRmW i) (KRmR i).
Proof. intros E H1 H2 H c. rewrite E. eapply lock_ext; [..|apply H]; auto. Qed.
Lemma fr_b w w' Ls Ls' : b_mu (w_srv w') = b_mu (w_srv w) -> (forall t, hold Ls' t KB = hold Ls t KB) ->
  (forall t, hold Ls t KB = if decide (b_mu (w_srv w) = Some t) then 1 else 0) ->
  forall t, hold Ls' t KB = if decide (b_mu (w_srv w') = Some t) then 1 else 0.
Proof. intros E H1 H t. rewrite E, H1. apply H. Qed.
Definition close_ok (w : world) (Ls : gmap tid gl) (c : cid) : Prop := excl Ls (KCloseCh c) /\
    (forall t, hold Ls t (KCloseCh c) <> 0 -> c_closed (conn_of w c) = true /\ c_closeCh (conn_of w c) = false) /\
    (c_closeCh (conn_of w c) = true -> c_closed (conn_of w c) = true).
Lemma fr_close w w' Ls Ls' : (forall c, c_closed (conn_of w' c) = c_closed (conn_of w c)) -> (forall c, c_closeCh (conn_of w' c) = c_closeCh (conn_of w c)) ->
  (forall t c, hold Ls' t (KCloseCh c) = hold Ls t (KCloseCh c)) -> (forall c, close_ok w Ls c) -> forall c, close_ok w' Ls' c.
Proof.
  intros E1 E2 H1 H c. destruct (H c) as (A & B & C). unfold close_ok. rewrite E1, E2. split; [|split]; [eapply excl_ext; [|exact A]; auto| |exact C].
  intros t. rewrite H1. apply B.
Qed.
Definition swap_ok (w : world) (Ls : gmap tid gl) (g : nat) : Prop := excl Ls (KSwap g) /\
    (forall t, hold Ls t (KSwap g) <> 0 -> g < b_gen (w_srv w) /\ g ∉ b_closed (w_srv w)) /\
    (g ∈ b_closed (w_srv w) -> g < b_gen (w_srv w)).
Lemma fr_swap w w' Ls Ls' : b_gen (w_srv w') = b_gen (w_srv w) -> b_closed (w_srv w') = b_closed (w_srv w) ->
  (forall t c, hold Ls' t (KSwap c) = hold Ls t (KSwap c)) -> (forall c, swap_ok w Ls c) -> forall c, swap_ok w' Ls' c.
Proof.
  intros E1 E2 H1 H c. destruct (H c) as (A & B & C). unfold swap_ok. rewrite E1, E2. split; [|split]; [eapply excl_ext; [|exact A]; auto| |exact C].
  intros t. rewrite H1. apply B.
Qed.
Lemma fr_gate1 w w' Ls Ls' c : w_ready (c_wait (conn_of w' c)) = w_ready (c_wait (conn_of w c)) ->
  w_locked (c_wait (conn_of w' c)) = w_locked (c_wait (conn_of w c)) ->
  w_chclosed (c_wait (conn_of w' c)) = w_chclosed (c_wait (conn_of w c)) ->
  w_spawn w' = w_spawn w -> dom (w_conns w') = dom (w_conns w) ->
  (forall t, hold Ls' t (KSet c) = hold Ls t (KSet c)) -> (forall t, hold Ls' t (KGate c) = hold Ls t (KGate c)) ->
  (forall t, rl Ls' t = rl Ls t) ->
  gate_ok G w Ls c -> gate_ok G w' Ls' c.
Proof.
  intros E1 E2 E3 E4 E5 H1 H2 H3 HG. destruct HG; constructor; rewrite ?E1, ?E2, ?E3, ?E4, ?E5; auto.
  - intros t. rewrite H1. apply gt_set.
  - intros t. rewrite H2. apply gt_gate.
  - eapply excl_ext; eauto.
  - intros Hc [[t Ht]|H]; apply gt_early; auto. left. exists t. rewrite <- H3. exact Ht.
  - intros t. rewrite H3. intros Ht. specialize (gt_one t Ht). destruct (g_client G c); [exact gt_one|].
    destruct gt_one as (X1 & X2 & X3). repeat split; auto. intros t'. rewrite H2. auto.
  - intros t. rewrite H3. apply gt_three.
Qed.
Lemma fr_gate w w' Ls Ls' : (forall c, w_ready (c_wait (conn_of w' c)) = w_ready (c_wait (conn_of w c))) ->
  (forall c, w_locked (c_wait (conn_of w' c)) = w_locked (c_wait (conn_of w c))) ->
  (forall c, w_chclosed (c_wait (conn_of w' c)) = w_chclosed (c_wait (conn_of w c))) ->
  w_spawn w' = w_spawn w -> dom (w_conns w') = dom (w_conns w) ->
  (forall t c, hold Ls' t (KSet c) = hold Ls t (KSet c)) -> (forall t c, hold Ls' t (KGate c) = hold Ls t (KGate c)) ->
  (forall t, rl Ls' t = rl Ls t) ->
  (forall c, gate_ok G w Ls c) -> forall c, gate_ok G w' Ls' c.
Proof. intros. eapply fr_gate1; eauto. Qed.
Lemma fr_proc1 w w' Ls Ls' p : w_next w <= w_next w' -> p_done (proc_of w' p) = p_done (proc_of w p) -> p_count (proc_of w' p) = p_count (proc_of w p) ->
  (forall t, hold Ls' t (KDone p) = hold Ls t (KDone p)) -> (forall t, hold Ls' t (KStart p) = hold Ls t (KStart p)) ->
  proc_ok con w Ls p -> proc_ok con w' Ls' p.
Proof.
  intros E0 E1 E2 H1 H2 HP. destruct HP; constructor; rewrite ?E1, ?E2; auto.
  - eapply excl_ext; eauto.
  - intros t. rewrite H1. apply pr_done.
  - intros t. rewrite H2. apply pr_start.
  - intros t. rewrite H1, H2. intros H. apply pr_old in H. lia.
Qed.
Lemma fr_proc w w' Ls Ls' : w_next w <= w_next w' -> (forall p, p_done (proc_of w' p) = p_done (proc_of w p)) -> (forall p, p_count (proc_of w' p) = p_count (proc_of w p)) ->
  (forall t p, hold Ls' t (KDone p) = hold Ls t (KDone p)) -> (forall t p, hold Ls' t (KStart p) = hold Ls t (KStart p)) ->
  (forall p, proc_ok con w Ls p) -> forall p, proc_ok con w' Ls' p.
Proof. intros. eapply fr_proc1; eauto. Qed.
Lemma fr_one Ls Ls' : (forall t c, owns (rl Ls' t) c -> owns (rl Ls t) c) ->
  (forall t t' c, owns (rl Ls t) c -> owns (rl Ls t') c -> t = t') -> forall t t' c, owns (rl Ls' t) c -> owns (rl Ls' t') c -> t = t'.
Proof. intros H HO t t' c H1 H2. eapply HO; eauto. Qed.
Lemma fr_mk w w' Ls Ls' : (forall t c, owns (rl Ls' t) c -> owns (rl Ls t) c) -> dom (w_conns w) ⊆ dom (w_conns w') -> w_spawn w' = w_spawn w ->
  (forall t c, owns (rl Ls t) c -> there w c /\ nrd c (w_spawn w) = 0) -> forall t c, owns (rl Ls' t) c -> there w' c /\ nrd c (w_spawn w') = 0.
Proof. intros H E1 E2 HO t c Ht. destruct (HO t c (H t c Ht)). rewrite E2. split; [apply E1; assumption|assumption]. Qed.

(** ** Operations *)
Ltac hs := intros; eapply hold_same; [eassumption | cbn [stk cnt snap push with_stk with_role role]; rewrite ?decide_False by discriminate; reflexivity].
Ltac rs := intros; eapply rl_same; [eassumption | reflexivity].
Ltac os := let H := fresh in intros ? ? H; erewrite rl_same in H; [exact H|eassumption|reflexivity].
Ltac pj := intros; first
  [ reflexivity
  | rewrite conn_of_upd; case_decide; [subst; reflexivity | reflexivity]
  | rewrite conn_of_upd; case_decide; [congruence | reflexivity]
  | rewrite mu_of_upd; case_decide; [subst; rewrite <- mu_of_ns; reflexivity | reflexivity]
  | rewrite proc_of_upd; case_decide; [subst; reflexivity | reflexivity] ].
(** Proves the clauses that an operation does not touch. *)
Ltac frame w Ls HG HD :=
  constructor;
  [ eapply (fr_know w _ Ls); [rewrite ?HD; reflexivity | cbn; lia | reflexivity | reflexivity | apply HG]
  | try (eapply (fr_nsmu w _ Ls); [pj | hs | hs | apply HG])
  | try (eapply (fr_room w _ Ls); [pj | hs | hs | apply HG])
  | try (eapply (fr_b w _ Ls); [reflexivity | hs | apply HG])
  | try (eapply (fr_close w _ Ls); [pj | pj | hs | apply HG])
  | try (eapply (fr_swap w _ Ls); [reflexivity | reflexivity | hs | apply HG])
  | try (eapply (fr_gate w _ Ls); [pj | pj | pj | reflexivity | rewrite ?HD; reflexivity | hs | hs | rs | apply HG])
  | try (eapply (fr_proc w _ Ls); [cbn; lia | pj | pj | hs | hs | apply HG])
  | try (eapply (fr_one Ls); [os | apply HG])
  | try (eapply (fr_mk w _ Ls); [os | rewrite ?HD; reflexivity | reflexivity | apply HG])
  | try (apply HG) ].

Definition respected (o : op) : Prop := forall t w Ls l (P : res o -> gl -> Prop),
  Inv w Ls -> Ls !! t = Some l -> rule G con l o P ->
  match ostep t w o with
  | Goes w' r => exists l', Inv w' (<[t := l']> Ls) /\ P r l'
  | Blocked => True
  | Panics why => crash con why
  end.

Lemma know_c w Ls t l c : Ghost w Ls -> Ls !! t = Some l -> vc l c -> there w c.
Proof. intros HG Hl Hc. destruct (i_know _ _ _ _ HG t l Hl) as [H _]. apply H, Hc. Qed.
Lemma know_n w Ls t l n : Ghost w Ls -> Ls !! t = Some l -> vn l n -> there w (n_conn n) /\ n_id n < w_next w.
Proof. intros HG Hl [H1 H2]. destruct (i_know _ _ _ _ HG t l Hl) as [H H3]. split; [apply H, H1|lia]. Qed.
Lemma know_p w Ls t l p : Ghost w Ls -> Ls !! t = Some l -> vp l p -> p < w_next w.
Proof. intros HG Hl H1. unfold vp in H1. destruct (i_know _ _ _ _ HG t l Hl) as [H H3]. lia. Qed.

(** Start: open the rule. *)
Ltac begin := intros t w Ls l P [HB HG] Hl HR; cbn [rule] in HR;
  unfold more, moref, take, give in HR; cbn [ostep];
  pose proof (fun c => know_c w Ls t l c HG Hl) as Kc;
  pose proof (fun n => know_n w Ls t l n HG Hl) as Kn;
  pose proof (fun p => know_p w Ls t l p HG Hl) as Kp.
Ltac sl HG Hl := match goal with |- ?l ⊑ snap ?w' ?l => destruct (i_know _ _ _ _ HG _ l Hl); repeat split; cbn; try assumption; try lia end.

(** An operation on connection [c] that changes no relevant field. *)
Lemma quiet_conn (A : Type) t w Ls l c f (P : A -> gl -> Prop) r :
  Inv w Ls -> Ls !! t = Some l -> vc l c ->
  (forall k, c_nss (f k) = c_nss k) -> (forall k, c_procs (f k) = c_procs k) -> (forall k, c_wait (f k) = c_wait k) ->
  (forall k, c_inend (f k) = c_inend k) -> (forall k, c_nsmu (f k) = c_nsmu k) -> (forall k, c_closed (f k) = c_closed k) ->
  (forall k, c_closeCh (f k) = c_closeCh k) ->
  (forall l', l ⊑ l' -> kd l' = dom (w_conns w) -> kx l' = w_next w -> P r l') ->
  exists l', Inv (upd_conn c f w) (<[t := l']> Ls) /\ P r l'.
Proof.
  intros [HB HG] Hl Hc E1 E2 E3 E4 E5 E6 E7 HP. apply (know_c _ _ _ _ _ HG Hl) in Hc.
  assert (HD := dom_upd c f w Hc). exists (snap w l). split.
  - split; [apply base_quiet; rewrite ?E3; auto|].
    assert (X : forall (B : Type) (g : conn -> B), (forall k, g (f k) = g k) -> forall c', g (conn_of (upd_conn c f w) c') = g (conn_of w c')).
    { intros B g H c'. rewrite conn_of_upd. case_decide; [subst; apply H|reflexivity]. }
    constructor.
    + eapply (fr_know w _ Ls); [rewrite HD; reflexivity|cbn; lia|rewrite HD; reflexivity|reflexivity|apply HG].
    + eapply (fr_nsmu w _ Ls); [apply (X _ c_nsmu), E5|hs|hs|apply HG].
    + eapply (fr_room w _ Ls); [pj | hs | hs | apply HG].
    + eapply (fr_b w _ Ls); [reflexivity | hs | apply HG].
    + eapply (fr_close w _ Ls); [apply (X _ c_closed), E6|apply (X _ c_closeCh), E7|hs|apply HG].
    + eapply (fr_swap w _ Ls); [reflexivity | reflexivity | hs | apply HG].
    + eapply (fr_gate w _ Ls); [intros c'; rewrite (X _ c_wait E3 c'); reflexivity..|reflexivity|exact HD|hs|hs|rs|apply HG].
    + eapply (fr_proc w _ Ls); [cbn; lia | pj | pj | hs | hs | apply HG].
    + eapply (fr_one Ls); [os | apply HG].
    + eapply (fr_mk w _ Ls); [os | rewrite ?HD; reflexivity | reflexivity | apply HG].
    + apply HG.
  - apply HP; [|reflexivity|reflexivity]. sl HG Hl.
Qed.

(** An operation that changes nothing relevant outside connections. *)
Lemma quiet (A : Type) t w w' Ls l (P : A -> gl -> Prop) r :
  Inv w Ls -> Ls !! t = Some l -> Base w' ->
  w_conns w' = w_conns w -> (forall i, mu_of w' i = mu_of w i) -> b_mu (w_srv w') = b_mu (w_srv w) ->
  b_gen (w_srv w') = b_gen (w_srv w) -> b_closed (w_srv w') = b_closed (w_srv w) -> (forall p, proc_of w' p = proc_of w p) ->
  w_spawn w' = w_spawn w -> w_next w <= w_next w' ->
  (forall l', l ⊑ l' -> kd l' = dom (w_conns w) -> kx l' = w_next w' -> P r l') ->
  exists l', Inv w' (<[t := l']> Ls) /\ P r l'.
Proof.
  intros [HB HG] Hl HB' E1 E2 E3 E4 E5 E6 E7 E8 HP.
  exists (snap w' l). split.
  - split; [exact HB'|].
    assert (X : forall c, conn_of w' c = conn_of w c) by (intros c; unfold conn_of; rewrite E1; reflexivity).
    constructor.
    + eapply (fr_know w _ Ls); [rewrite E1; reflexivity|cbn; lia|reflexivity|reflexivity|apply HG].
    + eapply (fr_nsmu w _ Ls); [intros c; rewrite X; reflexivity|hs|hs|apply HG].
    + eapply (fr_room w _ Ls); [exact E2 | hs | hs | apply HG].
    + eapply (fr_b w _ Ls); [exact E3 | hs | apply HG].
    + eapply (fr_close w _ Ls); [intros c; rewrite X; reflexivity..|hs|apply HG].
    + eapply (fr_swap w _ Ls); [exact E4 | exact E5 | hs | apply HG].
    + eapply (fr_gate w _ Ls); [intros c; rewrite X; reflexivity..|exact E7|rewrite E1; reflexivity|hs|hs|rs|apply HG].
    + eapply (fr_proc w _ Ls); [exact E8 | intros p; rewrite E6; reflexivity.. | hs | hs | apply HG].
    + eapply (fr_one Ls); [os | apply HG].
    + eapply (fr_mk w _ Ls); [os | rewrite E1; reflexivity | exact E7 | apply HG].
    + rewrite E7. apply HG.
  - apply HP; cbn; [|rewrite E1; reflexivity|reflexivity].
    destruct (i_know _ _ _ _ HG _ l Hl). repeat split; cbn; rewrite ?E1; [assumption|lia].
Qed.

Ltac qc := eapply quiet_conn; [split; eassumption | eassumption | solve [auto] | try reflexivity ..];
  [ intros; repeat match goal with x : mtype |- _ => destruct x end; reflexivity .. | ].
Ltac qw := eapply quiet; [split; eassumption | eassumption | | try reflexivity ..].
Ltac rd HB HR := qw; [exact HB | intros; apply HR; auto].
Ltac rdc HB HR := let H1 := fresh "Hc" in let H2 := fresh in destruct HR as [H1 H2]; rd HB H2.
Ltac wrc HR := let H1 := fresh "Hc" in let H2 := fresh in destruct HR as [H1 H2]; qc; intros; apply H2; auto.

Lemma r_quiet_conn o : match o with
  | OIsAcked _ | OSetAcked _ _ | OIsInside _ | OSetInside _ _ | OIsClosed _ | OGetId _ | OSetId _ _
  | OStoreGet _ _ | OStoreSet _ _ _ | OSockClose _ | OQPush _ _ _ | OQDel _ _
  | OWaitPut _ _ _ | OWaitDel _ _ | OWaitGet _ _ | OWaitClear _ => True | _ => False end -> respected o.
Proof. destruct o; intros []; begin; first [wrc HR | rdc HB HR]. Qed.
Lemma r_quiet o : match o with
  | OSWaitGet _ | OCtxLate _ | OSClosedLoad | OBAwaiter | OSCount | ONow | OSleep => True | _ => False end -> respected o.
Proof. destruct o; intros []; begin; rd HB HR. Qed.
Ltac srv HB := apply base_srv; [exact HB | cbn; apply HB ..].
Lemma r_quiet_srv o : match o with
  | OSWaitPut _ _ | OSWaitDel _ | OSClosedReset | OActSend _ _ | OActDone _ | OSCountAdd _ => True | _ => False end -> respected o.
Proof. destruct o; intros []; begin; (qw; [srv HB | intros; apply HR; auto]). Qed.
Lemma r_log e : respected (OLog e).
Proof. begin. qw; [apply base_log, HB|intros; apply HR; auto]. Qed.
Lemma r_sockwrite c typ b : respected (OSockWrite c typ b).
Proof. begin. cbv zeta. destruct (c_sockclosed (conn_of w c)); [rdc HB HR|]. destruct (c_wfail (conn_of w c)); [rdc HB HR|wrc HR]. Qed.
Lemma r_qrange c : respected (OQRange c).
Proof. begin. destruct HR as [Hc HR]. qw; [apply base_seed, HB|]. intros; apply HR; auto. Qed.
Lemma r_read c : respected (ORead c).
Proof.
  begin. destruct HR as [Hc HR]. cbv zeta. destruct (c_sockclosed (conn_of w c)); [rd HB HR; reflexivity|].
  destruct (c_in (conn_of w c)) as [|f fs].
  - destruct (c_inend (conn_of w c)) as [e|] eqn:E; [|exact I]. rd HB HR. pose proof (i_ends _ _ HB c) as X. rewrite E in X. exact X.
  - qc. intros. apply HR; auto.
Qed.
Lemma r_getns c name : respected (OGetNs c name).
Proof.
  begin. destruct HR as [Hc HR]. qw; [exact HB|]. intros l' Hle E1 E2. apply HR; [exact Hle|].
  destruct (c_nss (conn_of w c) !! name) as [n|] eqn:E.
  - destruct (i_nss _ _ HB _ _ _ E). unfold vn. rewrite E1, E2. auto.
  - intros ->. destruct (onlyNative G c) eqn:Eo; [|reflexivity]. exfalso. eapply (i_native _ _ HB); eauto.
Qed.
Lemma r_nsrange c : respected (ONsRange c).
Proof.
  begin. destruct HR as [Hc HR]. qw; [apply base_seed, HB|]. intros l' Hle E1 E2. apply HR; [exact Hle|].
  apply Forall_forall. intros [name n] Hin. apply in_permute in Hin. apply elem_of_map_to_list in Hin.
  destruct (i_nss _ _ HB _ _ _ Hin). unfold vn. rewrite E1, E2. auto.
Qed.
Lemma r_hasroom n rm : respected (OHasRoom n rm).
Proof. begin. rdc HB HR. Qed.
Lemma r_roomrange n : respected (ORoomRange n).
Proof. begin. destruct HR as [Hc HR]. qw; [apply base_seed, HB|]. intros; apply HR; auto. Qed.
Lemma r_room o : match o with OAddRoom _ _ | ODelRoom _ _ => True | _ => False end -> respected o.
Proof.
  destruct o; intros []; begin; destruct HR as [Hc HR];
    (qw; [apply base_ns; [exact HB|apply Kn, Hc] | intros; rewrite mu_of_upd; case_decide; [subst; rewrite <- mu_of_ns; reflexivity|reflexivity] | intros; apply HR; auto]).
Qed.
Lemma r_newns c name : respected (ONewNs c name).
Proof.
  begin. destruct HR as [Hc HR]. qw.
  - destruct HB; constructor; try assumption; cbn.
    + intros c' n' r' H. destruct (i_nss _ _ _ H). split; [assumption|lia].
    + intros i o H. apply lookup_insert_Some in H as [[<- _]|[_ H]]; [lia|]. apply i_nsdom in H. lia.
    + intros c' n' p' H. apply i_procs in H. lia.
  - intros i. unfold mu_of. cbn. destruct (decide (i = w_next w)) as [->|Hn]; [|rewrite lookup_insert_ne by congruence; reflexivity].
    rewrite lookup_insert. destruct (w_nss w !! w_next w) eqn:E; [|reflexivity]. apply (i_nsdom _ _ HB) in E. lia.
  - cbn; lia.
  - intros l' Hle E1 E2. apply HR; [exact Hle|]. unfold vn. rewrite E1, E2. cbn. split; [|auto]. split; [apply Kc, Hc|lia].
Qed.
Lemma r_werr c : respected (OWErr c).
Proof. begin. destruct HR as [Hc HR]. qw; [exact HB|]. intros. apply HR; auto. apply HB. Qed.
Lemma r_procget c name : respected (OProcGet c name).
Proof.
  begin. destruct HR as [Hc HR]. qw; [exact HB|]. intros l' Hle E1 E2. apply HR; [exact Hle|].
  destruct (c_procs (conn_of w c) !! name) eqn:E; [|exact I]. apply (i_procs _ _ HB) in E. unfold vp. lia.
Qed.
Lemma r_procisdone p : respected (OProcIsDone p).
Proof. begin. rdc HB HR. Qed.
Lemma r_newchan cap : respected (ONewChan cap).
Proof.
  begin. qw.
  - destruct HB; constructor; try assumption; cbn.
    + intros c' n' r' H. destruct (i_nss _ _ _ H). split; [assumption|lia].
    + intros i o H. apply i_nsdom in H. lia.
    + intros c' n' p' H. apply i_procs in H. lia.
    + intros ch. unfold chan_of. cbn. destruct (decide (ch = w_next w)) as [->|Hn]; [rewrite lookup_insert; reflexivity|].
      rewrite lookup_insert_ne by congruence. apply i_bufs.
  - cbn; lia.
  - intros. apply HR; auto.
Qed.
Lemma r_chsend ch m : respected (OChSend ch m).
Proof.
  begin. destruct HR as [Hm HR]. destruct (ch_buf (chan_of w ch)); [|exact I]. qw.
  - apply base_chan; [exact HB|]. cbn. rewrite Hm. reflexivity.
  - intros. apply HR; auto.
Qed.
Lemma r_chsent ch k : respected (OChSent ch k).
Proof. begin. destruct (_ || _); [rd HB HR|exact I]. Qed.
Lemma r_select ch x : respected (OSelect ch x).
Proof.
  begin. destruct (pick w (select_reply w ch x)) as [[e|m]|] eqn:E; [..|exact I]; apply in_pick in E; unfold select_reply in E;
    apply elem_of_app in E.
  - qw; [apply base_seed, HB|]. intros. apply HR; auto. destruct E as [E|E].
    + destruct x as [k|]; [|inversion E]. destruct (w_ctxs w !! k) as [xc|] eqn:Ex; [|inversion E].
      apply (i_ctxs _ _ HB) in Ex. destruct (x_done xc) as [e'|]; [|inversion E].
      apply elem_of_list_singleton in E. injection E as ->. exact Ex.
    + destruct (ch_buf (chan_of w ch)); inversion E as [|? ? ? E']; inversion E'.
  - pose proof (i_bufs _ _ HB ch) as X. qw; [apply base_chan; [apply base_seed, HB|]|].
    + cbn. change (chan_of (pop_seed w) ch) with (chan_of w ch). destruct (ch_buf (chan_of w ch)) as [|m' b]; [reflexivity|].
      cbn in *. apply andb_true_iff in X. apply X.
    + intros. apply HR; auto. destruct E as [E|E].
      * destruct x as [k|]; [|inversion E]. destruct (w_ctxs w !! k) as [xc|]; [|inversion E].
        destruct (x_done xc) as [e'|]; [|inversion E]. apply elem_of_list_singleton in E. discriminate.
      * destruct (ch_buf (chan_of w ch)) as [|m' b]; [inversion E|]. apply elem_of_list_singleton in E. injection E as ->.
        cbn in X. apply andb_true_iff in X. apply X.
Qed.
Lemma r_ctxerr x : respected (OCtxErr x).
Proof.
  begin. qw; [exact HB|]. intros. apply HR; auto. destruct x as [k|]; [|reflexivity]. destruct (w_ctxs w !! k) as [xc|] eqn:Ex; [|reflexivity].
  eapply (i_ctxs _ _ HB), Ex.
Qed.
Lemma r_sclosedcas : respected OSClosedCas.
Proof. begin. destruct (s_closed (w_srv w)); [rd HB HR|]. qw; [srv HB|]. intros; apply HR; auto. Qed.
Lemma r_actaccepted k : respected (OActAccepted k).
Proof. begin. destruct (_ <=? _); [rd HB HR|exact I]. Qed.
Lemma r_actwait k : respected (OActWait k).
Proof. begin. destruct (bool_decide _); [rd HB HR|exact I]. Qed.
Lemma r_bcaccepted k : respected (OBcAccepted k).
Proof. begin. destruct (_ <=? _); [rd HB HR|exact I]. Qed.
Lemma r_smem c : respected (OSMem c).
Proof. begin. rdc HB HR. Qed.
Lemma r_connsend c : respected (OSConnSend c).
Proof.
  begin. destruct HR as [Hc HR]. destruct (s_connbuf (w_srv w)); [|exact I].
  qw; [apply base_srv; [exact HB|try (cbn; apply HB)..]|intros; apply HR; auto]. cbn. constructor; [apply Kc, Hc|constructor].
Qed.
Lemma r_discsend c : respected (OSDiscSend c).
Proof.
  begin. destruct HR as [Hc HR].
  qw; [apply base_srv; [exact HB|try (cbn; apply HB)..]|intros; apply HR; auto]. cbn. apply Forall_app. split; [apply HB|]. constructor; [apply Kc, Hc|constructor].
Qed.
Lemma r_sadd c : respected (OSAdd c).
Proof.
  begin. destruct HR as [Hc HR]. apply Kc in Hc.
  qw; [apply base_srv; [exact HB|try (cbn; apply HB)..]|intros; apply HR; auto]. cbn. intros c' H.
  apply elem_of_union in H as [H|H]; [apply elem_of_singleton in H as ->; exact Hc|apply HB, H].
Qed.
Lemma r_sdel c : respected (OSDel c).
Proof.
  begin. destruct HR as [Hc HR].
  qw; [apply base_srv; [exact HB|try (cbn; apply HB)..]|intros; apply HR; auto]. cbn. intros c' H. apply HB. set_solver.
Qed.
Lemma r_bcsend msgs : respected (OBcSend msgs).
Proof.
  begin. destruct HR as [Hc HR].
  qw; [apply base_srv; [exact HB|try (cbn; apply HB)..]|intros; apply HR; auto]. cbn. apply Forall_app. split; [apply HB|]. constructor; [exact Hc|constructor].
Qed.
Lemma r_bset msgs : respected (OBSet msgs).
Proof.
  begin. destruct HR as [Hc HR].
  qw; [apply base_log, base_srv; [exact HB|try (cbn; apply HB)..]|intros; apply HR; auto]. exact Hc.
Qed.
Lemma r_bget : respected OBGet.
Proof. begin. qw; [exact HB|]. intros; apply HR; auto. apply HB. Qed.
Lemma r_srange : respected OSRange.
Proof.
  begin. qw; [apply base_seed, HB|]. intros l' Hle E1 E2. apply HR; [exact Hle|].
  apply Forall_forall. intros c Hin. apply in_permute in Hin. apply elem_of_elements in Hin. unfold vc. rewrite E1. apply HB, Hin.
Qed.
Lemma r_bselect g c : respected (OBSelect g c).
Proof. begin. destruct HR as [Hc HR]. cbv zeta. destruct (pick _ _); [|exact I]. qw; [apply base_seed, HB|]. intros; apply HR; auto. Qed.
Lemma r_srvselect : respected OSrvSelect.
Proof.
  begin. destruct (pick w (srv_ready (w_srv w))) as [x|] eqn:E; [|exact I]. apply in_pick in E.
  assert (X1 := i_connbuf _ _ HB). assert (X2 := i_disc _ _ HB). assert (X3 := i_bcast _ _ HB).
  assert (XF : forall A (Q : A -> Prop) l0, Forall Q l0 -> Forall Q (tl l0)).
  { intros A Q [|a l0] H; [constructor|]. apply Forall_cons in H. apply H. }
  qw; [| destruct x; reflexivity.. |].
  - apply base_srv; [apply base_seed, HB|..]; destruct x; cbn; try apply XF; try assumption; try (apply HB).
  - intros l' Hle E1 E2. apply HR; [exact Hle|]. unfold srv_ready in E. rewrite !elem_of_app in E.
    destruct x; cbn.
    + destruct (s_connbuf (w_srv w)) as [|c0 q]. 
      2: { apply Forall_cons in X1 as [X1 _]. destruct E as [E|[E|[E|E]]]; [apply elem_of_list_singleton in E; injection E as ->; unfold vc; rewrite E1; exact X1|..];
        repeat case_match; try (inversion E; fail); apply elem_of_list_singleton in E; discriminate. }
      destruct E as [E|[E|[E|E]]]; repeat case_match; try (inversion E; fail); apply elem_of_list_singleton in E; discriminate.
    + destruct (s_disc (w_srv w)) as [|c0 q]. 
      2: { apply Forall_cons in X2 as [X2 _]. destruct E as [E|[E|[E|E]]]; [|apply elem_of_list_singleton in E; injection E as ->; unfold vc; rewrite E1; exact X2|..];
        repeat case_match; try (inversion E; fail); apply elem_of_list_singleton in E; discriminate. }
      destruct E as [E|[E|[E|E]]]; repeat case_match; try (inversion E; fail); apply elem_of_list_singleton in E; discriminate.
    + destruct (s_bcast (w_srv w)) as [|c0 q]. 
      2: { apply Forall_cons in X3 as [X3 _]. destruct E as [E|[E|[E|E]]]; [..|apply elem_of_list_singleton in E; injection E as ->; exact X3|];
        repeat case_match; try (inversion E; fail); apply elem_of_list_singleton in E; discriminate. }
      destruct E as [E|[E|[E|E]]]; repeat case_match; try (inversion E; fail); apply elem_of_list_singleton in E; discriminate.
    + exact I.
Qed.

(** ** Operations that change the connected namespaces or processes *)
Ltac hd Hc HD := pose proof (dom_upd _ _ _ Hc) as HD.
Ltac fin_le HG Hl HD := destruct (i_know _ _ _ _ HG _ _ Hl); repeat split; cbn -[upd_conn]; rewrite ?HD; cbn; try assumption; try lia.

Lemma r_setns c name n : respected (OSetNs c name n).
Proof.
  begin. destruct HR as (Hc & Hn & HR). apply Kc in Hc. apply Kn in Hn.
  match goal with |- context [upd_conn c ?f w] => pose proof (dom_upd c f w Hc) as HD; exists (snap (upd_conn c f w) l) end.
  split; [split|].
  - apply base_conn; try assumption; cbn; try apply HB.
    + intros name' n' H. apply lookup_insert_Some in H as [[<- <-]|[_ H]]; [exact Hn|]. eapply (i_nss _ _ HB), H.
    + intros Ho. destruct (decide (name = "")) as [->|Hne]; [rewrite lookup_insert; discriminate|].
      rewrite lookup_insert_ne by exact Hne. apply HB; assumption.
  - frame w Ls HG HD.
  - apply HR. fin_le HG Hl HD.
Qed.
Lemma r_delns c name : respected (ODelNs c name).
Proof.
  begin. destruct HR as (Hc & Hn & HR). apply Kc in Hc.
  match goal with |- context [upd_conn c ?f w] => pose proof (dom_upd c f w Hc) as HD; exists (snap (upd_conn c f w) l) end.
  split; [split|].
  - apply base_conn; try assumption; cbn; try apply HB.
    + intros name' n' H. apply lookup_delete_Some in H as [_ H]. eapply (i_nss _ _ HB), H.
    + congruence.
  - frame w Ls HG HD.
  - apply HR. fin_le HG Hl HD.
Qed.
Lemma r_procnew c name : respected (OProcNew c name).
Proof.
  begin. destruct HR as [Hc HR]. apply Kc in Hc. cbv zeta. set (w1 := w <| w_procs ::= <[w_next w := proc0]> |> <| w_next ::= S |>).
  assert (HB1 : Base w1).
  { destruct HB; constructor; try assumption; cbn.
    + intros c' n' r' H. destruct (i_nss _ _ _ H). split; [assumption|lia].
    + intros i o H. apply i_nsdom in H. lia.
    + intros c' n' p' H. apply i_procs in H. lia. }
  assert (Hc1 : there w1 c) by exact Hc.
  match goal with |- context [upd_conn c ?f w1] => pose proof (dom_upd c f w1 Hc1) as HD; exists (snap (upd_conn c f w1) l) end.
  change (dom (w_conns w1)) with (dom (w_conns w)) in HD.
  assert (Hold : forall t', hold Ls t' (KDone (w_next w)) = 0 /\ hold Ls t' (KStart (w_next w)) = 0).
  { intros t'. pose proof (pr_old _ _ _ _ (i_proc _ _ _ _ HG (w_next w)) t') as X. split; apply Nat.eq_dne; intros Hne.
    - assert (w_next w < w_next w) by (apply X; left; exact Hne). lia.
    - assert (w_next w < w_next w) by (apply X; right; exact Hne). lia. }
  split; [split|].
  - apply base_conn; try assumption; cbn; try apply HB1.
    + intros name' n' H. apply lookup_insert_Some in H as [[<- <-]|[_ H]]; [lia|]. eapply (i_procs _ _ HB1), H.
    + intros. apply HB1; assumption.
  - frame w Ls HG HD. intros p. destruct (decide (p = w_next w)) as [->|Hne].
    + constructor.
      * eapply excl_ext; [|apply (i_proc _ _ _ _ HG)]. hs.
      * intros t'. erewrite hold_same by (eassumption || reflexivity). destruct (Hold t') as [-> _]. lia.
      * intros t'. erewrite hold_same by (eassumption || reflexivity). destruct (Hold t') as [_ ->]. lia.
      * intros t'. rewrite !(hold_same Ls t t' l) by (eassumption || reflexivity). destruct (Hold t') as [-> ->]. lia.
      * intros _. unfold proc_of. cbn. rewrite lookup_insert. reflexivity.
    + assert (E : proc_of (upd_conn c (λ k : conn, k <| c_procs ::= <[name := w_next w]> |>) w1) p = proc_of w p).
      { unfold proc_of. cbn. rewrite lookup_insert_ne by congruence. reflexivity. }
      eapply (fr_proc1 w); [cbn; lia|rewrite E; reflexivity|rewrite E; reflexivity|hs|hs|apply HG].
  - apply HR; [fin_le HG Hl HD|]. unfold vp. cbn. lia.
Qed.

(** ** Locks *)
Lemma times_cons t t' l : times t (t' :: l) = (if decide (t' = t) then 1 else 0) + times t l.
Proof. reflexivity. Qed.
Lemma times_remove1 t t' l : times t' l <> 0 -> times t (remove1 t' l) + (if decide (t' = t) then 1 else 0) = times t l.
Proof.
  induction l as [|x l IH]; cbn [times remove1]; [lia|]. intros H. destruct (Nat.eqb_spec x t') as [->|Hn].
  - destruct (decide (t' = t)); lia.
  - destruct (decide (x = t')) as [|_]; [contradiction|]. specialize (IH H). cbn [times]. lia.
Qed.
Lemma reads_times t l : times t l <> 0 -> existsb (Nat.eqb t) l = true.
Proof.
  induction l as [|x l IH]; cbn [times existsb]; [lia|]. intros H. destruct (Nat.eqb_spec t x) as [->|Hn]; [reflexivity|].
  apply IH. rewrite decide_False in H by congruence. exact H.
Qed.
Lemma cnt_same k s : cnt k (k :: s) = S (cnt k s).
Proof. cbn. rewrite decide_True by reflexivity. reflexivity. Qed.
Lemma cnt_other k k' s : k <> k' -> cnt k (k' :: s) = cnt k s.
Proof. intros H. cbn. rewrite decide_False by congruence. reflexivity. Qed.

Lemma lock_take_w Ls (t : tid) l l' mu W R : W <> R -> Ls !! t = Some l -> stk l' = W :: stk l -> rw_can_lock mu = true ->
  lock_ok Ls mu W R -> lock_ok (<[t := l']> Ls) (RW (Some t) []) W R.
Proof.
  intros Hne Hl Es Hcan (H1 & H2 & H3). unfold rw_can_lock in Hcan. destruct (rw_writer mu) eqn:Ew; [discriminate|].
  destruct (rw_readers mu) eqn:Er; [|discriminate]. repeat split; cbn.
  - intros t'. rewrite hold_ins, Es, cnt_same. destruct (decide (t' = t)) as [->|Hn].
    + rewrite decide_True by reflexivity. rewrite <- (hold_at _ _ _ _ Hl), H1. reflexivity.
    + rewrite decide_False by congruence. rewrite H1. reflexivity.
  - intros t'. rewrite (hold_same _ _ _ _ _ _ Hl), H2; [reflexivity|]. rewrite Es. apply cnt_other. congruence.
Qed.
Lemma lock_give_w Ls (t : tid) l l' mu W R : W <> R -> Ls !! t = Some l -> stk l = W :: stk l' ->
  lock_ok Ls mu W R -> rw_holds t mu = true /\ lock_ok (<[t := l']> Ls) rw0 W R.
Proof.
  intros Hne Hl Es (H1 & H2 & H3). pose proof (H1 t) as Ht. rewrite (hold_at _ _ _ _ Hl), Es, cnt_same in Ht.
  destruct (decide (rw_writer mu = Some t)) as [Ew|]; [|discriminate]. injection Ht as Ht. split.
  { unfold rw_holds. rewrite Ew. apply Nat.eqb_refl. }
  repeat split; cbn.
  - intros t'. rewrite hold_ins. case_decide; [exact Ht|]. rewrite H1, decide_False by congruence. reflexivity.
  - intros t'. rewrite (hold_same _ _ _ _ _ _ Hl), H2, H3 by congruence || (rewrite Es; symmetry; apply cnt_other; congruence). reflexivity.
Qed.
Lemma lock_take_r Ls (t : tid) l l' mu W R : W <> R -> Ls !! t = Some l -> stk l' = R :: stk l -> rw_can_rlock mu = true ->
  lock_ok Ls mu W R -> lock_ok (<[t := l']> Ls) (mu <| rw_readers ::= cons t |>) W R.
Proof.
  intros Hne Hl Es Hcan (H1 & H2 & H3). unfold rw_can_rlock in Hcan. destruct (rw_writer mu) eqn:Ew; [discriminate|].
  repeat split; cbn [rw_writer rw_readers set]; cbn.
  - intros t'. rewrite (hold_same _ _ _ _ _ _ Hl), H1, Ew; [reflexivity|]. rewrite Es. apply cnt_other. congruence.
  - intros t'. rewrite hold_ins, Es, cnt_same. destruct (decide (t' = t)) as [->|Hn].
    + rewrite decide_True by reflexivity. rewrite <- (hold_at _ _ _ _ Hl), H2. reflexivity.
    + rewrite decide_False by congruence. apply H2.
  - rewrite Ew. congruence.
Qed.
Lemma lock_give_r Ls (t : tid) l l' mu W R : W <> R -> Ls !! t = Some l -> stk l = R :: stk l' ->
  lock_ok Ls mu W R -> rw_reads t mu = true /\ lock_ok (<[t := l']> Ls) (mu <| rw_readers ::= remove1 t |>) W R.
Proof.
  intros Hne Hl Es (H1 & H2 & H3). pose proof (H2 t) as Ht. rewrite (hold_at _ _ _ _ Hl), Es, cnt_same in Ht.
  split. { apply reads_times. lia. }
  repeat split; cbn [rw_writer rw_readers set]; cbn.
  - intros t'. rewrite (hold_same _ _ _ _ _ _ Hl), H1; [reflexivity|]. rewrite Es. symmetry. apply cnt_other. congruence.
  - intros t'. rewrite hold_ins. pose proof (times_remove1 t' t (rw_readers mu)) as X. destruct (decide (t' = t)) as [->|Hn].
    + rewrite decide_True in X by reflexivity. lia.
    + rewrite decide_False in X by congruence. rewrite H2. lia.
  - intros Hw. rewrite (H3 Hw). reflexivity.
Qed.

(** The other locks of the same kind. *)
Ltac other := eapply lock_ext; [intros; eapply hold_same; [eassumption|]; cbn [stk cnt snap push with_stk]; rewrite ?decide_False by congruence; reflexivity .. |].

Lemma r_nslock c : respected (ONsLock c).
Proof.
  begin. destruct HR as [Hc HR]. apply Kc in Hc. destruct (rw_can_lock _) eqn:E; [|exact I].
  match goal with |- context [upd_conn c ?f w] => pose proof (dom_upd c f w Hc) as HD; exists (push (KNsW c) (snap (upd_conn c f w) l)) end.
  split; [split|].
  - apply base_quiet; auto.
  - frame w Ls HG HD. intros c'. rewrite conn_of_upd. case_decide; [subst|other; apply HG].
    eapply lock_take_w; [discriminate|eassumption|reflexivity|exact E|apply HG].
  - apply HR. fin_le HG Hl HD.
Qed.
Lemma r_nsunlock c : respected (ONsUnlock c).
Proof.
  begin. destruct HR as (Hc & s & Es & HR). apply Kc in Hc. destruct l as [s0 r d x]. cbn [stk] in Es. subst s0.
  destruct (lock_give_w Ls t _ (GL s r d x) (c_nsmu (conn_of w c)) (KNsW c) (KNsR c) ltac:(discriminate) Hl eq_refl ltac:(apply HG)) as [-> _].
  match goal with |- context [upd_conn c ?f w] => pose proof (dom_upd c f w Hc) as HD; exists (with_stk s (snap (upd_conn c f w) (GL (KNsW c :: s) r d x))) end.
  split; [split|].
  - apply base_quiet; auto.
  - frame w Ls HG HD. intros c'. rewrite conn_of_upd. case_decide; [subst|other; apply HG].
    eapply lock_give_w; [discriminate|eassumption|reflexivity|apply HG].
  - apply HR. fin_le HG Hl HD.
Qed.
Lemma r_nsrlock c : respected (ONsRLock c).
Proof.
  begin. destruct HR as [Hc HR]. apply Kc in Hc. destruct (rw_can_rlock _) eqn:E; [|exact I].
  match goal with |- context [upd_conn c ?f w] => pose proof (dom_upd c f w Hc) as HD; exists (push (KNsR c) (snap (upd_conn c f w) l)) end.
  split; [split|].
  - apply base_quiet; auto.
  - frame w Ls HG HD. intros c'. rewrite conn_of_upd. case_decide; [subst|other; apply HG].
    cbn. eapply lock_take_r; [discriminate|eassumption|reflexivity|exact E|apply HG].
  - apply HR. fin_le HG Hl HD.
Qed.
Lemma r_nsrunlock c : respected (ONsRUnlock c).
Proof.
  begin. destruct HR as (Hc & s & Es & HR). apply Kc in Hc. destruct l as [s0 r d x]. cbn [stk] in Es. subst s0.
  destruct (lock_give_r Ls t _ (GL s r d x) (c_nsmu (conn_of w c)) (KNsW c) (KNsR c) ltac:(discriminate) Hl eq_refl ltac:(apply HG)) as [-> _].
  match goal with |- context [upd_conn c ?f w] => pose proof (dom_upd c f w Hc) as HD; exists (with_stk s (snap (upd_conn c f w) (GL (KNsR c :: s) r d x))) end.
  split; [split|].
  - apply base_quiet; auto.
  - frame w Ls HG HD. intros c'. rewrite conn_of_upd. case_decide; [subst|other; apply HG].
    cbn. eapply lock_give_r; [discriminate|eassumption|reflexivity|apply HG].
  - apply HR. fin_le HG Hl HD.
Qed.
Lemma r_roomlock n : respected (ORoomLock n).
Proof.
  begin. destruct HR as [Hn HR]. apply Kn in Hn. destruct (rw_can_lock _) eqn:E; [|exact I]. rewrite mu_of_ns in E.
  match goal with |- context [upd_ns n ?f w] => exists (push (KRmW (n_id n)) (snap (upd_ns n f w) l)) end.
  split; [split|].
  - apply base_ns; [exact HB|apply Hn].
  - frame w Ls HG (eq_refl (w_conns w)). intros i. rewrite mu_of_upd. case_decide; [subst|other; apply HG].
    eapply lock_take_w; [discriminate|eassumption|reflexivity|exact E|apply HG].
  - apply HR. fin_le HG Hl (eq_refl (w_conns w)).
Qed.
Lemma r_roomunlock n : respected (ORoomUnlock n).
Proof.
  begin. destruct HR as (Hn & s & Es & HR). apply Kn in Hn. destruct l as [s0 r d x]. cbn [stk] in Es. subst s0. rewrite mu_of_ns.
  destruct (lock_give_w Ls t _ (GL s r d x) (mu_of w (n_id n)) (KRmW (n_id n)) (KRmR (n_id n)) ltac:(discriminate) Hl eq_refl ltac:(apply HG)) as [-> _].
  match goal with |- context [upd_ns n ?f w] => exists (with_stk s (snap (upd_ns n f w) (GL (KRmW (n_id n) :: s) r d x))) end.
  split; [split|].
  - apply base_ns; [exact HB|apply Hn].
  - frame w Ls HG (eq_refl (w_conns w)). intros i. rewrite mu_of_upd. case_decide; [subst|other; apply HG].
    eapply lock_give_w; [discriminate|eassumption|reflexivity|apply HG].
  - apply HR. fin_le HG Hl (eq_refl (w_conns w)).
Qed.
Lemma r_roomrlock n : respected (ORoomRLock n).
Proof.
  begin. destruct HR as [Hn HR]. apply Kn in Hn. destruct (rw_can_rlock _) eqn:E; [|exact I]. rewrite mu_of_ns in E.
  match goal with |- context [upd_ns n ?f w] => exists (push (KRmR (n_id n)) (snap (upd_ns n f w) l)) end.
  split; [split|].
  - apply base_ns; [exact HB|apply Hn].
  - frame w Ls HG (eq_refl (w_conns w)). intros i. rewrite mu_of_upd. case_decide; [subst|other; apply HG].
    cbn. rewrite mu_of_ns. eapply lock_take_r; [discriminate|eassumption|reflexivity|exact E|apply HG].
  - apply HR. fin_le HG Hl (eq_refl (w_conns w)).
Qed.
Lemma r_roomrunlock n : respected (ORoomRUnlock n).
Proof.
  begin. destruct HR as (Hn & s & Es & HR). apply Kn in Hn. destruct l as [s0 r d x]. cbn [stk] in Es. subst s0. rewrite mu_of_ns.
  destruct (lock_give_r Ls t _ (GL s r d x) (mu_of w (n_id n)) (KRmW (n_id n)) (KRmR (n_id n)) ltac:(discriminate) Hl eq_refl ltac:(apply HG)) as [-> _].
  match goal with |- context [upd_ns n ?f w] => exists (with_stk s (snap (upd_ns n f w) (GL (KRmR (n_id n) :: s) r d x))) end.
  split; [split|].
  - apply base_ns; [exact HB|apply Hn].
  - frame w Ls HG (eq_refl (w_conns w)). intros i. rewrite mu_of_upd. case_decide; [subst|other; apply HG].
    cbn. rewrite mu_of_ns. eapply lock_give_r; [discriminate|eassumption|reflexivity|apply HG].
  - apply HR. fin_le HG Hl (eq_refl (w_conns w)).
Qed.
Lemma r_block : respected OBLock.
Proof.
  begin. destruct (b_mu (w_srv w)) eqn:E; [exact I|].
  match goal with |- context [upd_srv ?f w] => exists (push KB (snap (upd_srv f w) l)) end.
  split; [split|].
  - srv HB.
  - frame w Ls HG (eq_refl (w_conns w)). intros t'. cbn. rewrite hold_ins. cbn [stk push with_stk snap]. rewrite cnt_same. pose proof (i_b _ _ _ _ HG) as X.
    rewrite E in X. destruct (decide (t' = t)) as [->|Hn].
    + rewrite decide_True by reflexivity. rewrite <- (hold_at _ _ _ _ Hl), X. reflexivity.
    + rewrite decide_False by congruence. rewrite X. reflexivity.
  - apply HR. fin_le HG Hl (eq_refl (w_conns w)).
Qed.
Lemma r_bunlock : respected OBUnlock.
Proof.
  begin. destruct HR as (s & Es & HR). destruct l as [s0 r d x]. cbn [stk] in Es. subst s0.
  pose proof (i_b _ _ _ _ HG) as X. pose proof (X t) as Xt. rewrite (hold_at _ _ _ _ Hl) in Xt. cbn [stk] in Xt. rewrite cnt_same in Xt.
  destruct (decide (b_mu (w_srv w) = Some t)) as [E|]; [|discriminate]. rewrite E, Nat.eqb_refl.
  match goal with |- context [upd_srv ?f w] => exists (with_stk s (snap (upd_srv f w) (GL (KB :: s) r d x))) end.
  split; [split|].
  - srv HB.
  - frame w Ls HG (eq_refl (w_conns w)). intros t'. cbn. rewrite hold_ins. cbn [stk push with_stk snap].
    destruct (decide (t' = t)) as [->|Hn]; [|rewrite X, E, decide_False by congruence]; rewrite decide_False by discriminate; lia.
  - apply HR. fin_le HG Hl (eq_refl (w_conns w)).
Qed.

(** ** Tokens that only one goroutine holds *)
Lemma excl_take Ls (t : tid) l l' k : Ls !! t = Some l -> stk l' = k :: stk l -> (forall t', hold Ls t' k = 0) -> excl (<[t := l']> Ls) k.
Proof.
  intros Hl Es H0. split.
  - intros t'. rewrite hold_ins. case_decide; [|rewrite H0; lia]. rewrite Es, cnt_same, <- (hold_at _ _ _ _ Hl), H0. lia.
  - intros t1 t2. rewrite !hold_ins. repeat case_decide; subst; rewrite ?H0; try congruence; try lia.
Qed.
Lemma excl_give Ls (t : tid) l l' k : Ls !! t = Some l -> stk l = k :: stk l' -> excl Ls k ->
  forall t', hold (<[t := l']> Ls) t' k = 0.
Proof.
  intros Hl Es [H1 H2] t'. pose proof (H1 t) as X. rewrite (hold_at _ _ _ _ Hl), Es, cnt_same in X.
  rewrite hold_ins. case_decide; [lia|]. destruct (Nat.eq_dec (hold Ls t' k) 0) as [|Hne]; [assumption|].
  exfalso. apply H. eapply H2; [exact Hne|]. rewrite (hold_at _ _ _ _ Hl), Es, cnt_same. lia.
Qed.
Lemma excl_none Ls k : (forall t, hold Ls t k = 0) -> excl Ls k.
Proof. intros H. split; intros *; rewrite !H; lia. Qed.
Lemma none_holds Ls k (Q : Prop) : (forall t, hold Ls t k <> 0 -> Q) -> ~ Q -> forall t, hold Ls t k = 0.
Proof. intros H HQ t. destruct (Nat.eq_dec (hold Ls t k) 0); [assumption|]. exfalso. eauto. Qed.
Ltac hsc := intros; eapply hold_same; [eassumption | cbn [stk cnt snap push with_stk with_role role]; rewrite ?decide_False by congruence; reflexivity].

Lemma r_casclosed c : respected (OCasClosed c).
Proof.
  begin. destruct HR as [Hc HR]. destruct (c_closed (conn_of w c)) eqn:E.
  { qw; [exact HB|]. intros. apply HR; auto. }
  apply Kc in Hc. match goal with |- context [upd_conn c ?f w] => pose proof (dom_upd c f w Hc) as HD; exists (push (KCloseCh c) (snap (upd_conn c f w) l)) end.
  destruct (i_close _ _ _ _ HG c) as (C1 & C2 & C3).
  assert (C4 : c_closeCh (conn_of w c) = false) by (destruct (c_closeCh (conn_of w c)); [rewrite C3 in E by reflexivity; discriminate|reflexivity]).
  assert (C5 : forall t', hold Ls t' (KCloseCh c) = 0).
  { eapply none_holds; [exact C2|]. intros [X _]. congruence. }
  split; [split|].
  - apply base_quiet; auto.
  - frame w Ls HG HD. intros c'. destruct (decide (c' = c)) as [->|Hne].
    + rewrite conn_of_upd, decide_True by reflexivity. cbn. split; [eapply excl_take; [eassumption|reflexivity|exact C5]|]. auto.
    + assert (X := i_close _ _ _ _ HG c'). rewrite conn_of_upd, decide_False by assumption. destruct X as (X1 & X2 & X3). split; [|split]; [|intros t'|exact X3].
      * eapply excl_ext; [|exact X1]. hsc.
      * erewrite hold_same; [apply X2|eassumption|]. cbn [stk cnt snap push with_stk]. rewrite decide_False by congruence. reflexivity.
  - apply HR. fin_le HG Hl HD.
Qed.
Lemma r_closech c : respected (OCloseCh c).
Proof.
  begin. destruct HR as (Hc & s & Es & HR). apply Kc in Hc. destruct l as [s0 r d x]. cbn [stk] in Es. subst s0.
  destruct (i_close _ _ _ _ HG c) as (C1 & C2 & C3).
  destruct (C2 t) as [C4 C5]. { rewrite (hold_at _ _ _ _ Hl). cbn [stk]. rewrite cnt_same. lia. }
  rewrite C5.
  match goal with |- context [upd_conn c ?f w] => pose proof (dom_upd c f w Hc) as HD; exists (with_stk s (snap (upd_conn c f w) (GL (KCloseCh c :: s) r d x))) end.
  split; [split|].
  - apply base_quiet; auto.
  - frame w Ls HG HD. intros c'. destruct (decide (c' = c)) as [->|Hne].
    + rewrite conn_of_upd, decide_True by reflexivity. cbn.
      assert (X : forall l', stk l' = s -> forall t', hold (<[t := l']> Ls) t' (KCloseCh c) = 0).
      { intros l' El'. eapply excl_give; [eassumption|rewrite El'; reflexivity|exact C1]. }
      split; [apply excl_none, X; reflexivity|]. split; [|auto]. intros t'. rewrite X by reflexivity. lia.
    + assert (X := i_close _ _ _ _ HG c'). rewrite conn_of_upd, decide_False by assumption. destruct X as (X1 & X2 & X3). split; [|split]; [|intros t'|exact X3].
      * eapply excl_ext; [|exact X1]. hsc.
      * erewrite hold_same; [apply X2|eassumption|]. cbn [stk cnt snap push with_stk]. rewrite decide_False by congruence. reflexivity.
  - apply HR. fin_le HG Hl HD.
Qed.

Lemma r_bswap : respected OBSwap.
Proof.
  begin. match goal with |- context [upd_srv ?f w] => exists (push (KSwap (b_gen (w_srv w))) (snap (upd_srv f w) l)) end.
  split; [split|].
  - srv HB.
  - frame w Ls HG (eq_refl (w_conns w)). intros g. cbn. destruct (i_swap _ _ _ _ HG g) as (X1 & X2 & X3).
    destruct (decide (g = b_gen (w_srv w))) as [->|Hne].
    + assert (X4 : forall t', hold Ls t' (KSwap (b_gen (w_srv w))) = 0) by (eapply none_holds; [exact X2|lia]).
      split; [eapply excl_take; [eassumption|reflexivity|exact X4]|]. split; [|intros X; apply X3 in X; lia].
      intros _ _. split; [lia|]. intros X. apply X3 in X. lia.
    + split; [|split].
      * eapply excl_ext; [|exact X1]. hsc.
      * intros t'. erewrite hold_same; [intros X; apply X2 in X; split; [lia|apply X]|eassumption|]. cbn [stk cnt snap push with_stk]. rewrite decide_False by congruence. reflexivity.
      * intros X. apply X3 in X. lia.
  - apply HR. fin_le HG Hl (eq_refl (w_conns w)).
Qed.
Lemma r_bclose g : respected (OBClose g).
Proof.
  begin. destruct HR as (s & Es & HR). destruct l as [s0 r d x]. cbn [stk] in Es. subst s0.
  destruct (i_swap _ _ _ _ HG g) as (C1 & C2 & C3).
  destruct (C2 t) as [C4 C5]. { rewrite (hold_at _ _ _ _ Hl). cbn [stk]. rewrite cnt_same. lia. }
  rewrite bool_decide_eq_false_2 by exact C5.
  match goal with |- context [upd_srv ?f w] => exists (with_stk s (snap (upd_srv f w) (GL (KSwap g :: s) r d x))) end.
  split; [split|].
  - srv HB.
  - frame w Ls HG (eq_refl (w_conns w)). intros g'. cbn. destruct (decide (g' = g)) as [->|Hne].
    + assert (X : forall l', stk l' = s -> forall t', hold (<[t := l']> Ls) t' (KSwap g) = 0).
      { intros l' El'. eapply excl_give; [eassumption|rewrite El'; reflexivity|exact C1]. }
      split; [apply excl_none, X; reflexivity|]. split; [|auto]. intros t'. rewrite X by reflexivity. lia.
    + destruct (i_swap _ _ _ _ HG g') as (X1 & X2 & X3). split; [|split].
      * eapply excl_ext; [|exact X1]. hsc.
      * intros t'. erewrite hold_same; [intros X; apply X2 in X as [X4 X5]; split; [exact X4|set_solver]|eassumption|]. cbn [stk cnt snap push with_stk]. rewrite decide_False by congruence. reflexivity.
      * intros X. apply X3. set_solver.
  - apply HR. fin_le HG Hl (eq_refl (w_conns w)).
Qed.

(** ** Processes *)
Lemma r_procadd p : respected (OProcAdd p).
Proof.
  begin. destruct HR as (Hcon & Hp & HR). apply Kp in Hp.
  match goal with |- context [upd_proc p ?f w] => exists (push (KStart p) (snap (upd_proc p f w) l)) end.
  split; [split|].
  - apply base_proc, HB.
  - frame w Ls HG (eq_refl (w_conns w)). intros p'. destruct (i_proc _ _ _ _ HG p') as [X1 X2 X3 X4 X5].
    destruct (decide (p' = p)) as [->|Hne].
    + constructor; rewrite ?proc_of_upd, ?decide_True by reflexivity; cbn.
      * eapply excl_ext; [|exact X1]. hs.
      * intros t'. erewrite hold_same by (eassumption || (cbn [stk cnt snap push with_stk]; rewrite decide_False by discriminate; reflexivity)).
        intros X. apply X2 in X as [X _]. auto.
      * auto.
      * intros t' _. exact Hp.
      * congruence.
    + eapply (fr_proc1 w); [cbn; lia|rewrite proc_of_upd, decide_False by assumption; reflexivity|rewrite proc_of_upd, decide_False by assumption; reflexivity|hsc|hsc|apply HG].
  - apply HR. fin_le HG Hl (eq_refl (w_conns w)).
Qed.
Lemma r_procdonecas p : respected (OProcDoneCas p).
Proof.
  begin. destruct HR as (Hp & s & Es & HR). apply Kp in Hp. destruct l as [s0 r d x]. cbn [stk] in Es. subst s0.
  assert (Hst : forall k s', cnt k s' = cnt k s -> k <> KStart p -> cnt k s' = cnt k (KStart p :: s)).
  { intros k s' -> Hk. symmetry. apply cnt_other, Hk. }
  assert (Hfr : forall p' l', p' <> p -> stk l' = s \/ stk l' = KDone p :: s -> forall t', hold (<[t := l']> Ls) t' (KDone p') = hold Ls t' (KDone p') /\ hold (<[t := l']> Ls) t' (KStart p') = hold Ls t' (KStart p')).
  { intros p' l' Hne El' t'. split; (eapply hold_same; [eassumption|]; cbn [stk]; rewrite (cnt_other _ (KStart p)) by congruence;
      destruct El' as [-> | ->]; rewrite ?cnt_other by congruence; reflexivity). }
  assert (Hle : forall l' t', stk l' = s \/ stk l' = KDone p :: s -> hold (<[t := l']> Ls) t' (KStart p) <> 0 -> hold Ls t' (KStart p) <> 0).
  { intros l' t' El'. rewrite hold_ins. case_decide; [subst|auto]. rewrite (hold_at _ _ _ _ Hl). cbn [stk]. rewrite cnt_same. lia. }
  destruct (i_proc _ _ _ _ HG p) as [X1 X2 X3 X4 X5]. destruct (p_done (proc_of w p)) eqn:E.
  - exists (with_stk s (snap w (GL (KStart p :: s) r d x))). split; [split; [exact HB|]|].
    + frame w Ls HG (eq_refl (w_conns w)). intros p'. destruct (decide (p' = p)) as [->|Hne].
      * assert (Hd : forall t', hold (<[t := with_stk s (snap w (GL (KStart p :: s) r d x))]> Ls) t' (KDone p) = hold Ls t' (KDone p)) by hs.
        constructor.
        -- eapply excl_ext; [exact Hd|exact X1].
        -- intros t'. rewrite Hd. rewrite E. apply X2.
        -- intros t' _. rewrite E. discriminate.
        -- intros t' [H|H]; [rewrite Hd in H; eauto|exact Hp].
        -- exact X5.
      * eapply (fr_proc1 w); [cbn; lia|reflexivity|reflexivity|intros; eapply Hfr; [assumption|left; reflexivity]..|apply HG].
    + apply HR. fin_le HG Hl (eq_refl (w_conns w)).
  - match goal with |- context [upd_proc p ?f w] => exists (with_stk (KDone p :: s) (snap (upd_proc p f w) (GL (KStart p :: s) r d x))) end.
    split; [split; [apply base_proc, HB|]|].
    + frame w Ls HG (eq_refl (w_conns w)). intros p'. destruct (decide (p' = p)) as [->|Hne].
      * assert (Hn : forall t', hold Ls t' (KDone p) = 0). { eapply none_holds; [exact X2|]. intros [X _]. congruence. }
        constructor; rewrite ?proc_of_upd, ?decide_True by reflexivity; cbn.
        -- split; intros *; rewrite !hold_ins; cbn [stk with_stk]; rewrite !cnt_same; pose proof (Hn t) as Ht; rewrite (hold_at _ _ _ _ Hl) in Ht; cbn [stk] in Ht;
             rewrite cnt_other in Ht by discriminate; repeat case_decide; subst; rewrite ?Hn; try lia; try congruence.
        -- intros t' _. split; [reflexivity|]. apply (X3 t); [|reflexivity]. rewrite (hold_at _ _ _ _ Hl). cbn [stk]. rewrite cnt_same. lia.
        -- discriminate.
        -- intros. exact Hp.
        -- exact X5.
      * eapply (fr_proc1 w); [cbn; lia|rewrite proc_of_upd, decide_False by assumption; reflexivity|rewrite proc_of_upd, decide_False by assumption; reflexivity
          |intros; eapply Hfr; [assumption|right; reflexivity]..|apply HG].
    + apply HR. fin_le HG Hl (eq_refl (w_conns w)).
Qed.
Lemma r_procdone p : respected (OProcDone p).
Proof.
  begin. destruct HR as (Hp & s & Es & HR). apply Kp in Hp. destruct l as [s0 r d x]. cbn [stk] in Es. subst s0.
  destruct (i_proc _ _ _ _ HG p) as [X1 X2 X3 X4 X5].
  destruct (X2 t) as [C4 C5]. { rewrite (hold_at _ _ _ _ Hl). cbn [stk]. rewrite cnt_same. lia. }
  assert (Hgo : forall f, (p_done (f (proc_of w p)) = true) -> (con = false -> p_count (f (proc_of w p)) = 0) ->
    exists l', Inv (upd_proc p f w) (<[t := l']> Ls) /\ P tt l').
  { intros f Hf1 Hf2. exists (with_stk s (snap (upd_proc p f w) (GL (KDone p :: s) r d x))). split; [split; [apply base_proc, HB|]|].
    - frame w Ls HG (eq_refl (w_conns w)). intros p'. destruct (decide (p' = p)) as [->|Hne].
      + assert (X : forall l', stk l' = s -> forall t', hold (<[t := l']> Ls) t' (KDone p) = 0).
        { intros l' El'. eapply excl_give; [eassumption|rewrite El'; reflexivity|exact X1]. }
        constructor; rewrite ?proc_of_upd, ?decide_True by reflexivity.
        * apply excl_none, X. reflexivity.
        * intros t'. rewrite X by reflexivity. lia.
        * rewrite Hf1. discriminate.
        * intros. exact Hp.
        * exact Hf2.
      + eapply (fr_proc1 w); [cbn; lia|rewrite proc_of_upd, decide_False by assumption; reflexivity|rewrite proc_of_upd, decide_False by assumption; reflexivity
          |hsc|hsc|apply HG].
    - apply HR. fin_le HG Hl (eq_refl (w_conns w)). }
  destruct (p_count (proc_of w p)) as [|[|n]] eqn:E; [lia|apply Hgo..].
  - destruct (p_waiters (proc_of w p)); exact C4.
  - intros _. destruct (p_waiters (proc_of w p)); reflexivity.
  - exact C4.
  - intros Hcon. specialize (X5 Hcon). congruence.
Qed.
Lemma r_procwait p : respected (OProcWait p).
Proof.
  begin. destruct HR as [Hp HR]. destruct (p_count (proc_of w p)) eqn:E; [qw; [exact HB|]; intros; apply HR; auto|].
  match goal with |- context [upd_proc p ?f w] => exists (snap (upd_proc p f w) l) end.
  split; [split; [apply base_proc, HB|]|].
  - frame w Ls HG (eq_refl (w_conns w)).
  - apply HR; [fin_le HG Hl (eq_refl (w_conns w))|]. intros Hcon. rewrite (pr_none _ _ _ _ (i_proc _ _ _ _ HG p) Hcon) in E. discriminate.
Qed.
Lemma r_procwoken p g : respected (OProcWoken p g).
Proof.
  begin. destruct HR as (Hp & Hcon & HR). destruct (_ <? _); [|exact I].
  assert (crash con "sync: WaitGroup is reused before previous Wait has returned") by (split; [exact Hcon|reflexivity]).
  destruct (p_count (proc_of w p)); [destruct (p_waiters (proc_of w p))|]; try assumption. qw; [exact HB|]. intros; apply HR; auto.
Qed.

(** ** The gate *)
Definition before (w : world) (Ls : gmap tid gl) (c : cid) : Prop :=
  (exists t, early (rl Ls t) c) \/ nrd c (w_spawn w) <> 0 \/ c ∉ dom (w_conns w).
Lemma fr_gate2 w w' Ls Ls' c : w_ready (c_wait (conn_of w' c)) = w_ready (c_wait (conn_of w c)) ->
  w_locked (c_wait (conn_of w' c)) = w_locked (c_wait (conn_of w c)) ->
  w_chclosed (c_wait (conn_of w' c)) = w_chclosed (c_wait (conn_of w c)) ->
  (before w' Ls' c -> before w Ls c) ->
  (forall t, hold Ls' t (KSet c) = hold Ls t (KSet c)) -> (forall t, hold Ls' t (KGate c) = hold Ls t (KGate c)) ->
  (forall t, rl Ls' t = RRd c 1 -> rl Ls t = RRd c 1) -> (forall t, rl Ls' t = RRd c 3 -> rl Ls t = RRd c 3) ->
  gate_ok G w Ls c -> gate_ok G w' Ls' c.
Proof.
  intros E1 E2 E3 HE H1 H2 H3 H4 HG. destruct HG; constructor; rewrite ?E1, ?E2, ?E3; auto.
  - intros t. rewrite H1. apply gt_set.
  - intros t. rewrite H2. apply gt_gate.
  - eapply excl_ext; eauto.
  - intros Hc H. apply gt_early; [exact Hc|]. apply HE, H.
  - intros t Ht. specialize (gt_one t (H3 t Ht)). destruct (g_client G c); [exact gt_one|].
    destruct gt_one as (X1 & X2 & X3). repeat split; auto. intros t'. rewrite H2. auto.
  - intros t Ht. apply (gt_three t), H4, Ht.
Qed.

(** The reader changes its phase. *)
Lemma phase_owns Ls (t : tid) l l' c i j : Ls !! t = Some l -> role l = RRd c i -> role l' = RRd c j ->
  forall t' c', owns (rl (<[t := l']> Ls) t') c' -> owns (rl Ls t') c'.
Proof. intros Hl E E' t' c'. rewrite rl_ins. case_decide; [subst; rewrite E', (rl_at _ _ _ Hl), E; auto|auto]. Qed.
Lemma phase_rl Ls (t : tid) l l' c j c' k t' : Ls !! t = Some l -> role l' = RRd c j ->
  rl (<[t := l']> Ls) t' = RRd c' k -> (c' <> c \/ k <> j) -> rl Ls t' = RRd c' k.
Proof. intros Hl E' H Hne. rewrite rl_ins in H. case_decide; [|exact H]. rewrite E' in H. injection H as -> ->. destruct Hne; contradiction. Qed.
Lemma phase_before w w' Ls (t : tid) l l' c i j c' : Ls !! t = Some l -> role l = RRd c i -> role l' = RRd c j -> (j = 0 -> i = 0 \/ c' <> c) ->
  w_spawn w' = w_spawn w -> dom (w_conns w') = dom (w_conns w) -> before w' (<[t := l']> Ls) c' -> before w Ls c'.
Proof.
  intros Hl E E' Hj E1 E2 [[t' H]|H]; [|right; rewrite <- E1, <- E2; exact H]. left. exists t'. rewrite rl_ins in H. case_decide; [|exact H].
  subst. rewrite E' in H. destruct H as [H|H]; [discriminate|]. injection H as -> ->. rewrite (rl_at _ _ _ Hl), E.
  destruct (Hj eq_refl) as [->|X]; [right; reflexivity|contradiction].
Qed.
(** Nobody else is the reader. *)
Lemma reader_only w Ls (t : tid) l c i : Ghost w Ls -> Ls !! t = Some l -> role l = RRd c i ->
  forall t' j, rl Ls t' = RRd c j -> j = i.
Proof.
  intros HG Hl E t' j H. assert (t' = t) as ->.
  { eapply (i_one _ _ _ _ HG) with (c := c); [rewrite H|rewrite (rl_at _ _ _ Hl), E]; reflexivity. }
  rewrite (rl_at _ _ _ Hl), E in H. congruence.
Qed.
Lemma phase_only w Ls (t : tid) l l' c i j : Ghost w Ls -> Ls !! t = Some l -> role l = RRd c i -> role l' = RRd c j ->
  forall t' k, rl (<[t := l']> Ls) t' = RRd c k -> k = j.
Proof.
  intros HG Hl E E' t' k H. rewrite rl_ins in H. case_decide; [congruence|]. exfalso. apply H0.
  eapply (i_one _ _ _ _ HG) with (c := c); [rewrite H|rewrite (rl_at _ _ _ Hl), E]; reflexivity.
Qed.
Lemma not_before w Ls (t : tid) l c i : Ghost w Ls -> Ls !! t = Some l -> role l = RRd c i -> i <> 0 -> ~ before w Ls c.
Proof.
  intros HG Hl E Hi H. destruct (i_mk _ _ _ _ HG t c) as [M1 M2]; [rewrite (rl_at _ _ _ Hl), E; reflexivity|].
  destruct H as [[t' H]|[H|H]]; [|contradiction|apply H, M1].
  assert (t' = t) as ->.
  { eapply (i_one _ _ _ _ HG) with (c := c); [destruct H as [H|H]; rewrite H|rewrite (rl_at _ _ _ Hl), E]; reflexivity. }
  rewrite (rl_at _ _ _ Hl), E in H. destruct H as [H|H]; congruence.
Qed.

(** The gates of other connections, when goroutine [t] changes its phase on
    [c]; and the other role clauses. *)
Ltac other_gate w Ls HG Hl Hr HD := eapply (fr_gate2 w _ Ls); [pj | pj | pj
  | eapply phase_before; [exact Hl | exact Hr | reflexivity | auto | reflexivity | rewrite ?HD; reflexivity]
  | hsc | hsc
  | intros ? H9; refine (phase_rl _ _ _ _ _ _ _ _ _ Hl _ H9 _); [reflexivity | left; assumption]
  | intros ? H9; refine (phase_rl _ _ _ _ _ _ _ _ _ Hl _ H9 _); [reflexivity | left; assumption]
  | apply HG].
Ltac roles w Ls HG Hl Hr HD := lazymatch goal with
  | |- forall t t' c, owns _ _ -> _ => eapply (fr_one Ls); [eapply phase_owns; [exact Hl | exact Hr | reflexivity] | apply HG]
  | |- forall t c, owns _ _ -> _ => eapply (fr_mk w _ Ls); [eapply phase_owns; [exact Hl | exact Hr | reflexivity] | rewrite ?HD; reflexivity | reflexivity | apply HG]
  | |- _ => idtac end.

Lemma r_wready c : respected (OWReady c).
Proof.
  begin. destruct HR as [Hc [HR|[Hr HR]]]; [qw; [exact HB|]; intros; apply HR; auto|].
  destruct (w_ready (c_wait (conn_of w c))) eqn:E; [qw; [exact HB|]; intros; apply HR; auto|].
  apply Kc in Hc. exists (with_role (RRd c 1) (snap w l)). split; [split; [exact HB|]|].
  - frame w Ls HG (eq_refl (w_conns w)); roles w Ls HG Hl Hr (eq_refl (w_conns w)).
    intros c'. destruct (decide (c' = c)) as [->|Hne]; [|other_gate w Ls HG Hl Hr (eq_refl (w_conns w))].
    destruct (i_gate _ _ _ _ HG c) as [X1 X2 X3 X4 X5 X6 X7 X8].
    assert (Hh : forall t' k, hold (<[t := with_role (RRd c 1) (snap w l)]> Ls) t' k = hold Ls t' k) by hs.
    constructor; try assumption.
    + intros t'. rewrite Hh. apply X2.
    + intros t'. rewrite Hh. apply X3.
    + eapply excl_ext; [intros; apply Hh|exact X4].
    + intros Hs H. apply X6; [exact Hs|]. eapply phase_before in H; [exact H|exact Hl|exact Hr|reflexivity|discriminate|reflexivity|reflexivity].
    + intros t' _. destruct (g_client G c) eqn:Ec; [exact E|].
      assert (XE : w_locked (c_wait (conn_of w c)) = false).
      { destruct X6 as [X6|X6]; [reflexivity| |congruence|exact X6]. left. exists t. right. rewrite (rl_at _ _ _ Hl). exact Hr. }
      split; [exact XE|]. split. { destruct (w_chclosed (c_wait (conn_of w c))); [rewrite X1 in E by reflexivity; discriminate|reflexivity]. }
      intros t2. rewrite Hh. revert t2. eapply none_holds; [exact X3|]. intros (_ & X & _). congruence.
    + intros t' H. eapply phase_rl in H; [|exact Hl|reflexivity|right; discriminate]. eauto.
  - apply HR. fin_le HG Hl (eq_refl (w_conns w)).
Qed.
Lemma r_wseterr c e : respected (OWSetErr c e).
Proof.
  begin. destruct HR as (Hc & He & HR). apply Kc in Hc.
  match goal with |- context [upd_conn c ?f w] => pose proof (dom_upd c f w Hc) as HD; exists (snap (upd_conn c f w) l) end.
  split; [split|].
  - apply base_conn; try assumption; cbn; try apply HB. intros. apply HB; assumption.
  - frame w Ls HG HD.
  - apply HR. fin_le HG Hl HD.
Qed.

Ltac pick_gate HG c := destruct (i_gate _ _ _ _ HG c) as [X1 X2 X3 X4 X5 X6 X7 X8].
Lemma r_wsetready c : respected (OWSetReady c).
Proof.
  begin. destruct HR as (Hc & HR). apply Kc in Hc.  destruct (g_client G c) eqn:Ec; destruct (i_gate _ _ _ _ HG c) as [X1 X2 X3 X4 X5 X6 X7 X8].
  - destruct HR as [Hr HR].
    match goal with |- context [upd_conn c ?f w] => pose proof (dom_upd c f w Hc) as HD; exists (with_role (RRd c 3) (snap (upd_conn c f w) l)) end.
    split; [split|].
    + apply base_quiet; auto.
    + frame w Ls HG HD; roles w Ls HG Hl Hr HD.
      intros c'. destruct (decide (c' = c)) as [->|Hne]; [|other_gate w Ls HG Hl Hr HD].
      match goal with |- gate_ok _ _ (<[t := ?l1]> Ls) _ => assert (Hh : forall t' k, hold (<[t := l1]> Ls) t' k = hold Ls t' k) by hs end.
      constructor; rewrite ?conn_of_upd, ?decide_True by reflexivity; cbn.
      * auto.
      * auto.
      * intros t'. rewrite Hh. intros X. apply X3 in X as [X _]. congruence.
      * eapply excl_ext; [intros; apply Hh|exact X4].
      * congruence.
      * congruence.
      * intros t' H. eapply phase_only in H; [|exact HG|exact Hl|exact Hr|reflexivity]. discriminate.
      * intros t' _. split; [exact Ec|]. split; [reflexivity|]. specialize (X7 t). rewrite (rl_at _ _ _ Hl), Ec in X7. specialize (X7 Hr).
        destruct (w_chclosed (c_wait (conn_of w c))); [rewrite X1 in X7 by reflexivity; discriminate|reflexivity].
    + apply HR. fin_le HG Hl HD.
  - match goal with |- context [upd_conn c ?f w] => pose proof (dom_upd c f w Hc) as HD; exists (push (KSet c) (snap (upd_conn c f w) l)) end.
    split; [split|].
    + apply base_quiet; auto.
    + frame w Ls HG HD.
      intros c'. destruct (decide (c' = c)) as [->|Hne]; [|eapply (fr_gate1 w); [pj|pj|pj|reflexivity|rewrite HD; reflexivity|hsc|hsc|rs|apply HG]].
      match goal with |- gate_ok _ _ (<[t := ?l1]> Ls) _ => assert (Hh : forall t', hold (<[t := l1]> Ls) t' (KGate c) = hold Ls t' (KGate c)) by hs;
        assert (Hq : forall t', rl (<[t := l1]> Ls) t' = rl Ls t') by rs end.
      constructor; rewrite ?conn_of_upd, ?decide_True by reflexivity; cbn.
      * auto.
      * auto.
      * intros t'. rewrite Hh. intros X. apply X3 in X. tauto.
      * eapply excl_ext; [intros; apply Hh|exact X4].
      * exact X5.
      * auto.
      * intros t'. rewrite Hq. intros X. specialize (X7 t' X). rewrite Ec in *. destruct X7 as (Y1 & Y2 & Y3). repeat split; auto. intros t2. rewrite Hh. auto.
      * intros t'. rewrite Hq. intros X. apply X8 in X as [X _]. congruence.
    + apply HR. fin_le HG Hl HD.
Qed.
Lemma r_wcaslock c : respected (OWCasLock c).
Proof.
  begin. destruct HR as (Hc & HR).  destruct (g_client G c) eqn:Ec; destruct (i_gate _ _ _ _ HG c) as [X1 X2 X3 X4 X5 X6 X7 X8].
  - destruct (w_locked (c_wait (conn_of w c))) eqn:E; [qw; [exact HB|]; intros; apply HR; auto|]. apply Kc in Hc.
    match goal with |- context [upd_conn c ?f w] => pose proof (dom_upd c f w Hc) as HD; exists (snap (upd_conn c f w) l) end.
    split; [split|].
    + apply base_quiet; auto.
    + frame w Ls HG HD.
      intros c'. destruct (decide (c' = c)) as [->|Hne]; [|eapply (fr_gate1 w); [pj|pj|pj|reflexivity|rewrite HD; reflexivity|hsc|hsc|rs|apply HG]].
      match goal with |- gate_ok _ _ (<[t := ?l1]> Ls) _ => assert (Hh : forall t' k, hold (<[t := l1]> Ls) t' k = hold Ls t' k) by hs;
        assert (Hq : forall t', rl (<[t := l1]> Ls) t' = rl Ls t') by rs end.
      constructor; rewrite ?conn_of_upd, ?decide_True by reflexivity; cbn.
      * auto.
      * intros t'. rewrite Hh. apply X2.
      * intros t'. rewrite Hh. intros X. apply X3 in X as [X _]. congruence.
      * eapply excl_ext; [intros; apply Hh|exact X4].
      * congruence.
      * congruence.
      * intros t'. rewrite Hq. intros X. specialize (X7 t' X). rewrite Ec in *. exact X7.
      * intros t'. rewrite Hq. apply X8.
    + apply HR. fin_le HG Hl HD.
  - destruct HR as [Hr HR]. apply Kc in Hc. assert (X7t := X7 t). rewrite (rl_at _ _ _ Hl), Ec in X7t. destruct (X7t Hr) as (Y1 & Y2 & Y3). rewrite Y1.
    match goal with |- context [upd_conn c ?f w] => pose proof (dom_upd c f w Hc) as HD; exists (with_role (RRd c 2) (snap (upd_conn c f w) l)) end.
    split; [split|].
    + apply base_quiet; auto.
    + frame w Ls HG HD; roles w Ls HG Hl Hr HD.
      intros c'. destruct (decide (c' = c)) as [->|Hne]; [|other_gate w Ls HG Hl Hr HD].
      match goal with |- gate_ok _ _ (<[t := ?l1]> Ls) _ => assert (Hh : forall t' k, hold (<[t := l1]> Ls) t' k = hold Ls t' k) by hs end.
      constructor; rewrite ?conn_of_upd, ?decide_True by reflexivity; cbn.
      * auto.
      * intros t'. rewrite Hh. apply X2.
      * intros t'. rewrite Hh, Y3. lia.
      * eapply excl_ext; [intros; apply Hh|exact X4].
      * auto.
      * intros _ H. exfalso. eapply (not_before w Ls t l c 1 HG Hl Hr); [discriminate|].
        match type of HD with dom (w_conns ?w') = _ => eapply (phase_before w w' Ls t l _ c 1 2 c Hl Hr) end.
        5: exact H. { reflexivity. } { discriminate. } { reflexivity. } { exact HD. }
      * intros t' H. eapply phase_only in H; [|exact HG|exact Hl|exact Hr|reflexivity]. discriminate.
      * intros t' H. eapply phase_only in H; [|exact HG|exact Hl|exact Hr|reflexivity]. discriminate.
    + apply HR. fin_le HG Hl HD.
Qed.
Lemma r_wrecv c : respected (OWRecv c).
Proof.
  begin. destruct HR as (Hc & HR). destruct (w_chclosed (c_wait (conn_of w c))) eqn:E; [|exact I].
   destruct (g_client G c) eqn:Ec; destruct (i_gate _ _ _ _ HG c) as [X1 X2 X3 X4 X5 X6 X7 X8].
  - qw; [exact HB|]. intros; apply HR; auto.
  - destruct HR as [Hr HR]. apply Kc in Hc. exists (with_role (RRd c 0) (snap w l)). split; [split; [exact HB|]|].
    + frame w Ls HG (eq_refl (w_conns w)); roles w Ls HG Hl Hr (eq_refl (w_conns w)).
      intros c'. destruct (decide (c' = c)) as [->|Hne]; [|other_gate w Ls HG Hl Hr (eq_refl (w_conns w))].
      match goal with |- gate_ok _ _ (<[t := ?l1]> Ls) _ => assert (Hh : forall t' k, hold (<[t := l1]> Ls) t' k = hold Ls t' k) by hs end.
      constructor; try assumption.
      * intros t'. rewrite Hh. apply X2.
      * intros t'. rewrite Hh. intros X. exact (X3 t' X).
      * eapply excl_ext; [intros; apply Hh|exact X4].
      * intros _ _. left. apply X1, E.
      * intros t' H. eapply phase_only in H; [|exact HG|exact Hl|exact Hr|reflexivity]. discriminate.
      * intros t' H. eapply phase_only in H; [|exact HG|exact Hl|exact Hr|reflexivity]. discriminate.
    + apply HR. fin_le HG Hl (eq_refl (w_conns w)).
Qed.
Lemma r_wcasunlock c : respected (OWCasUnlock c).
Proof.
  begin. destruct HR as (Hc & HR). apply Kc in Hc. destruct (g_client G c) eqn:Ec; destruct (i_gate _ _ _ _ HG c) as [X1 X2 X3 X4 X5 X6 X7 X8].
  - destruct HR as [Hr HR]. destruct (X8 t) as (_ & Y1 & Y2); [rewrite (rl_at _ _ _ Hl); exact Hr|].
    destruct (w_locked (c_wait (conn_of w c))) eqn:E.
    + match goal with |- context [upd_conn c ?f w] => pose proof (dom_upd c f w Hc) as HD; exists (snap (upd_conn c f w) l) end.
      split; [split|].
      * apply base_quiet; auto.
      * frame w Ls HG HD.
        intros c'. destruct (decide (c' = c)) as [->|Hne]; [|eapply (fr_gate1 w); [pj|pj|pj|reflexivity|rewrite HD; reflexivity|hsc|hsc|rs|apply HG]].
        match goal with |- gate_ok _ _ (<[t := ?l1]> Ls) _ => assert (Hh : forall t' k, hold (<[t := l1]> Ls) t' k = hold Ls t' k) by hs;
          assert (Hq : forall t', rl (<[t := l1]> Ls) t' = rl Ls t') by rs end.
        constructor; rewrite ?conn_of_upd, ?decide_True by reflexivity; cbn.
        -- auto.
        -- intros t'. rewrite Hh. apply X2.
        -- intros t'. rewrite Hh. intros X. apply X3 in X as [X _]. congruence.
        -- eapply excl_ext; [intros; apply Hh|exact X4].
        -- congruence.
        -- congruence.
        -- intros t'. rewrite Hq. intros X. specialize (X7 t' X). rewrite Ec in *. exact X7.
        -- intros t'. rewrite Hq. intros X. exact (X8 t' X).
      * apply HR. fin_le HG Hl HD.
    + exists (with_role (RRd c 0) (snap w l)). split; [split; [exact HB|]|].
      * frame w Ls HG (eq_refl (w_conns w)); roles w Ls HG Hl Hr (eq_refl (w_conns w)).
        intros c'. destruct (decide (c' = c)) as [->|Hne]; [|other_gate w Ls HG Hl Hr (eq_refl (w_conns w))].
        match goal with |- gate_ok _ _ (<[t := ?l1]> Ls) _ => assert (Hh : forall t' k, hold (<[t := l1]> Ls) t' k = hold Ls t' k) by hs end.
        constructor; try assumption.
        -- intros t'. rewrite Hh. apply X2.
        -- intros t'. rewrite Hh. intros X. specialize (X3 t' X). destruct X3. congruence.
        -- eapply excl_ext; [intros; apply Hh|exact X4].
        -- congruence.
        -- congruence.
        -- intros t' H. eapply phase_only in H; [|exact HG|exact Hl|exact Hr|reflexivity]. discriminate.
        -- intros t' H. eapply phase_only in H; [|exact HG|exact Hl|exact Hr|reflexivity]. discriminate.
      * apply HR. fin_le HG Hl (eq_refl (w_conns w)).
  - destruct HR as (s & Es & HR). destruct l as [s0 r d x]. cbn [stk] in Es. subst s0.
    assert (Y1 : w_ready (c_wait (conn_of w c)) = true). { apply (X2 t). rewrite (hold_at _ _ _ _ Hl). cbn [stk]. rewrite cnt_same. lia. }
    destruct (w_locked (c_wait (conn_of w c))) eqn:E.
    + assert (Hn : forall t', hold Ls t' (KGate c) = 0). { eapply none_holds; [exact X3|]. intros (_ & _ & X & _). congruence. }
      match goal with |- context [upd_conn c ?f w] => pose proof (dom_upd c f w Hc) as HD; exists (with_stk (KGate c :: s) (snap (upd_conn c f w) (GL (KSet c :: s) r d x))) end.
      split; [split|].
      * apply base_quiet; auto.
      * frame w Ls HG HD.
        intros c'. destruct (decide (c' = c)) as [->|Hne]; [|eapply (fr_gate1 w); [pj|pj|pj|reflexivity|rewrite HD; reflexivity|hsc|hsc|rs|apply HG]].
        match goal with |- gate_ok _ _ (<[t := ?l1]> Ls) _ => assert (Hq : forall t', rl (<[t := l1]> Ls) t' = rl Ls t') by rs end.
        constructor; rewrite ?conn_of_upd, ?decide_True by reflexivity; cbn -[hold].
        -- auto.
        -- auto.
        -- auto.
        -- split; intros *; rewrite !hold_ins; cbn [stk with_stk snap]; rewrite !cnt_same; pose proof (Hn t) as Ht; rewrite (hold_at _ _ _ _ Hl) in Ht; cbn [stk] in Ht;
             rewrite cnt_other in Ht by discriminate; repeat case_decide; subst; rewrite ?Hn; try lia; try congruence.
        -- discriminate.
        -- auto.
        -- intros t'. rewrite Hq. intros X. specialize (X7 t' X). rewrite Ec in *. destruct X7 as (Z1 & Z2 & Z3). congruence.
        -- intros t'. rewrite Hq. intros X. apply X8 in X as [X _]. congruence.
      * apply HR. fin_le HG Hl HD.
    + exists (with_stk s (snap w (GL (KSet c :: s) r d x))). split; [split; [exact HB|]|].
      * frame w Ls HG (eq_refl (w_conns w)).
        intros c'. destruct (decide (c' = c)) as [->|Hne]; [|eapply (fr_gate1 w); [pj|pj|pj|reflexivity|reflexivity|hsc|hsc|rs|apply HG]].
        match goal with |- gate_ok _ _ (<[t := ?l1]> Ls) _ => assert (Hh : forall t', hold (<[t := l1]> Ls) t' (KGate c) = hold Ls t' (KGate c)) by hs;
          assert (Hq : forall t', rl (<[t := l1]> Ls) t' = rl Ls t') by rs end.
        constructor.
        -- exact X1.
        -- auto.
        -- intros t'. rewrite Hh. intros X. rewrite E. exact (X3 t' X).
        -- eapply excl_ext; [intros; apply Hh|exact X4].
        -- rewrite E. discriminate.
        -- auto.
        -- intros t'. rewrite Hq. intros X. specialize (X7 t' X). rewrite Ec, E in *. destruct X7 as (Z1 & Z2 & Z3). repeat split; auto. intros. rewrite Hh. auto.
        -- intros t'. rewrite Hq. intros X. apply X8 in X as [X _]. congruence.
      * apply HR. fin_le HG Hl (eq_refl (w_conns w)).
Qed.
Lemma r_wclose c : respected (OWClose c).
Proof.
  begin. destruct HR as (Hc & HR). apply Kc in Hc. destruct (g_client G c) eqn:Ec; destruct (i_gate _ _ _ _ HG c) as [X1 X2 X3 X4 X5 X6 X7 X8].
  - destruct HR as [Hr HR]. destruct (X8 t) as (_ & Y1 & Y2); [rewrite (rl_at _ _ _ Hl); exact Hr|]. rewrite Y2.
    match goal with |- context [upd_conn c ?f w] => pose proof (dom_upd c f w Hc) as HD; exists (with_role (RRd c 0) (snap (upd_conn c f w) l)) end.
    split; [split|].
    + apply base_quiet; auto.
    + frame w Ls HG HD; roles w Ls HG Hl Hr HD.
      intros c'. destruct (decide (c' = c)) as [->|Hne]; [|other_gate w Ls HG Hl Hr HD].
      match goal with |- gate_ok _ _ (<[t := ?l1]> Ls) _ => assert (Hh : forall t' k, hold (<[t := l1]> Ls) t' k = hold Ls t' k) by hs end.
      constructor; rewrite ?conn_of_upd, ?decide_True by reflexivity; cbn.
      * auto.
      * intros t'. rewrite Hh. apply X2.
      * intros t'. rewrite Hh. intros X. apply X3 in X as [X _]. congruence.
      * eapply excl_ext; [intros; apply Hh|exact X4].
      * congruence.
      * congruence.
      * intros t' H. eapply phase_only in H; [|exact HG|exact Hl|exact Hr|reflexivity]. discriminate.
      * intros t' H. eapply phase_only in H; [|exact HG|exact Hl|exact Hr|reflexivity]. discriminate.
    + apply HR. fin_le HG Hl HD.
  - destruct HR as (s & Es & HR). destruct l as [s0 r d x]. cbn [stk] in Es. subst s0.
    destruct (X3 t) as (_ & Y1 & Y2 & Y3). { rewrite (hold_at _ _ _ _ Hl). cbn [stk]. rewrite cnt_same. lia. }
    rewrite Y3.
    match goal with |- context [upd_conn c ?f w] => pose proof (dom_upd c f w Hc) as HD; exists (with_stk s (snap (upd_conn c f w) (GL (KGate c :: s) r d x))) end.
    split; [split|].
    + apply base_quiet; auto.
    + frame w Ls HG HD.
      intros c'. destruct (decide (c' = c)) as [->|Hne]; [|eapply (fr_gate1 w); [pj|pj|pj|reflexivity|rewrite HD; reflexivity|hsc|hsc|rs|apply HG]].
      match goal with |- gate_ok _ _ (<[t := ?l1]> Ls) _ => assert (Hq : forall t', rl (<[t := l1]> Ls) t' = rl Ls t') by rs;
        assert (Hn : forall t', hold (<[t := l1]> Ls) t' (KGate c) = 0) by (eapply excl_give; [exact Hl|reflexivity|exact X4]) end.
      constructor; rewrite ?conn_of_upd, ?decide_True by reflexivity; cbn -[hold].
      * auto.
      * auto.
      * intros t'. rewrite Hn. lia.
      * apply excl_none, Hn.
      * congruence.
      * auto.
      * intros t'. rewrite Hq. intros X. specialize (X7 t' X). rewrite Ec in *. destruct X7 as (Z1 & Z2 & Z3).
        specialize (Z3 t). rewrite (hold_at _ _ _ _ Hl) in Z3. cbn [stk] in Z3. rewrite cnt_same in Z3. discriminate.
      * intros t'. rewrite Hq. intros X. apply X8 in X as [X _]. congruence.
    + apply HR. fin_le HG Hl HD.
Qed.

(** ** Making connections and starting goroutines *)
Lemma nrd_there w c : Base w -> nrd c (w_spawn w) <> 0 -> there w c.
Proof.
  intros HB. pose proof (i_spawn _ _ HB) as H. induction H as [|x l Hx _ IH]; cbn [nrd]; [congruence|].
  destruct x; auto. case_decide; [subst; intros _; exact Hx|auto].
Qed.
Definition fresh_conn (c : cid) (k : conn) (next : nat) : Prop :=
  c_nsmu k = rw0 /\ c_closed k = false /\ c_closeCh k = false /\ c_procs k = ∅ /\ c_inend k = None /\
  w_err (c_wait k) = None /\ w_locked (c_wait k) = false /\ w_chclosed (c_wait k) = false /\
  (onlyNative G c = true -> c_nss k !! "" <> None) /\
  (forall name n, c_nss k !! name = Some n -> n_conn n = c /\ n_id n < next).
Lemma new_conn (t : tid) w w' Ls l c k (P : unit -> gl -> Prop) : Inv w Ls -> Ls !! t = Some l -> w_conns w !! c = None -> role l = RNone ->
  w_conns w' = <[c := k]> (w_conns w) -> fresh_conn c k (w_next w') -> w_next w <= w_next w' ->
  (forall i, mu_of w' i = mu_of w i) -> (forall i o, w_nss w' !! i = Some o -> i < w_next w') ->
  w_srv w' = w_srv w -> (forall p, proc_of w' p = proc_of w p) -> w_spawn w' = w_spawn w -> w_chans w' = w_chans w -> w_ctxs w' = w_ctxs w ->
  (forall l', l ⊑ l' -> vc l' c -> P tt (with_role (RMk c) l')) ->
  exists l', Inv w' (<[t := l']> Ls) /\ P tt l'.
Proof.
  intros [HB HG] Hl Hnone Hr Ec (F1 & F2 & F3 & F4 & F5 & F6 & F7 & F8 & F9 & F10) En Em Ens Es Ep Esp Ech Ecx HP.
  assert (C0 : conn_of w c = conn0) by (unfold conn_of; rewrite Hnone; reflexivity).
  assert (C1 : conn_of w' c = k) by (unfold conn_of; rewrite Ec, lookup_insert; reflexivity).
  assert (C2 : forall c', c' <> c -> conn_of w' c' = conn_of w c') by (intros c' Hne; unfold conn_of; rewrite Ec, lookup_insert_ne by congruence; reflexivity).
  assert (HD : dom (w_conns w') = {[c]} ∪ dom (w_conns w)) by (rewrite Ec; apply dom_insert_L).
  assert (HT : forall c', there w c' -> there w' c') by (intros c'; unfold there; rewrite HD; set_solver).
  assert (Hnot : ~ there w c) by (unfold there; apply not_elem_of_dom, Hnone).
  assert (Hrd : nrd c (w_spawn w) = 0). { destruct (nrd c (w_spawn w)) eqn:E; [reflexivity|]. exfalso. apply Hnot, nrd_there; [exact HB|]. congruence. }
  assert (Hno : forall t', ~ owns (rl Ls t') c) by (intros t' H; apply Hnot, (i_mk _ _ _ _ HG t' c H)).
  exists (with_role (RMk c) (snap w' l)). split; [split|].
  - destruct HB; constructor; rewrite ?Es, ?Ecx; try assumption.
    + intros c' name n. destruct (decide (c' = c)) as [->|Hne]; [rewrite C1|rewrite C2 by exact Hne]; intros H.
      * apply F10 in H as [-> H]. split; [unfold there; rewrite HD; set_solver|exact H].
      * apply i_nss in H as [H1 H2]. split; [apply HT, H1|lia].
    + intros c' name p. destruct (decide (c' = c)) as [->|Hne]; [rewrite C1, F4; cbn; rewrite lookup_empty; discriminate|rewrite C2 by exact Hne].
      intros H. apply i_procs in H. lia.
    + intros c' Hn. destruct (decide (c' = c)) as [->|Hne]; [rewrite C1; auto|rewrite C2 by exact Hne].
      intros H. apply i_native; [exact Hn|]. unfold there in *. rewrite HD in H. set_solver.
    + unfold chan_of. rewrite Ech. exact i_bufs.
    + intros c'. destruct (decide (c' = c)) as [->|Hne]; [rewrite C1, F6; reflexivity|rewrite C2 by exact Hne]. apply i_gerr.
    + intros c'. destruct (decide (c' = c)) as [->|Hne]; [rewrite C1, F5; reflexivity|rewrite C2 by exact Hne]. apply i_ends.
    + eapply Forall_impl; [exact i_connbuf|exact HT].
    + eapply Forall_impl; [exact i_disc|exact HT].
    + intros c' H. apply HT, i_conns, H.
    + rewrite Esp. eapply Forall_impl; [exact i_spawn|]. intros []; cbn; auto.
  - assert (Hq : forall t' c', owns (rl (<[t := with_role (RMk c) (snap w' l)]> Ls) t') c' -> (t' = t /\ c' = c) \/ (t' <> t /\ owns (rl Ls t') c')).
    { intros t' c'. rewrite rl_ins. case_decide; cbn; [subst; intros ->; auto|auto]. }
    constructor.
    + eapply (fr_know w _ Ls); [rewrite HD; set_solver|exact En|reflexivity|reflexivity|apply HG].
    + eapply (fr_nsmu w _ Ls); [|hs|hs|apply HG]. intros c'. destruct (decide (c' = c)) as [->|Hne]; [rewrite C1, F1, C0; reflexivity|rewrite C2 by exact Hne; reflexivity].
    + eapply (fr_room w _ Ls); [exact Em | hs | hs | apply HG].
    + eapply (fr_b w _ Ls); [rewrite Es; reflexivity | hs | apply HG].
    + eapply (fr_close w _ Ls); [| |hs|apply HG]; (intros c'; destruct (decide (c' = c)) as [->|Hne]; [rewrite C1, ?F2, ?F3, C0; reflexivity|rewrite C2 by exact Hne; reflexivity]).
    + eapply (fr_swap w _ Ls); [rewrite Es; reflexivity | rewrite Es; reflexivity | hs | apply HG].
    + intros c'. destruct (decide (c' = c)) as [->|Hne].
      * destruct (i_gate _ _ _ _ HG c) as [X1 X2 X3 X4 X5 X6 X7 X8]. rewrite C0 in *. cbn in X2, X3.
        match goal with |- gate_ok _ _ (<[t := ?l1]> Ls) _ => assert (Hh : forall t' k, hold (<[t := l1]> Ls) t' k = hold Ls t' k) by hs end.
        constructor; rewrite ?C1, ?F7, ?F8; auto; try discriminate.
        -- intros t'. rewrite Hh. intros H. apply X2 in H. discriminate.
        -- intros t'. rewrite Hh. intros H. apply X3 in H as (_ & H & _). discriminate.
        -- eapply excl_ext; [intros; apply Hh|exact X4].
        -- intros t' H. destruct (Hq t' c) as [[-> _]|[Hne H2]]; [rewrite H; reflexivity| |].
           ++ rewrite rl_ins, decide_True in H by reflexivity. discriminate H.
           ++ exfalso. eapply Hno, H2.
        -- intros t' H. destruct (Hq t' c) as [[-> _]|[Hne H2]]; [rewrite H; reflexivity| |].
           ++ rewrite rl_ins, decide_True in H by reflexivity. discriminate H.
           ++ exfalso. eapply Hno, H2.
      * assert (Hnt : forall i t', rl (<[t := with_role (RMk c) (snap w' l)]> Ls) t' = RRd c' i -> rl Ls t' = RRd c' i).
        { intros i t'. rewrite rl_ins. case_decide; [discriminate|auto]. }
        eapply (fr_gate2 w _ Ls); rewrite ?C2 by exact Hne; [reflexivity|reflexivity|reflexivity| |hsc|hsc|apply Hnt|apply Hnt|apply HG].
        unfold before. rewrite Esp, HD. intros [[t' H]|[H|H]]; [|auto|right; right; set_solver].
        left. exists t'. rewrite rl_ins in H. case_decide; [|exact H]. destruct H as [H|H]; [injection H as H; congruence|discriminate].
    + eapply (fr_proc w _ Ls); [exact En | intros p; rewrite Ep; reflexivity.. | hs | hs | apply HG].
    + intros t1 t2 c' H1 H2. destruct (Hq _ _ H1) as [[-> ->]|[N1 O1]]; destruct (Hq _ _ H2) as [[-> E]|[N2 O2]].
      * reflexivity.
      * exfalso. eapply Hno, O2.
      * subst c'. exfalso. eapply Hno, O1.
      * eapply (i_one _ _ _ _ HG); eassumption.
    + intros t1 c' H1. rewrite Esp. destruct (Hq _ _ H1) as [[-> ->]|[N1 O1]].
      * split; [unfold there; rewrite HD; set_solver|exact Hrd].
      * apply (i_mk _ _ _ _ HG) in O1 as [O1 O2]. auto.
    + rewrite Esp. apply HG.
  - apply HP.
    + destruct (i_know _ _ _ _ HG _ l Hl). repeat split; cbn; [rewrite HD; set_solver|lia].
    + unfold vc. cbn. rewrite HD. set_solver.
Qed.
Lemma r_newconn c id native : respected (ONewConn c id native).
Proof.
  begin. destruct HR as (-> & Hr & HR). destruct (w_conns w !! c) eqn:E; [exact I|]. destruct (onlyNative G c) eqn:En.
  - eapply new_conn; [split; eassumption|exact Hl|exact E|exact Hr|reflexivity| |cbn; lia| | |try reflexivity..].
    + repeat split; try reflexivity; cbn.
      * intros _. rewrite lookup_singleton. discriminate.
      * cbn in H. apply lookup_singleton_Some in H as [<- <-]. reflexivity.
      * cbn in H. apply lookup_singleton_Some in H as [<- <-]. cbn. lia.
    + intros i. unfold mu_of. cbn. destruct (decide (i = w_next w)) as [->|Hne]; [|rewrite lookup_insert_ne by congruence; reflexivity].
      rewrite lookup_insert. destruct (w_nss w !! w_next w) eqn:E2; [|reflexivity]. apply (i_nsdom _ _ HB) in E2. lia.
    + cbn. intros i o H. apply lookup_insert_Some in H as [[<- _]|[_ H]]; [lia|]. apply (i_nsdom _ _ HB) in H. lia.
    + intros. apply HR; auto.
  - eapply new_conn; [split; eassumption|exact Hl|exact E|exact Hr|reflexivity| |cbn; lia|reflexivity|apply (i_nsdom _ _ HB)|try reflexivity..].
    + repeat split; try reflexivity; cbn; try (cbn in H; rewrite lookup_empty in H; discriminate H). congruence.
    + intros. apply HR; auto.
Qed.

Lemma nrd_app c l1 l2 : nrd c (l1 ++ l2) = nrd c l1 + nrd c l2.
Proof. induction l1 as [|x l1 IH]; [reflexivity|]. cbn. destruct x; rewrite IH; lia. Qed.
(** Another goroutine than a reader. *)
Lemma r_spawn_other code t w Ls l (P : unit -> gl -> Prop) : Inv w Ls -> Ls !! t = Some l -> code_there w code -> (forall c, nrd c [code] = 0) ->
  (forall l', l ⊑ l' -> P tt l') -> exists l', Inv (w <| w_spawn ::= fun l => l ++ [code] |>) (<[t := l']> Ls) /\ P tt l'.
Proof.
  intros [HB HG] Hl Hc Hn HP. exists (snap w l).
  assert (Hw : forall c, nrd c (w_spawn w ++ [code]) = nrd c (w_spawn w)) by (intros c; rewrite nrd_app, Hn; lia).
  split; [split|].
  - destruct HB; constructor; try assumption. cbn. apply Forall_app. split; [exact i_spawn|]. constructor; [exact Hc|constructor].
  - frame w Ls HG (eq_refl (w_conns w)).
    + intros c. eapply (fr_gate2 w _ Ls); [reflexivity|reflexivity|reflexivity| |hsc|hsc|intros t'; rewrite (rl_same _ _ _ _ _ Hl) by reflexivity; auto|intros t'; rewrite (rl_same _ _ _ _ _ Hl) by reflexivity; auto|apply HG].
      unfold before. cbn. rewrite Hw. intros [[t' H]|H]; [|auto]. left. exists t'. rewrite (rl_same _ _ _ _ _ Hl) in H by reflexivity. exact H.
    + intros t' c H. cbn. rewrite Hw. apply (i_mk _ _ _ _ HG t' c). rewrite (rl_same _ _ _ _ _ Hl) in H by reflexivity. exact H.
    + intros c. cbn. rewrite Hw. apply HG.
  - apply HP. fin_le HG Hl (eq_refl (w_conns w)).
Qed.
Lemma r_spawn code : respected (OSpawn code).
Proof.
  begin. assert (X : spawn_pre l code /\ more l P -> exists l', Inv (w <| w_spawn ::= fun l => l ++ [code] |>) (<[t := l']> Ls) /\ P tt l').
  { intros [H1 H2]. apply (r_spawn_other code t w Ls l); [split; assumption|exact Hl| | |intros; apply H2; assumption].
    - destruct code; try contradiction; apply Kc, H1.
    - destruct code; try contradiction; reflexivity. }
  destruct code; try (apply X, HR; fail). clear X.
  destruct HR as [Hr HR]. exists (with_role RNone (snap w l)).
  assert (Hown : owns (rl Ls t) c) by (rewrite (rl_at _ _ _ Hl), Hr; reflexivity).
  destruct (i_mk _ _ _ _ HG t c Hown) as [Hth Hrd].
  assert (Hq : forall t' r, rl (<[t := with_role RNone (snap w l)]> Ls) t' = r -> r <> RNone -> rl Ls t' = r /\ t' <> t).
  { intros t' r. rewrite rl_ins. case_decide; [cbn; congruence|auto]. }
  assert (Hw : forall c', nrd c' (w_spawn w ++ [TReader c]) = nrd c' (w_spawn w) + if decide (c = c') then 1 else 0) by (intros; rewrite nrd_app; cbn; lia).
  assert (Ho : forall t' c', owns (rl (<[t := with_role RNone (snap w l)]> Ls) t') c' -> owns (rl Ls t') c' /\ t' <> t).
  { intros t' c'. rewrite rl_ins. case_decide; [cbn; contradiction|auto]. }
  split; [split|].
  - destruct HB; constructor; try assumption. cbn. apply Forall_app. split; [exact i_spawn|]. constructor; [exact Hth|constructor].
  - frame w Ls HG (eq_refl (w_conns w)).
    + intros c'. eapply (fr_gate2 w _ Ls); [reflexivity|reflexivity|reflexivity| |hsc|hsc| | |apply HG].
      * unfold before. cbn. rewrite Hw. intros [[t' H]|[H|H]]; [| |auto].
        -- left. exists t'. destruct (Hq t' _ eq_refl) as [-> _]; [destruct H as [H|H]; rewrite H; discriminate|exact H].
        -- destruct (decide (c = c')) as [<-|Hne]; [|right; left; lia]. left. exists t. left. rewrite (rl_at _ _ _ Hl). exact Hr.
      * intros t' H. apply (Hq t' _ H). discriminate.
      * intros t' H. apply (Hq t' _ H). discriminate.
    + intros t1 t2 c' H1 H2. apply Ho in H1 as [H1 _]. apply Ho in H2 as [H2 _]. eapply (i_one _ _ _ _ HG); eassumption.
    + intros t1 c' H1. cbn. rewrite Hw. apply Ho in H1 as [H1 H2]. destruct (i_mk _ _ _ _ HG t1 c' H1) as [H3 H4]. split; [exact H3|].
      destruct (decide (c = c')) as [<-|Hne]; [|lia]. exfalso. apply H2. eapply (i_one _ _ _ _ HG); eassumption.
    + intros c'. cbn. rewrite Hw. destruct (decide (c = c')) as [<-|Hne]; [rewrite Hrd; lia|]. pose proof (i_readers _ _ _ _ HG c'). lia.
  - apply HR. fin_le HG Hl (eq_refl (w_conns w)).
Qed.
End ops.
