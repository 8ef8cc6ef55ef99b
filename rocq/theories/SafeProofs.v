(** * SafeProofs.v : no goroutine panics (C45).  Uses the logic of Logic.v with
    the rules of SafeRules.v. *)
(*@file Prop_Safe.v
From Coq Require Import ZArith.
From stdpp Require Import gmap strings list relations.
From Verif Require Import Go Errors Message World Lang Code Sem Spec_App Examples SafeProofs.
@*)
From Coq Require Import ZArith Ascii.
From stdpp Require Import gmap strings list relations.
From RecordUpdate Require Import RecordUpdate.
From Verif Require Import Go Errors Message World Lang Code Sem Logic Spec_Conn Spec_View Examples Spec_App SafeRules SafeCode SafeOps.

Section top.
Context (G : cfg) (con : bool).
Notation allowed := (fun a => careful G a /\ (con = false -> no_connect a)).
Context (HA : application allowed G).
Notation Base := (Base G).
Notation Ghost := (Ghost G con).
Notation Inv := (Inv G con).
Notation SP := (safe G con).

Lemma all_respected o : respected G con o.
Proof.
  destruct o.
  - apply r_nslock. - apply r_nsunlock. - apply r_nsrlock. - apply r_nsrunlock. - apply r_getns. - apply r_setns.
  - apply r_delns. - apply r_nsrange. - apply r_newns.
  - apply r_roomlock. - apply r_roomunlock. - apply r_roomrlock. - apply r_roomrunlock.
  - apply r_hasroom. - apply r_room; exact I. - apply r_room; exact I. - apply r_roomrange.
  - apply r_wready. - apply r_werr. - apply r_wseterr. - apply r_wsetready. - apply r_wcaslock. - apply r_wcasunlock. - apply r_wclose. - apply r_wrecv.
  - apply r_procget. - apply r_procnew. - apply r_procadd. - apply r_procdonecas. - apply r_procdone. - apply r_procisdone. - apply r_procwait. - apply r_procwoken.
  - apply r_quiet_conn; exact I. - apply r_quiet_conn; exact I. - apply r_quiet_conn; exact I. - apply r_quiet_conn; exact I.
  - apply r_quiet_srv; exact I. - apply r_quiet_srv; exact I. - apply r_quiet; exact I.
  - apply r_newchan. - apply r_chsend. - apply r_chsent. - apply r_select. - apply r_quiet; exact I. - apply r_ctxerr.
  - apply r_quiet_conn; exact I. - apply r_quiet_conn; exact I. - apply r_quiet_conn; exact I. - apply r_quiet_conn; exact I.
  - apply r_quiet_conn; exact I. - apply r_casclosed. - apply r_closech.
  - apply r_quiet_conn; exact I. - apply r_quiet_conn; exact I. - apply r_quiet_conn; exact I. - apply r_quiet_conn; exact I.
  - apply r_read. - apply r_sockwrite. - apply r_quiet_conn; exact I.
  - apply r_quiet_conn; exact I. - apply r_qrange. - apply r_quiet_conn; exact I.
  - apply r_quiet; exact I. - apply r_sclosedcas. - apply r_quiet_srv; exact I. - apply r_connsend. - apply r_discsend.
  - apply r_quiet_srv; exact I. - apply r_actaccepted. - apply r_actwait. - apply r_quiet_srv; exact I.
  - apply r_bcsend. - apply r_bcaccepted. - apply r_srvselect. - apply r_sadd. - apply r_smem. - apply r_sdel.
  - apply r_quiet_srv; exact I. - apply r_quiet; exact I. - apply r_srange.
  - apply r_block. - apply r_bunlock. - apply r_bset. - apply r_bget. - apply r_bswap. - apply r_bclose. - apply r_quiet; exact I. - apply r_bselect.
  - apply r_newconn. - apply r_quiet; exact I. - apply r_quiet; exact I. - apply r_spawn. - apply r_log.
Qed.

(** ** Calls *)
Lemma snap_inv t w Ls l : Inv w Ls -> Ls !! t = Some l -> Inv w (<[t := snap w l]> Ls) /\ l ⊑ snap w l.
Proof.
  intros HI Hl. destruct (quiet G con unit t w w Ls l (fun _ l' => l' = snap w l) tt) as (l' & H & ->); auto.
  - apply HI.
  - intros l' (E1 & E2 & _) E3 E4. destruct l'. unfold snap. cbn in *. congruence.
  - split; [exact H|]. destruct HI as [_ HG]. eapply snap_le; eassumption.
Qed.
Lemma valid_vc w l c : valid_conn w c = true -> vc (snap w l) c.
Proof. unfold valid_conn, vc. cbn. intros H. destruct (w_conns w !! c) eqn:E; [|discriminate]. apply elem_of_dom. eauto. Qed.
Lemma valid_vn w l n : Base w -> valid_ns w n = true -> vn (snap w l) n.
Proof.
  unfold valid_ns. intros HB [H1 H2]%andb_true_iff. split; [apply valid_vc, H1|]. cbn.
  destruct (w_nss w !! n_id n) eqn:E; [|discriminate]. eapply i_nsdom; eassumption.
Qed.
Lemma valid_va w l a : Base w -> valid_api w a = true -> va (snap w l) a.
Proof.
  intros HB H. destruct a; cbn [valid_api va] in *; try exact I; try (apply valid_vc; exact H); try (eapply valid_vn; eassumption);
    try (destruct n as [n|]; [eapply valid_vn; eassumption|exact I]).
  - apply andb_true_iff in H as [H1 H2]. split; [apply valid_vc, H1|]. destruct cur as [n|]; [eapply valid_vn; eassumption|exact I].
  - destruct except as [[]|]; cbn in *; try exact I; try (apply valid_vc; exact H); eapply valid_vn; eassumption.
Qed.

(** ** Goroutines end and start *)
Lemma hold_del Ls (t t' : tid) l k : Ls !! t = Some l -> stk l = [] -> hold (delete t Ls) t' k = hold Ls t' k.
Proof.
  intros Hl E. unfold hold. destruct (decide (t' = t)) as [->|Hn]; [rewrite lookup_delete, Hl, E; reflexivity|rewrite lookup_delete_ne by congruence; reflexivity].
Qed.
Lemma rl_del Ls (t t' : tid) r : rl (delete t Ls) t' = r -> r <> RNone -> rl Ls t' = r.
Proof. unfold rl. destruct (decide (t' = t)) as [->|Hn]; [rewrite lookup_delete; congruence|rewrite lookup_delete_ne by congruence; auto]. Qed.
Lemma owns_del Ls (t t' : tid) c : owns (rl (delete t Ls) t') c -> owns (rl Ls t') c.
Proof. intros H. erewrite (rl_del Ls t t'); [exact H|reflexivity|]. intros E. rewrite E in H. exact H. Qed.
Lemma done_inv t w Ls l : Inv w Ls -> Ls !! t = Some l -> stk l = [] -> Inv w (delete t Ls).
Proof.
  intros [HB HG] Hl Hs. split; [exact HB|].
  assert (Hh : forall t' k, hold (delete t Ls) t' k = hold Ls t' k) by (intros; eapply hold_del; eassumption).
  constructor.
  - intros t' l' H. apply lookup_delete_Some in H as [_ H]. apply (i_know _ _ _ _ HG _ _ H).
  - eapply (fr_nsmu w _ Ls); [reflexivity|auto..|apply HG].
  - eapply (fr_room w _ Ls); [reflexivity|auto..|apply HG].
  - eapply (fr_b w _ Ls); [reflexivity|auto..|apply HG].
  - eapply (fr_close w _ Ls); [reflexivity|reflexivity|auto|apply HG].
  - eapply (fr_swap w _ Ls); [reflexivity|reflexivity|auto|apply HG].
  - intros c. eapply (fr_gate2 _ w _ Ls); [reflexivity|reflexivity|reflexivity| |auto|auto| | |apply HG].
    + intros [[t' H]|H]; [|right; exact H]. left. exists t'. erewrite (rl_del Ls t t'); [exact H|reflexivity|]. destruct H as [H|H]; rewrite H; discriminate.
    + intros t' H. eapply rl_del; [exact H|discriminate].
    + intros t' H. eapply rl_del; [exact H|discriminate].
  - eapply (fr_proc _ w _ Ls); [reflexivity|reflexivity|reflexivity|auto|auto|apply HG].
  - intros t1 t2 c H1%owns_del H2%owns_del. eapply (i_one _ _ _ _ HG); eassumption.
  - intros t1 c H1%owns_del. eapply (i_mk _ _ _ _ HG); eassumption.
  - apply HG.
Qed.

Lemma hold_new Ls (t t' : tid) l k : Ls !! t = None -> stk l = [] -> hold (<[t := l]> Ls) t' k = hold Ls t' k.
Proof. intros Hl E. rewrite hold_ins. case_decide; [subst; unfold hold; rewrite Hl, E; reflexivity|reflexivity]. Qed.
Lemma rl_new Ls (t t' : tid) l : Ls !! t = None -> role l = RNone -> rl (<[t := l]> Ls) t' = rl Ls t'.
Proof. intros Hl E. rewrite rl_ins. case_decide; [subst; unfold rl; rewrite Hl, E; reflexivity|reflexivity]. Qed.

(** A goroutine without a role starts. *)
Lemma go_inv t w w' Ls : Inv w Ls -> Ls !! t = None -> Base w' ->
  (forall c, conn_of w' c = conn_of w c) -> w_conns w' = w_conns w -> (forall i, mu_of w' i = mu_of w i) -> w_srv w' = w_srv w ->
  (forall p, proc_of w' p = proc_of w p) -> w_next w' = w_next w -> (forall c, nrd c (w_spawn w') = nrd c (w_spawn w)) ->
  Inv w' (<[t := GL [] RNone (dom (w_conns w)) (w_next w)]> Ls).
Proof.
  intros [HB HG] Hl HB' E1 E2 E3 E4 E5 E6 E7. split; [exact HB'|].
  assert (Hh : forall t' k, hold (<[t := GL [] RNone (dom (w_conns w)) (w_next w)]> Ls) t' k = hold Ls t' k) by (intros; apply hold_new; auto).
  assert (Hq : forall t', rl (<[t := GL [] RNone (dom (w_conns w)) (w_next w)]> Ls) t' = rl Ls t') by (intros; apply rl_new; auto).
  constructor.
  - eapply (fr_know w _ Ls); [rewrite E2; reflexivity|rewrite E6; reflexivity|cbn; rewrite E2; reflexivity|cbn; rewrite E6; reflexivity|apply HG].
  - eapply (fr_nsmu w _ Ls); [intros; rewrite E1; reflexivity|auto..|apply HG].
  - eapply (fr_room w _ Ls); [exact E3|auto..|apply HG].
  - eapply (fr_b w _ Ls); [rewrite E4; reflexivity|auto..|apply HG].
  - eapply (fr_close w _ Ls); [intros; rewrite E1; reflexivity|intros; rewrite E1; reflexivity|auto|apply HG].
  - eapply (fr_swap w _ Ls); [rewrite E4; reflexivity|rewrite E4; reflexivity|auto|apply HG].
  - intros c. eapply (fr_gate2 _ w _ Ls); rewrite ?E1; [reflexivity|reflexivity|reflexivity| |auto|auto| | |apply HG].
    + unfold before. rewrite E2, E7. intros [[t' H]|H]; [|right; exact H]. left. exists t'. rewrite <- Hq. exact H.
    + intros t'. rewrite Hq. auto.
    + intros t'. rewrite Hq. auto.
  - eapply (fr_proc _ w _ Ls); [rewrite E6; reflexivity|intros; rewrite E5; reflexivity|intros; rewrite E5; reflexivity|auto|auto|apply HG].
  - intros t1 t2 c. rewrite !Hq. apply (i_one _ _ _ _ HG).
  - intros t1 c. rewrite !Hq, E7. unfold there. rewrite E2. apply (i_mk _ _ _ _ HG).
  - intros c. rewrite E7. apply HG.
Qed.
Lemma base_pop w c rest : Base w -> w_spawn w = c :: rest -> Base (w <| w_spawn := rest |>).
Proof. intros HB E. destruct HB; constructor; try assumption. cbn. rewrite E in i_spawn. inversion i_spawn; assumption. Qed.
(** The reader starts. *)
Lemma reader_inv t w Ls c rest : Inv w Ls -> Ls !! t = None -> w_spawn w = TReader c :: rest ->
  Inv (w <| w_spawn := rest |>) (<[t := GL [] (RRd c 0) (dom (w_conns w)) (w_next w)]> Ls).
Proof.
  intros [HB HG] Hl Esp. set (l := GL _ _ _ _).
  assert (Hh : forall t' k, hold (<[t := l]> Ls) t' k = hold Ls t' k) by (intros; apply hold_new; auto).
  assert (Hw : forall c', nrd c' (w_spawn w) = (if decide (c = c') then 1 else 0) + nrd c' rest) by (intros; rewrite Esp; reflexivity).
  assert (Hr0 : nrd c rest = 0). { pose proof (i_readers _ _ _ _ HG c) as H. rewrite Hw, decide_True in H by reflexivity. lia. }
  assert (Hno : forall t', ~ owns (rl Ls t') c).
  { intros t' H. apply (i_mk _ _ _ _ HG) in H as [_ H]. rewrite Hw, decide_True in H by reflexivity. discriminate. }
  assert (Ho : forall t' c', owns (rl (<[t := l]> Ls) t') c' -> (t' = t /\ c' = c) \/ (t' <> t /\ owns (rl Ls t') c')).
  { intros t' c'. rewrite rl_ins. case_decide; cbn; [subst; intros ->; auto|auto]. }
  assert (Hrd : forall i t' c', i <> 0 -> rl (<[t := l]> Ls) t' = RRd c' i -> rl Ls t' = RRd c' i).
  { intros i t' c' Hi. rewrite rl_ins. case_decide; [cbn; congruence|auto]. }
  split; [eapply base_pop; eassumption|]. constructor; cbn [w_spawn].
  - eapply (fr_know w _ Ls); [reflexivity..|apply HG].
  - eapply (fr_nsmu w _ Ls); [reflexivity|auto..|apply HG].
  - eapply (fr_room w _ Ls); [reflexivity|auto..|apply HG].
  - eapply (fr_b w _ Ls); [reflexivity|auto..|apply HG].
  - eapply (fr_close w _ Ls); [reflexivity|reflexivity|auto|apply HG].
  - eapply (fr_swap w _ Ls); [reflexivity|reflexivity|auto|apply HG].
  - intros c'. eapply (fr_gate2 _ w _ Ls); [reflexivity|reflexivity|reflexivity| |auto|auto| | |apply HG].
    + unfold before. cbn. rewrite Hw. intros [[t' H]|[H|H]]; [|right; left; lia|auto].
      rewrite rl_ins in H. case_decide; [|left; exists t'; exact H]. subst. destruct H as [H|H]; [discriminate|]. injection H as <-.
      right; left. rewrite decide_True by reflexivity. lia.
    + intros t'. apply Hrd. discriminate.
    + intros t'. apply Hrd. discriminate.
  - eapply (fr_proc _ w _ Ls); [reflexivity|reflexivity|reflexivity|auto|auto|apply HG].
  - intros t1 t2 c' H1 H2. destruct (Ho _ _ H1) as [[-> ->]|[N1 O1]]; destruct (Ho _ _ H2) as [[-> E]|[N2 O2]].
    + reflexivity.
    + exfalso. eapply Hno, O2.
    + subst c'. exfalso. eapply Hno, O1.
    + eapply (i_one _ _ _ _ HG); eassumption.
  - intros t1 c' H1. cbn. destruct (Ho _ _ H1) as [[-> ->]|[N1 O1]].
    + split; [|exact Hr0]. apply (nrd_there G w c HB). rewrite Hw, decide_True by reflexivity. discriminate.
    + apply (i_mk _ _ _ _ HG) in O1 as [O1 O2]. split; [exact O1|]. rewrite Hw in O2. lia.
  - intros c'. cbn. pose proof (i_readers _ _ _ _ HG c') as H. rewrite Hw in H. lia.
Qed.

(** ** The environment *)
Lemma quiet_env c f w Ls : Inv w Ls -> there w c ->
  (forall k, c_nss (f k) = c_nss k) -> (forall k, c_procs (f k) = c_procs k) -> (forall k, c_wait (f k) = c_wait k) ->
  err_ok (c_inend (f (conn_of w c))) = true -> (forall k, c_nsmu (f k) = c_nsmu k) -> (forall k, c_closed (f k) = c_closed k) ->
  (forall k, c_closeCh (f k) = c_closeCh k) -> Inv (upd_conn c f w) Ls.
Proof.
  intros [HB HG] Hc E1 E2 E3 E4 E5 E6 E7. assert (HD := dom_upd c f w Hc). split.
  - apply base_conn; rewrite ?E1, ?E2, ?E3; auto; try apply HB. intros. apply HB; assumption.
  - assert (X : forall (B : Type) (g : conn -> B), (forall k, g (f k) = g k) -> forall c', g (conn_of (upd_conn c f w) c') = g (conn_of w c')).
    { intros B g H c'. rewrite conn_of_upd. case_decide; [subst; apply H|reflexivity]. }
    constructor.
    + rewrite HD. apply HG.
    + eapply (fr_nsmu w _ Ls); [apply (X _ c_nsmu), E5|auto..|apply HG].
    + apply HG.
    + apply HG.
    + eapply (fr_close w _ Ls); [apply (X _ c_closed), E6|apply (X _ c_closeCh), E7|auto|apply HG].
    + apply HG.
    + eapply (fr_gate _ w _ Ls); [intros c'; rewrite (X _ c_wait E3 c'); reflexivity|intros c'; rewrite (X _ c_wait E3 c'); reflexivity|intros c'; rewrite (X _ c_wait E3 c'); reflexivity|reflexivity|exact HD|auto|auto|auto|apply HG].
    + eapply (fr_proc _ w _ Ls); [reflexivity|reflexivity|reflexivity|auto|auto|apply HG].
    + apply HG.
    + intros t c' H. unfold there. rewrite HD. apply (i_mk _ _ _ _ HG t c' H).
    + apply HG.
Qed.
Lemma inv_any w w' Ls : Inv w Ls -> w_conns w' = w_conns w -> w_nss w' = w_nss w -> w_procs w' = w_procs w -> w_chans w' = w_chans w ->
  w_srv w' = w_srv w -> w_next w' = w_next w -> w_spawn w' = w_spawn w -> (forall k x, w_ctxs w' !! k = Some x -> err_ok (x_done x) = true) -> Inv w' Ls.
Proof.
  intros [HB HG]. destruct w as [w1 w2 w3 w4 w5 w6 w7 w8 w9 w10 w11], w' as [v1 v2 v3 v4 v5 v6 v7 v8 v9 v10 v11]; cbn.
  intros -> -> -> -> -> -> -> H. split; [destruct HB; constructor; assumption|]. destruct HG; constructor; try assumption.
  - intros c. destruct (i_gate c); constructor; assumption.
  - intros p. destruct (i_proc p); constructor; assumption.
Qed.
Lemma env_inv w Ls e : Inv w Ls -> env_ok e = true -> Inv (env_step e w) Ls.
Proof.
  intros HI He. assert (HB := proj1 HI). destruct e; cbn [env_step]; cbn [env_ok] in He.
  - destruct (w_conns w !! c) eqn:E; [|exact HI]. destruct (c_inend c0); [exact HI|]. apply quiet_env; auto.
    + unfold there. apply elem_of_dom. eauto.
    + apply HB.
  - destruct (w_conns w !! c) eqn:E; [|exact HI]. destruct (c_inend c0); [exact HI|]. apply quiet_env; auto.
    unfold there. apply elem_of_dom. eauto.
  - destruct (w_conns w !! c) eqn:E; [|exact HI]. apply quiet_env; auto.
    + unfold there. apply elem_of_dom. eauto.
    + apply HB.
  - eapply inv_any; [exact HI|try reflexivity..]. apply HB.
  - destruct (w_ctxs w !! k) eqn:E; [exact HI|]. eapply inv_any; [exact HI|try reflexivity..].
    cbn. intros k' x H. apply lookup_insert_Some in H as [[_ <-]|[_ H]]; [reflexivity|]. eapply i_ctxs; eassumption.
  - destruct (w_ctxs w !! k) eqn:E; [|exact HI]. destruct (x_done c); [exact HI|]. eapply inv_any; [exact HI|try reflexivity..].
    cbn. intros k' x H. apply lookup_insert_Some in H as [[_ <-]|[_ H]]; [exact He|]. eapply i_ctxs; eassumption.
  - eapply inv_any; [exact HI|try reflexivity..]. apply HB.
  - exact HI.
Qed.

Lemma le_trans_gl l1 l2 l3 : l1 ⊑ l2 -> l2 ⊑ l3 -> l1 ⊑ l3.
Proof. intros (A1 & A2 & A3 & A4) (B1 & B2 & B3 & B4). repeat split; [congruence|congruence|set_solver|lia]. Qed.

Lemma safe_respects : respects SP G Inv.
Proof.
  constructor.
  - intros t w Ls l o P HI Hl HR. exact (all_respected o t w Ls l P HI Hl HR).
  - intros t w Ls l a HI Hl Hv Hpre. exists (snap w l). destruct (snap_inv t w Ls l HI Hl) as [HI' Hle]. split; [exact HI'|].
    eapply (ok_mono SP (rule_mono_safe G con)); [|apply impl_ok; [exact HA|apply valid_va; [apply HI|exact Hv]|exact Hpre]].
    intros r l' [H1 H2]. split; [eapply le_trans_gl; eassumption|exact H2].
  - intros c l H. apply code_ok; assumption.
  - intros t w Ls l HI Hl Hf. eapply done_inv; eassumption.
  - intros t w Ls c rest HI Esp Hl. assert (HB := proj1 HI).
    assert (Hth : code_there w c). { pose proof (i_spawn _ _ HB) as H. rewrite Esp in H. inversion H; assumption. }
    destruct c; try contradiction.
    all: try (exists (GL [] RNone (dom (w_conns w)) (w_next w)); split; [repeat split; exact Hth|];
      apply (go_inv t w _ Ls HI Hl); [eapply base_pop; eassumption|try reflexivity..]; intros c'; cbn; rewrite Esp; reflexivity).
    + exists (GL [] (RRd c 0) (dom (w_conns w)) (w_next w)). split; [repeat split; exact Hth|]. eapply reader_inv; eassumption.
  - intros t w Ls c HI Hc Hl. exists (GL [] RNone (dom (w_conns w)) (w_next w)). split.
    + destruct c; try discriminate; split; cbn; auto; cbn in Hc. split; [reflexivity|]. apply negb_true_iff, Hc.
    + apply (go_inv t w w Ls HI Hl); try reflexivity. apply HI.
  - intros w Ls e HI He. apply env_inv; assumption.
Qed.
End top.

(** ** The start *)
Lemma hold_one (l : gl) (t : tid) k : stk l = [] -> hold {[0 := l]} t k = 0.
Proof. intros E. unfold hold. destruct (decide (0 = t)) as [<-|Hn]; [rewrite lookup_singleton, E|rewrite lookup_singleton_ne by exact Hn]; reflexivity. Qed.
Lemma rl_one (l : gl) (t : tid) : role l = RNone -> rl {[0 := l]} t = RNone.
Proof. intros E. unfold rl. destruct (decide (0 = t)) as [<-|Hn]; [rewrite lookup_singleton, E|rewrite lookup_singleton_ne by exact Hn]; reflexivity. Qed.
Lemma init_inv G con : Inv G con world0 {[0 := GL [] RNone ∅ 1]}.
Proof.
  assert (C : forall c, conn_of world0 c = conn0) by (intros c; unfold conn_of; cbn; rewrite lookup_empty; reflexivity).
  assert (Hh := fun t k => hold_one (GL [] RNone ∅ 1) t k eq_refl). assert (Hq := fun t => rl_one (GL [] RNone ∅ 1) t eq_refl).
  assert (He : forall k, excl {[0 := GL [] RNone ∅ 1]} k) by (intros k; split; intros *; rewrite !Hh; lia).
  assert (Hk : forall W R, lock_ok {[0 := GL [] RNone ∅ 1]} rw0 W R) by (intros W R; repeat split; intros; rewrite ?Hh; reflexivity).
  split; constructor; cbn; intros; rewrite ?C in *; cbn in *; try rewrite Hh in *; try rewrite Hq in *; try rewrite lookup_empty in *;
    try contradiction; try discriminate; try reflexivity; try (constructor; fail); auto; try lia.
  - apply lookup_singleton_Some in H as [<- <-]. cbn. split; [set_solver|lia].
  - split; [apply He|split; [intros t; rewrite Hh; congruence|auto]].
  - split; [apply He|split; [intros t; rewrite Hh; congruence|set_solver]].
  - constructor; intros *; rewrite ?C, ?Hh, ?Hq; cbn; try discriminate; try congruence; auto.
  - constructor; intros *; rewrite ?Hh; try apply He; unfold proc_of; cbn; rewrite ?lookup_empty; cbn; auto; try congruence. intros [?|?]; congruence.
Qed.

(** ** Applications *)
Lemma app_code_mono (P Q : api -> Prop) : (forall a, P a -> Q a) ->
  forall (A : Type) (good : A -> Prop) (p : prog A), app_code P good p -> app_code Q good p.
Proof.
  intros HPQ A good p. induction p as [a|o k IH|a k IH|why]; cbn [app_code]; auto.
  - destruct o; auto; intros H r; apply IH, H.
  - intros [H1 H2]. split; [apply HPQ, H1|]. intros r Hr. apply IH, H2, Hr.
Qed.
Lemma application_mono (P Q : api -> Prop) G : (forall a, P a -> Q a) -> application P G -> application Q G.
Proof.
  intros HPQ [H1 H2 H3 H4 H5 H6 H7]. constructor; try assumption; intros; eapply app_code_mono; eauto.
Qed.

Lemma crash_of G con s : application (fun a => careful G a /\ (con = false -> no_connect a)) G -> reachable G s ->
  forall why, s_crash s = Some why -> crash con why.
Proof.
  intros HA Hs. eapply (reachable_holds (safe G con) (rule_mono_safe G con) G (Inv G con) (safe_respects G con HA)) in Hs.
  - destruct Hs as [H _]. exact H.
  - exists (GL [] RNone ∅ 1). split; [split; reflexivity|apply init_inv].
Qed.

(*@prop C45: for every application that makes no careless calls ([careful]:
    it sends no error that cannot be printed, calls Rooms and Broadcast on
    NSConns that exist, does not disconnect the namespace of a native-only
    connection), in every interleaving and whatever bytes arrive and whenever
    the network fails, the only panic a goroutine of the process can end in is
    that of a sync.WaitGroup that is used again too early. @*)
Lemma l_C45_one_panic : forall (G : cfg) (s : sys),
  application (careful G) G -> reachable G s ->
  forall why, s_crash s = Some why -> why = "sync: WaitGroup is reused before previous Wait has returned".
Proof.
  intros G s HA Hs why E. eapply (crash_of G true); [|exact Hs|exact E].
  eapply application_mono; [|exact HA]. intros a H. split; [exact H|discriminate].
Qed.

(*@prop C45: an application that moreover never calls Connect (a server whose
    clients connect) cannot be crashed by anything the remote side does. @*)
Lemma l_C45_no_panic : forall (G : cfg) (s : sys),
  application (fun a => careful G a /\ no_connect a) G -> reachable G s -> s_crash s = None.
Proof.
  intros G s HA Hs. destruct (s_crash s) as [why|] eqn:E; [|reflexivity]. exfalso.
  destruct (crash_of G false s) with (why := why) as [H _]; auto; [|discriminate].
  eapply application_mono; [|exact HA]. cbn. tauto.
Qed.

(** The application of Examples.v, with two goroutines that connect the client
    side to namespace "chat", each with a context of its own. *)
Definition exW : cfg := {|
  g_client := fun c => Nat.eqb c 2; g_namespaces := fun _ => lift exA; g_connid := fun c => "id-1"; g_uuid := "u"; g_ptr := fun c => "0x1";
  g_known := knownErrors0; g_exch := None; g_sync := false; g_firealways := false; g_onconnect := None; g_ondisconnect := None;
  g_do := fun _ _ => Ret tt; g_user := fun k => Call (AConnect 2 (Some k) "chat") (fun _ => Ret tt) |}.
(** The first connect is asked, an event for "chat" arrives, so the reader
    (goroutine 5) waits for the first connect.  Its context expires, it gives
    up, and the second connect starts before the reader has woken up. *)
Definition impatient : list cmd :=
  handshake1 ++ handshake2 ++
  [Act1 (Env (ECtxNew 1 None)); Act1 (Env (ECtxNew 2 None));
   Act1 (Env (EGo (TUser 1))); Go 6; Act1 (Env (EDeliver 2 TextMessage ";chat;;echo;0;0;hi")); Go 5;
   Act1 (Env (ECtxDone 1 EDeadline)); Go 6; Act1 (Env (EGo (TUser 2))); Go 7].


Lemma exA_app (allowed : api -> Prop) (ns : string) evs ev (h : handler) n m :
  lift exA !! ns = Some evs -> evs !! ev = Some h -> app_code allowed (fun e => err_ok e = true) (h n m).
Proof.
  unfold lift. rewrite lookup_fmap. intros H1 H2. destruct (exA !! ns) as [evs0|] eqn:E1; [|discriminate]. injection H1 as <-.
  rewrite lookup_fmap in H2. destruct (evs0 !! ev) as [f|] eqn:E2; [|discriminate]. injection H2 as <-. cbn [app_code].
  destruct (f m) as [e|] eqn:E3; [|reflexivity]. destruct (exA_text _ _ _ _ _ _ E1 E2 E3) as [text Ht]. cbn. unfold has_text. rewrite Ht. reflexivity.
Qed.
Lemma known0_text k : In k knownErrors0 -> has_text (k_err k) = true.
Proof. intros H. assert (X : forallb (fun k => has_text (k_err k)) knownErrors0 = true) by reflexivity. rewrite forallb_forall in X. apply X, H. Qed.
Lemma exW_app : application (careful exW) exW.
Proof.
  constructor; try discriminate; try (intros; exact I).
  - intros. eapply exA_app; eassumption.
  - cbn. auto.
  - exact known0_text.
Qed.

(*@prop C45 fails in general: Connect with a context, and Connect again after
    it has given up, can crash a client to which an event for the namespace is
    sent between the two (sync: WaitGroup is reused before previous Wait has
    returned). @*)
Lemma l_C45_refuted : exists (G : cfg) (s : sys),
  application (careful G) G /\ reachable G s /\ s_crash s = Some "sync: WaitGroup is reused before previous Wait has returned".
Proof.
  exists exW, (play exW (impatient ++ [Go 5]) (init exW)). split; [exact exW_app|]. split; [apply play_reachable|]. vm_compute. reflexivity.
Qed.

(*@ex
(** A server that never calls Connect, with callbacks, whose clients join and
    leave: the hypotheses of the second theorem hold and the execution is not
    trivial. *)
Example C45_hypotheses : application (fun a => careful exG a /\ no_connect a) exG /\ reachable exG exM /\
  exists n, c_nss (conn_of (s_w exM) 1) !! "chat" = Some n.
Proof. exact ex_C45. Qed.
@*)
Lemma ex_C45 : application (fun a => careful exG a /\ no_connect a) exG /\ reachable exG exM /\
  exists n, c_nss (conn_of (s_w exM) 1) !! "chat" = Some n.
Proof.
  split; [|split; [apply play_reachable|eexists; vm_compute; reflexivity]].
  constructor; try discriminate; try (intros; exact I).
  - intros. eapply exA_app; eassumption.
  - exact known0_text.
Qed.
