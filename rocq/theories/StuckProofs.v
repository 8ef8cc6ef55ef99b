(** * StuckProofs.v : deadlocks and lost wakeups that are reachable. *)
From Coq Require Import ZArith.
From stdpp Require Import gmap strings list relations.
From RecordUpdate Require Import RecordUpdate.
From Verif Require Import Go Errors Message World Lang Code Sem Spec_Conn Spec_View Examples Scenes ExecProofs Logic Spec_App Frame Inert Spec_Stuck.

Lemma th_fresh G s : reachable G s -> forall t : tid, s_next s <= t -> s_th s !! t = None.
Proof.
  intros H. unfold reachable, steps in H. 
  assert (H0 : forall t : tid, s_next (init G) <= t -> s_th (init G) !! t = None).
  { intros t Ht. cbn in *. apply lookup_singleton_None. lia. }
  revert H0. generalize (init G) as s0, H. clear H. intros s0 H. induction H as [|s1 s2 s3 [a Ha] _ IH]; [auto|]. intros H0. apply IH.
  unfold step in Ha. destruct (s_crash s1) eqn:Ec; [discriminate|].
  assert (Hsp : forall c s', s_th s' = s_th s1 -> s_next s' = s_next s1 -> forall t : tid, s_next (spawn G c s') <= t -> s_th (spawn G c s') !! t = None).
  { intros c s' E1 E2 t. cbn. rewrite E1, E2. intros Ht. rewrite lookup_insert_ne by lia. apply H0. lia. }
  destruct a as [t| |e].
  - destruct (s_th s1 !! t) as [p|] eqn:Ep; [|discriminate].
    assert (Hlt : t < s_next s1). { destruct (le_lt_dec (s_next s1) t); [|assumption]. rewrite H0 in Ep by assumption. discriminate. }
    destruct (tstep G t (s_w s1) p); try discriminate; injection Ha as <-; cbn; intros t' Ht'.
    + rewrite lookup_insert_ne by lia. auto.
    + rewrite lookup_delete_ne by lia. auto.
    + auto.
  - destruct (w_spawn (s_w s1)); [discriminate|]. injection Ha as <-. apply Hsp; reflexivity.
  - destruct e; try (destruct (env_ok _); [|discriminate]; injection Ha as <-; exact H0).
    destruct (startable G code); [|discriminate]. injection Ha as <-. apply Hsp; reflexivity.
Qed.

Lemma inert_stuck G D T s t : disciplined G D T -> inert D T s -> is_Some (T !! t) -> stuck G s t.
Proof.
  intros HD HI [p Hp]. exists p. destruct HI as (Hi & Hn & Ht & Ho). split; [apply Ht, Hp|]. intros s' Hs.
  destruct (inert_steps _ _ _ HD s s' (conj Hi (conj Hn (conj Ht Ho))) Hs) as (Hi' & _ & Ht' & _).
  split; [apply Ht', Hp|]. unfold step. destruct (s_crash s'); [reflexivity|]. rewrite (Ht' _ _ Hp), (do_stuck _ _ _ HD _ _ _ Hp Hi'). reflexivity.
Qed.

(** ** Discipline without restrictions on the other goroutines *)
Definition anyD (Iv : world -> Prop) : disc := Disc (fun _ => True) (fun _ _ => True) (fun _ => True) (fun _ => True) Iv.
Lemma ok_anyD {X} Iv (p : prog X) (Q : X -> unit -> Prop) : (forall x, Q x tt) -> ok (S := DS (anyD Iv)) tt p Q.
Proof. induction p as [x|o k IH|a k IH|why]; intros HQ; cbn; auto. split; [exact I|]. intros r [] _. apply IH, HQ. Qed.
Lemma self_lock G (Iv : world -> Prop) s (t : tid) o k :
  reachable G s -> s_th s !! t = Some (Do o k) -> Iv (s_w s) ->
  (forall t' w o', Iv w -> t' <> t -> match ostep t' w o' with Goes w' _ => Iv w' | _ => True end) ->
  (forall w l, Iv w -> Iv (w <| w_spawn := l |>)) ->
  (forall w e, Iv w -> Iv (env_step e w)) ->
  (forall w, Iv w -> ostep t w o = Blocked) -> stuck G s t.
Proof.
  intros Hs Ht Hi Hop Hsp Henv Hst.
  apply (inert_stuck G (anyD Iv) {[t := Do o k]}); [| |exists (Do o k); apply lookup_singleton].
  - split; cbn; auto.
    + intros t' w o' Hw _ Hn. apply lookup_singleton_None in Hn. specialize (Hop t' w o' Hw (not_eq_sym Hn)). destruct (ostep t' w o'); auto.
    + intros a _. apply ok_anyD. auto.
    + intros c _. apply ok_anyD. intros [c'|]; exact I.
    + intros t' p w Hp Hw. apply lookup_singleton_Some in Hp as [<- <-]. cbn. rewrite (Hst w Hw). reflexivity.
  - split; [exact Hi|]. split; [apply (th_fresh G), Hs|]. split.
    + intros t' p Hp. apply lookup_singleton_Some in Hp as [<- <-]. exact Ht.
    + intros t' p _ _. apply ok_anyD. intros [c'|]; exact I.
Qed.

Lemma conn_upd c f w c' : conn_of (upd_conn c f w) c' = if decide (c' = c) then f (conn_of w c) else conn_of w c'.
Proof. case_decide; [subst; apply conn_upd_eq|apply conn_upd_ne; assumption]. Qed.
Lemma ns_upd n f w n' : ns_of (upd_ns n f w) n' = if decide (n_id n' = n_id n) then f (ns_of w n) else ns_of w n'.
Proof.
  case_decide; [|apply ns_upd_ne; assumption]. unfold ns_of, upd_ns. cbn. rewrite H, lookup_insert. reflexivity.
Qed.
Lemma chan_upd p f w p' : chan_of (upd_chan p f w) p' = if decide (p' = p) then f (chan_of w p) else chan_of w p'.
Proof. case_decide; [subst; apply chan_upd_eq|apply chan_upd_ne; assumption]. Qed.
Lemma proc_upd p f w p' : proc_of (upd_proc p f w) p' = if decide (p' = p) then f (proc_of w p) else proc_of w p'.
Proof. case_decide; [subst; apply proc_upd_eq|apply proc_upd_ne; assumption]. Qed.

(** ** A mutex held by the goroutine that waits for it *)
Definition has_conn (w : world) (c : cid) : Prop := is_Some (w_conns w !! c).
Definition nsmu_held (t : tid) (c : cid) (w : world) : Prop := has_conn w c /\ rw_writer (c_nsmu (conn_of w c)) = Some t.

Lemma nsmu_upd t c c' f w : nsmu_held t c w -> (c' = c -> rw_writer (c_nsmu (f (conn_of w c))) = Some t) -> nsmu_held t c (upd_conn c' f w).
Proof.
  intros [H1 H2] Hf. split.
  - unfold has_conn, upd_conn. cbn. destruct (decide (c' = c)) as [->|Hne]; [rewrite lookup_insert; eauto|rewrite lookup_insert_ne by assumption; exact H1].
  - rewrite conn_upd. case_decide; [subst; auto|assumption].
Qed.
Lemma nsmu_conns t c w w' : w_conns w' = w_conns w -> nsmu_held t c w -> nsmu_held t c w'.
Proof. unfold nsmu_held, has_conn, conn_of. intros ->. auto. Qed.

Ltac split_goes := repeat match goal with
  | |- match (if ?b then _ else _) with _ => _ end => destruct b eqn:?
  | |- match (match ?x with _ => _ end) with _ => _ end => destruct x eqn:?
  end; try exact I.

Lemma nsmu_new t c c' k w w' : w_conns w !! c' = None -> w_conns w' = <[c' := k]> (w_conns w) -> nsmu_held t c w -> nsmu_held t c w'.
Proof.
  unfold nsmu_held, has_conn, conn_of. intros Hn ->. intros [Hc Hw]. destruct (decide (c' = c)) as [->|Hne]; [rewrite Hn in Hc; destruct Hc; discriminate|].
  rewrite lookup_insert_ne by assumption. auto.
Qed.
Lemma nsmu_op t c t' w o : nsmu_held t c w -> t' <> t -> match ostep t' w o with Goes w' _ => nsmu_held t c w' | _ => True end.
Proof.
  intros H Hne. pose proof H as [Hc Hw].
  destruct o; cbn [ostep]; cbv zeta; split_goes;
  try exact H; try (apply (nsmu_conns t c w); [reflexivity|exact H]);
  try (apply nsmu_upd; [exact H|intros ->; first [exact Hw|destruct typ; exact Hw]]).
  - apply nsmu_upd; [exact H|]. intros ->. exfalso. unfold rw_can_lock in *. rewrite Hw in *. discriminate.
  - apply nsmu_upd; [exact H|]. intros ->. exfalso. unfold rw_holds in *. rewrite Hw in *.
    match goal with E : Nat.eqb _ _ = true |- _ => apply Nat.eqb_eq in E end. congruence.
  - eapply nsmu_new; [eassumption|reflexivity|exact H].
  - eapply nsmu_new; [eassumption|reflexivity|exact H].
Qed.
Lemma env_conns (P : world -> Prop) w e :
  P w ->
  (forall c f, is_Some (w_conns w !! c) -> (forall k, c_nsmu (f k) = c_nsmu k /\ c_wait (f k) = c_wait k /\ c_waiting (f k) = c_waiting k /\
     c_procs (f k) = c_procs k /\ c_nss (f k) = c_nss k /\ c_inside (f k) = c_inside k) -> P (upd_conn c f w)) ->
  (forall w', w_conns w' = w_conns w -> w_nss w' = w_nss w -> w_procs w' = w_procs w -> w_chans w' = w_chans w -> w_srv w' = w_srv w ->
     w_next w' = w_next w -> w_spawn w' = w_spawn w -> P w') -> P (env_step e w).
Proof.
  intros H1 H2 H3. destruct e; cbn [env_step]; try (apply H3; reflexivity); try exact H1;
  destruct (_ !! _) as [x|] eqn:E; try exact H1; try (apply H3; reflexivity).
  - destruct (c_inend x); [exact H1|]. apply H2; [eauto|]. intros; repeat split.
  - destruct (c_inend x); [exact H1|]. apply H2; [eauto|]. intros; repeat split.
  - apply H2; [eauto|]. intros; repeat split.
  - destruct (x_done x); [exact H1|]. apply H3; reflexivity.
Qed.
Lemma stuck_nsmu G s t o c : reachable G s -> at_op s t o -> o = ONsLock c \/ o = ONsRLock c ->
  has_conn (s_w s) c -> rw_writer (c_nsmu (conn_of (s_w s) c)) = Some t -> stuck G s t.
Proof.
  intros Hs [k Hk] Ho Hc Hw. apply (self_lock G (nsmu_held t c) s t o k Hs Hk).
  - split; assumption.
  - intros. apply nsmu_op; assumption.
  - intros w l. apply nsmu_conns. reflexivity.
  - intros w e H. apply env_conns; [exact H| |].
    + intros c' f _ Hf. apply nsmu_upd; [exact H|]. intros ->. destruct (Hf (conn_of w c)) as [-> _]. apply H.
    + intros w' E _ _ _ _ _ _. apply (nsmu_conns t c w); assumption.
  - intros w [_ H]. destruct Ho as [-> | ->]; cbn; unfold rw_can_lock, rw_can_rlock; rewrite H; reflexivity.
Qed.

Definition romu_held (t : tid) (n : nsref) (w : world) : Prop := n_id n < w_next w /\ rw_writer (o_mu (ns_of w n)) = Some t.
Lemma romu_same t n w w' : w_nss w' = w_nss w -> w_next w <= w_next w' -> romu_held t n w -> romu_held t n w'.
Proof. unfold romu_held, ns_of. intros -> Hl [H1 H2]. split; [lia|exact H2]. Qed.
Lemma romu_new t n k w w' : w_nss w' = <[w_next w := k]> (w_nss w) -> w_next w' = S (w_next w) -> romu_held t n w -> romu_held t n w'.
Proof. unfold romu_held, ns_of. intros -> -> [H1 H2]. split; [lia|]. rewrite lookup_insert_ne by lia. exact H2. Qed.
Lemma romu_upd t n n' f w : romu_held t n w -> (n_id n' = n_id n -> o_mu (f (ns_of w n')) = o_mu (ns_of w n') \/ rw_writer (o_mu (f (ns_of w n'))) = Some t) ->
  romu_held t n (upd_ns n' f w).
Proof.
  intros [H1 H2] Hf. split; [exact H1|]. rewrite ns_upd. case_decide; [|exact H2]. specialize (Hf (eq_sym H)). destruct Hf as [Hf|Hf]; [|exact Hf]. rewrite Hf.
  unfold ns_of in *. rewrite <- H. destruct (w_nss w !! n_id n); exact H2.
Qed.
Lemma ns_of_mu w n n' : n_id n' = n_id n -> o_mu (ns_of w n') = o_mu (ns_of w n).
Proof. unfold ns_of. intros ->. destruct (w_nss w !! n_id n); reflexivity. Qed.
Lemma romu_op t n t' w o : romu_held t n w -> t' <> t -> match ostep t' w o with Goes w' _ => romu_held t n w' | _ => True end.
Proof.
  intros H Hne. pose proof H as [Hc Hw].
  destruct o; cbn [ostep]; cbv zeta; split_goes;
  try exact H; try (apply (romu_same t n w); [reflexivity|cbn; lia|exact H]);
  try (eapply romu_new; [reflexivity|reflexivity|exact H]);
  try (apply romu_upd; [exact H|]; intros Hid; left; reflexivity);
  (apply romu_upd; [exact H|]; intros Hid; right).
  - exfalso. rewrite (ns_of_mu w n n0 Hid) in *. unfold rw_can_lock in *. rewrite Hw in *. discriminate.
  - exfalso. rewrite (ns_of_mu w n n0 Hid) in *. unfold rw_holds in *. rewrite Hw in *.
    match goal with E : Nat.eqb _ _ = true |- _ => apply Nat.eqb_eq in E end. congruence.
  - cbn. rewrite (ns_of_mu w n n0 Hid). exact Hw.
  - cbn. rewrite (ns_of_mu w n n0 Hid). exact Hw.
Qed.
Lemma stuck_romu G s t o n n' : reachable G s -> at_op s t o -> o = ORoomLock n' \/ o = ORoomRLock n' -> n_id n' = n_id n ->
  n_id n < w_next (s_w s) -> rw_writer (o_mu (ns_of (s_w s) n)) = Some t -> stuck G s t.
Proof.
  intros Hs [k Hk] Ho Hid Hc Hw. apply (self_lock G (romu_held t n) s t o k Hs Hk).
  - split; assumption.
  - intros. apply romu_op; assumption.
  - intros w l. apply romu_same; reflexivity.
  - intros w e H. apply env_conns; [exact H| |].
    + intros c' f _ Hf. apply (romu_same t n w); [reflexivity|reflexivity|exact H].
    + intros w' _ E _ _ _ E' _. apply (romu_same t n w); [assumption|rewrite E'; reflexivity|assumption].
  - intros w [_ H]. rewrite <- (ns_of_mu w n n' Hid) in H. destruct Ho as [-> | ->]; cbn; unfold rw_can_lock, rw_can_rlock; rewrite H; reflexivity.
Qed.

Definition bmu_held (t : tid) (w : world) : Prop := b_mu (w_srv w) = Some t.
Lemma bmu_op t t' w o : bmu_held t w -> t' <> t -> match ostep t' w o with Goes w' _ => bmu_held t w' | _ => True end.
Proof.
  intros H Hne. unfold bmu_held in *. destruct o; cbn [ostep]; cbv zeta; split_goes; try exact H; try (match goal with x : srvmsg |- _ => destruct x; exact H end); cbn; try congruence.
  - match goal with E : Nat.eqb _ _ = true |- _ => apply Nat.eqb_eq in E end. congruence.
Qed.
Lemma stuck_bmu G s t : reachable G s -> at_op s t OBLock -> b_mu (w_srv (s_w s)) = Some t -> stuck G s t.
Proof.
  intros Hs [k Hk] Hw. apply (self_lock G (bmu_held t) s t OBLock k Hs Hk).
  - assumption.
  - intros. apply bmu_op; assumption.
  - intros w l H. exact H.
  - intros w e H. apply env_conns; [exact H| |].
    + intros c' f _ Hf. exact H.
    + intros w' _ _ _ _ E _ _. unfold bmu_held in *. rewrite E. exact H.
  - intros w H. unfold bmu_held in H. cbn. rewrite H. reflexivity.
Qed.

Lemma pick_nil {X} w : @pick X w [] = None.
Proof. unfold pick. destruct (_ mod _); reflexivity. Qed.

(** ** A reply channel nobody knows *)
Definition dead_chan (ch : chid) : disc := {|
  d_may := fun o => match o with
    | OWaitPut _ _ ch' | OSWaitPut _ ch' | OChSend ch' _ | OSelect ch' _ | OSpawn (TReadNext _ ch') => ch' <> ch | _ => True end;
  d_ret := fun o => match o with ONewChan _ => fun r => r <> ch | OWaitGet _ _ | OSWaitGet _ => fun r => r <> Some ch | _ => fun _ => True end;
  d_start := fun c => match c with TReadNext _ ch' => ch' <> ch | _ => True end;
  d_call := fun _ => True;
  d_inv := fun w => ch < w_next w /\ ch_buf (chan_of w ch) = [] /\ (forall c tok, c_waiting (conn_of w c) !! tok <> Some ch) /\
    (forall tok, s_waiting (w_srv w) !! tok <> Some ch) /\ forall c, TReadNext c ch ∉ w_spawn w |}.

Lemma ds_bindr (D : disc) {X} o (f : res o -> prog X) : d_may D o -> (forall r, d_ret D o r -> @kp (DS D) (fun _ _ => True) _ (f r)) ->
  @kp (DS D) (fun _ _ => True) _ (bind (opr o) f).
Proof. intros H1 H2 []. cbn. split; [exact H1|]. intros r Hr. apply (H2 r Hr tt). Qed.
Ltac kbind := match goal with |- @Frame.kp _ _ _ (bind (opr ?o) _) => apply (ds_bindr _ o); [cbn; first [exact I|assumption|congruence]|cbn [d_ret]; intros ? ?] end.
Ltac kgo U := repeat first
  [ apply (kp_ret U) | apply (kp_crash U) | match goal with |- @Frame.kp _ _ _ (opr ?o) => apply (ds_opr _ o); cbn; first [exact I|assumption|congruence] end | assumption
  | match goal with H : forall _, _ |- _ => apply H; fail end
  | apply (kp_for_all U); intros | apply (kp_bind U); [|intros]
  | match goal with |- @Frame.kp _ _ _ ?p => match p with context [match ?x with _ => _ end] => destruct x eqn:? end end ].
#[local] Arguments Write : simpl never.
#[local] Arguments send : simpl never.
#[local] Arguments handle_event : simpl never.

Section dead.
Context (G : cfg) (A : user_app (fun _ => True) G) (ch : chid).
Notation D := (dead_chan ch).
Lemma dc_free o : free_op o = true -> d_may D o.
Proof. destruct o; try discriminate; try (intros _; exact I). destruct code; try discriminate; intros _; exact I. Qed.
Lemma dc_read c r : d_ret D (ORead c) r -> (fun _ : cid => True) c.
Proof. intros; exact I. Qed.
Let U := ds_rules G D (fun _ => True) (fun o H _ => dc_free o H) dc_read A.
Lemma dc_gate o : gate_op o = true -> d_may D o.
Proof. destruct o; try discriminate; intros _; exact I. Qed.
Lemma dc_proc o : proc_op o = true -> d_may D o.
Proof. destruct o; try discriminate; intros _; exact I. Qed.
Lemma dc_gates : @gates G (DS D) (fun _ _ => True) (fun _ _ => True) (fun _ => True).
Proof.
  split; [intros ? _; apply (ds_gate_w G D (fun _ => True))|intros ? ? _; apply (ds_gate_u G D (fun _ => True))|apply (ds_proc_get G D (fun _ => True))
    |apply (ds_proc_Done G D (fun _ => True))|apply (ds_proc_Wait G D (fun _ => True))|apply (ds_proc_Start G D (fun _ => True))];
  eauto using dc_free, dc_read, dc_gate, dc_proc.
Qed.
Lemma dc_send ch' m : ch' <> ch -> @kp (DS D) (fun _ _ => True) _ (send ch' m).
Proof. intros H. unfold send. kgo U. Qed.
Lemma dc_ask c x m nx : @kp (DS D) (fun _ _ => True) _ (ask G c x m nx).
Proof.
  pose proof (Write_kp U dc_gates) as HW. unfold ask. destruct (onlyNative G c); [apply (kp_ret U)|].
  kbind. destruct r; [apply (kp_ret U)|]. kbind. destruct r; [apply (kp_ret U)|]. kbind. cbv zeta. kgo U.
Qed.
Lemma dc_srvask x m : (forall e msgs, @kp (DS D) (fun _ _ => True) _ (Broadcast G e msgs)) -> @kp (DS D) (fun _ _ => True) _ (ServerAsk G x m).
Proof.
  intros HB. unfold ServerAsk. kbind. destruct (g_exch G); [kgo U|]. kbind. kgo U.
Qed.

Lemma dc_upc w c f : d_inv D w -> (forall tok, c_waiting (f (conn_of w c)) !! tok <> Some ch) -> d_inv D (upd_conn c f w).
Proof.
  intros (H1 & H2 & H3 & H4 & H5) Hf. split; [exact H1|]. split; [exact H2|]. split; [|split; [exact H4|exact H5]].
  intros c' tok. rewrite conn_upd. case_decide; [apply Hf|apply H3].
Qed.
Lemma dc_ups w f : d_inv D w -> (forall tok, s_waiting (f (w_srv w)) !! tok <> Some ch) -> d_inv D (upd_srv f w).
Proof. intros (H1 & H2 & H3 & H4 & H5) Hf. split; [exact H1|]. split; [exact H2|]. split; [exact H3|]. split; [exact Hf|exact H5]. Qed.
Lemma dc_same w w' : w_conns w' = w_conns w -> w_chans w' = w_chans w -> w_srv w' = w_srv w -> w_next w <= w_next w' -> w_spawn w' = w_spawn w -> d_inv D w -> d_inv D w'.
Proof. intros E1 E2 E3 E4 E5. unfold d_inv, dead_chan, conn_of, chan_of. rewrite E1, E2, E3, E5. intros (H1 & H). split; [lia|exact H]. Qed.
Lemma dc_upch w ch' f : d_inv D w -> ch' <> ch -> d_inv D (upd_chan ch' f w).
Proof. intros (H1 & H2 & H) Hne. split; [exact H1|]. split; [rewrite chan_upd, decide_False by congruence; exact H2|]. exact H. Qed.
Lemma dc_new w c k : d_inv D w -> c_waiting k = ∅ -> d_inv D (w <| w_conns ::= <[c := k]> |>).
Proof.
  intros H Hk. apply (dc_upc w c (fun _ => k) H). intros tok. rewrite Hk, lookup_empty. discriminate.
Qed.
Lemma dc_op t w o : d_inv D w -> d_may D o -> match ostep t w o with Goes w' r => d_inv D w' /\ d_ret D o r | _ => True end.
Proof.
  intros H0. pose proof H0 as (H1 & H2 & H3 & H4 & H5).
  destruct o; cbn [ostep]; cbv zeta; intros Hm; split_goes;
  try (split; [|exact I];
    first [ exact H0 | apply (dc_same w); [..|exact H0]; first [reflexivity|cbn; lia] | apply dc_upc; [exact H0|]; intros tok'; cbn; first [apply H3|destruct typ; apply H3]
      | apply dc_ups; [exact H0|]; intros tok'; cbn; apply H4 | apply dc_upch; [exact H0|exact Hm]]).
  - split; [|exact I]. apply dc_upc; [|intros tok'; cbn; apply H3]. apply (dc_same w); [..|exact H0]; try reflexivity. cbn; lia.
  - split; [|exact I]. apply dc_upc; [exact H0|]. intros tok'. cbn. destruct (decide (tok = tok')) as [->|]; [rewrite lookup_insert; cbn in Hm; congruence|rewrite lookup_insert_ne by assumption; apply H3].
  - split; [|exact I]. apply dc_upc; [exact H0|]. intros tok'. cbn. intros E. apply lookup_delete_Some in E as [_ E]. exact (H3 _ _ E).
  - split; [exact H0|]. cbn. apply H3.
  - split; [|exact I]. apply dc_upc; [exact H0|]. intros tok'. cbn. rewrite lookup_empty. discriminate.
  - split; [|exact I]. apply dc_ups; [exact H0|]. intros tok'. cbn. destruct (decide (tok = tok')) as [->|]; [rewrite lookup_insert; cbn in Hm; congruence|rewrite lookup_insert_ne by assumption; apply H4].
  - split; [|exact I]. apply dc_ups; [exact H0|]. intros tok'. cbn. intros E. apply lookup_delete_Some in E as [_ E]. exact (H4 _ E).
  - split; [exact H0|]. cbn. apply H4.
  - split; [|cbn; lia]. split; [cbn; lia|]. split; [unfold chan_of; cbn; rewrite lookup_insert_ne by lia; exact H2|]. auto.
  - split; [|exact I]. apply dc_ups; [apply (dc_same w); [..|exact H0]; try reflexivity; cbn; lia|]. intros tok'. cbn. destruct s; apply H4.
  - split; [|exact I]. apply (dc_new (w <| w_nss ::= <[w_next w:=nsobj0 {| n_conn := c; n_name := ""; n_id := w_next w |}]> |> <| w_next ::= S |>)); [|reflexivity].
    apply (dc_same w); [..|exact H0]; try reflexivity. cbn; lia.
  - split; [|exact I]. apply dc_new; [exact H0|reflexivity].
  - split; [|exact I]. split; [exact H1|]. split; [exact H2|]. split; [exact H3|]. split; [exact H4|]. intros c. cbn. intros E.
    apply elem_of_app in E as [E|E]; [exact (H5 c E)|]. apply elem_of_list_singleton in E. subst code. cbn in Hm. congruence.
Qed.
Lemma dc_disciplined (T : gmap tid (prog (option tcode))) :
  (forall t p, T !! t = Some p -> exists k, p = Do (OSelect ch None) k) -> disciplined G D T.
Proof.
  intros HT. split.
  - intros t w o Hw Hm _. apply dc_op; assumption.
  - intros a _. apply (ds_impl G D (fun _ => True) (fun o H _ => dc_free o H) dc_read A dc_gates); try (intros; exact I); auto using dc_ask, dc_srvask.
    + intros c. apply ds_opr. exact I.
    + intros c. apply ds_opr. exact I.
    + intros c Hc. destruct c; try exact I. discriminate.
    + intros c tok ch' m _ Hr. apply dc_send. cbn in Hr. congruence.
    + intros tok ch' m Hr. apply dc_send. cbn in Hr. congruence.
    + intros c ch' m Hr. apply dc_send. exact Hr.
  - intros a Ha. apply (ds_code G D (fun _ => True) (fun o H _ => dc_free o H) dc_read A dc_gates); try (intros; exact I); auto using dc_ask, dc_srvask.
    + intros c. apply ds_opr. exact I.
    + intros c. apply ds_opr. exact I.
    + intros c Hc. destruct c; try exact I. discriminate.
    + intros c tok ch' m _ Hr. apply dc_send. cbn in Hr. congruence.
    + intros tok ch' m Hr. apply dc_send. cbn in Hr. congruence.
    + intros c ch' m Hr. apply dc_send. exact Hr.
  - intros w c rest (H1 & H2 & H3 & H4 & H5) Hs. split.
    + destruct c; try exact I. cbn. intros ->. apply (H5 c). rewrite Hs. left.
    + split; [exact H1|]. split; [exact H2|]. split; [exact H3|]. split; [exact H4|]. intros c' Hc'. apply (H5 c'). rewrite Hs. right. exact Hc'.
  - intros c Hc. destruct c; try exact I. discriminate.
  - intros w e H. apply env_conns; [exact H| |].
    + intros c f _ Hf. apply dc_upc; [exact H|]. intros tok. destruct (Hf (conn_of w c)) as (_ & _ & -> & _). apply H.
    + intros w' E1 _ _ E2 E3 E4 E5. apply (dc_same w); auto. lia.
  - intros t p w Hp (H1 & H2 & _). destruct (HT _ _ Hp) as [k ->]. cbn. rewrite H2, pick_nil. reflexivity.
Qed.
End dead.


(** ** A message in an unbuffered channel that nobody reads *)
Definition full_chan (ch : chid) (k : nat) : disc := {|
  d_may := fun o => match o with OSelect ch' _ => ch' <> ch | _ => True end;
  d_ret := fun o => match o with ONewChan _ => fun r => r <> ch | _ => fun _ => True end;
  d_start := fun _ => True; d_call := fun _ => True;
  d_inv := fun w => ch < w_next w /\ ch_cap (chan_of w ch) = 0 /\ ch_taken (chan_of w ch) < k |}.
Section full.
Context (G : cfg) (A : user_app (fun _ => True) G) (ch : chid) (k : nat).
Notation D := (full_chan ch k).
Lemma fc_free o : free_op o = true -> d_may D o.
Proof. destruct o; try discriminate; intros _; exact I. Qed.
Lemma fc_read c r : d_ret D (ORead c) r -> (fun _ : cid => True) c.
Proof. intros; exact I. Qed.
Let U := ds_rules G D (fun _ => True) (fun o H _ => fc_free o H) fc_read A.
Lemma fc_gate o : gate_op o = true -> d_may D o.
Proof. destruct o; try discriminate; intros _; exact I. Qed.
Lemma fc_proc o : proc_op o = true -> d_may D o.
Proof. destruct o; try discriminate; intros _; exact I. Qed.
Lemma fc_gates : @gates G (DS D) (fun _ _ => True) (fun _ _ => True) (fun _ => True).
Proof.
  split; [intros ? _; apply (ds_gate_w G D (fun _ => True))|intros ? ? _; apply (ds_gate_u G D (fun _ => True))|apply (ds_proc_get G D (fun _ => True))
    |apply (ds_proc_Done G D (fun _ => True))|apply (ds_proc_Wait G D (fun _ => True))|apply (ds_proc_Start G D (fun _ => True))];
  eauto using fc_free, fc_read, fc_gate, fc_proc.
Qed.
Lemma fc_send ch' m : @kp (DS D) (fun _ _ => True) _ (send ch' m).
Proof. unfold send. kgo U. Qed.
Lemma fc_ask c x m nx : @kp (DS D) (fun _ _ => True) _ (ask G c x m nx).
Proof.
  pose proof (Write_kp U fc_gates) as HW. unfold ask. destruct (onlyNative G c); [apply (kp_ret U)|].
  kbind. destruct r; [apply (kp_ret U)|]. kbind. destruct r; [apply (kp_ret U)|]. kbind. cbv zeta. kgo U.
Qed.
Lemma fc_srvask x m : (forall e msgs, @kp (DS D) (fun _ _ => True) _ (Broadcast G e msgs)) -> @kp (DS D) (fun _ _ => True) _ (ServerAsk G x m).
Proof. intros HB. unfold ServerAsk. kbind. destruct (g_exch G); [kgo U|]. kbind. kgo U. Qed.
Lemma fc_same w w' : w_chans w' = w_chans w -> w_next w <= w_next w' -> d_inv D w -> d_inv D w'.
Proof. intros E1 E2. unfold d_inv, full_chan, chan_of. rewrite E1. intros (H1 & H). split; [lia|exact H]. Qed.
Lemma fc_op t w o : d_inv D w -> d_may D o -> match ostep t w o with Goes w' r => d_inv D w' /\ d_ret D o r | _ => True end.
Proof.
  intros H0. pose proof H0 as (H1 & H2 & H3).
  destruct o; cbn [ostep]; cbv zeta; intros Hm; split_goes;
  try (split; [|exact I]; first [ exact H0 | apply (fc_same w); [..|exact H0]; first [reflexivity|cbn; lia]]).
  - split; [|cbn; lia]. split; [cbn; lia|]. unfold chan_of; cbn. rewrite lookup_insert_ne by lia. auto.
  - split; [|exact I]. split; [exact H1|]. rewrite chan_upd. case_decide; [subst|auto]. cbn. auto.
  - split; [|exact I]. split; [exact H1|]. rewrite chan_upd, decide_False by (cbn in Hm; congruence). auto.
Qed.
Lemma fc_disciplined (T : gmap tid (prog (option tcode))) :
  (forall t p, T !! t = Some p -> exists q, p = Do (OChSent ch k) q) -> disciplined G D T.
Proof.
  intros HT. split.
  - intros t w o Hw Hm _. apply fc_op; assumption.
  - intros a _. apply (ds_impl G D (fun _ => True) (fun o H _ => fc_free o H) fc_read A fc_gates); try (intros; exact I); auto using fc_ask, fc_srvask, fc_send;
      try (intros; apply ds_opr; exact I); intros; apply fc_send.
  - intros a Ha. apply (ds_code G D (fun _ => True) (fun o H _ => fc_free o H) fc_read A fc_gates); try (intros; exact I); auto using fc_ask, fc_srvask, fc_send;
      try (intros; apply ds_opr; exact I); intros; apply fc_send.
  - intros w c rest H Hs. split; [exact I|]. apply (fc_same w); [..|exact H]; reflexivity.
  - intros; exact I.
  - intros w e H. apply env_conns; [exact H| |].
    + intros c f _ Hf. apply (fc_same w); [..|exact H]; reflexivity.
    + intros w' E1 _ _ E2 E3 E4 E5. apply (fc_same w); auto. lia.
  - intros t p w Hp (H1 & H2 & H3). destruct (HT _ _ Hp) as [q ->]. cbn. rewrite H2. cbn.
    replace (k <=? ch_taken (chan_of w ch)) with false; [reflexivity|]. symmetry. apply Nat.leb_gt, H3.
Qed.
End full.

(** ** A gate that was opened between the check and the lock of a waiter *)
Definition missed_gate (c : cid) : disc := {|
  d_may := fun o => match o with OWCasUnlock c' | OWClose c' => c' <> c | _ => True end;
  d_ret := fun o => match o with OWReady c' => fun r => c' = c -> r = true | _ => fun _ => True end;
  d_start := fun _ => True; d_call := fun _ => True;
  d_inv := fun w => has_conn w c /\ w_ready (c_wait (conn_of w c)) = true /\ w_chclosed (c_wait (conn_of w c)) = false |}.
Section missed.
Context (G : cfg) (A : user_app (fun _ => True) G) (c : cid).
Notation D := (missed_gate c).
Lemma mg_free o : free_op o = true -> d_may D o.
Proof. destruct o; try discriminate; intros _; exact I. Qed.
Lemma mg_read c' r : d_ret D (ORead c') r -> (fun _ : cid => True) c'.
Proof. intros; exact I. Qed.
Let U := ds_rules G D (fun _ => True) (fun o H _ => mg_free o H) mg_read A.
Lemma mg_proc o : proc_op o = true -> d_may D o.
Proof. destruct o; try discriminate; intros _; exact I. Qed.
Lemma mg_chan o : chan_op o = true -> d_may D o.
Proof. destruct o; try discriminate; intros _; exact I. Qed.
Lemma mg_wait c' : @kp (DS D) (fun _ _ => True) _ (wait c').
Proof. unfold wait. kgo U. Qed.
Lemma mg_unwait c' e : @kp (DS D) (fun _ _ => True) _ (unwait c' e).
Proof.
  unfold unwait. kbind. destruct r; [kgo U|]. cbn in H. assert (c' <> c) by (intros E; specialize (H E); discriminate). kgo U.
Qed.
Lemma mg_gates : @gates G (DS D) (fun _ _ => True) (fun _ _ => True) (fun _ => True).
Proof.
  split; [intros ? _; apply mg_wait|intros ? ? _; apply mg_unwait|apply (ds_proc_get G D (fun _ => True))
    |apply (ds_proc_Done G D (fun _ => True))|apply (ds_proc_Wait G D (fun _ => True))|apply (ds_proc_Start G D (fun _ => True))];
  eauto using mg_free, mg_read, mg_proc.
Qed.
Lemma mg_send ch' m : @kp (DS D) (fun _ _ => True) _ (send ch' m).
Proof. unfold send. kgo U. Qed.
Lemma mg_same w w' : w_conns w' = w_conns w -> d_inv D w -> d_inv D w'.
Proof. intros E1. unfold d_inv, missed_gate, conn_of, has_conn. rewrite E1. auto. Qed.
Lemma mg_upd w c' f : d_inv D w -> (c' = c -> w_ready (c_wait (f (conn_of w c))) = true /\ w_chclosed (c_wait (f (conn_of w c))) = false) -> d_inv D (upd_conn c' f w).
Proof.
  intros (H1 & H2) Hf. split.
  - unfold has_conn, upd_conn. cbn. destruct (decide (c' = c)) as [->|Hne]; [rewrite lookup_insert; eauto|rewrite lookup_insert_ne by assumption; exact H1].
  - rewrite conn_upd. case_decide; [subst; auto|exact H2].
Qed.
Lemma mg_new w w' c' k : w_conns w !! c' = None -> w_conns w' = <[c' := k]> (w_conns w) -> d_inv D w -> d_inv D w'.
Proof.
  intros Hn. unfold d_inv, missed_gate, has_conn, conn_of. intros ->. intros [Hc Hw]. destruct (decide (c' = c)) as [->|Hne]; [rewrite Hn in Hc; destruct Hc; discriminate|].
  rewrite lookup_insert_ne by assumption. auto.
Qed.
Lemma mg_op t w o : d_inv D w -> d_may D o -> match ostep t w o with Goes w' r => d_inv D w' /\ d_ret D o r | _ => True end.
Proof.
  intros H0. pose proof H0 as (H1 & H2 & H3).
  destruct o; cbn [ostep]; cbv zeta; intros Hm; split_goes;
  try (split; [|exact I]; first [ exact H0 | apply (mg_same w); [|exact H0]; reflexivity
    | apply mg_upd; [exact H0|intros ->; first [split; assumption | cbn; split; [reflexivity|assumption] | destruct typ; split; assumption | cbn in Hm; congruence]]
    | eapply mg_new; [eassumption|reflexivity|exact H0] ]).
  split; [exact H0|]. cbn. intros ->. exact H2.
Qed.
Lemma mg_disciplined (T : gmap tid (prog (option tcode))) :
  (forall t p, T !! t = Some p -> exists q, p = Do (OWRecv c) q) -> disciplined G D T.
Proof.
  intros HT. split.
  - intros t w o Hw Hm _. apply mg_op; assumption.
  - intros a _. apply (ds_impl G D (fun _ => True) (fun o H _ => mg_free o H) mg_read A mg_gates); try (intros; exact I); try (intros; apply mg_send); try (intros; apply ds_opr; exact I).
    + apply (ds_ask G D (fun _ => True) (fun o H _ => mg_free o H) mg_read A mg_gates), mg_chan.
    + apply (ds_srvask G D (fun _ => True) (fun o H _ => mg_free o H) mg_read A mg_gates), mg_chan.
  - intros a _. apply (ds_code G D (fun _ => True) (fun o H _ => mg_free o H) mg_read A mg_gates); try (intros; exact I); try (intros; apply mg_send); try (intros; apply ds_opr; exact I).
    + apply (ds_ask G D (fun _ => True) (fun o H _ => mg_free o H) mg_read A mg_gates), mg_chan.
    + apply (ds_srvask G D (fun _ => True) (fun o H _ => mg_free o H) mg_read A mg_gates), mg_chan.
  - intros w c' rest H Hs. split; [exact I|]. apply (mg_same w); [reflexivity|exact H].
  - intros; exact I.
  - intros w e H. apply env_conns; [exact H| |].
    + intros c' f _ Hf. apply mg_upd; [exact H|]. intros ->. destruct (Hf (conn_of w c)) as (_ & -> & _). apply H.
    + intros w' E1 _ _ E2 E3 E4 E5. apply (mg_same w); auto.
  - intros t p w Hp (H1 & H2 & H3). destruct (HT _ _ Hp) as [q ->]. cbn. rewrite H3. reflexivity.
Qed.
End missed.

(** ** A process that is marked done while its WaitGroup is not at zero *)
Definition spent_proc (p : pid) (g : nat) : disc := {|
  d_may := fun o => match o with OProcDone p' => p' <> p | _ => True end;
  d_ret := fun o => match o with OProcDoneCas p' => fun r => p' = p -> r = false | OProcNew _ _ => fun r => r <> p | _ => fun _ => True end;
  d_start := fun _ => True; d_call := fun _ => True;
  d_inv := fun w => p < w_next w /\ p_done (proc_of w p) = true /\ p_gen (proc_of w p) <= g |}.
Section spent.
Context (G : cfg) (A : user_app (fun _ => True) G) (p : pid) (g : nat).
Notation D := (spent_proc p g).
Lemma sp_free o : free_op o = true -> d_may D o.
Proof. destruct o; try discriminate; intros _; exact I. Qed.
Lemma sp_read c' r : d_ret D (ORead c') r -> (fun _ : cid => True) c'.
Proof. intros; exact I. Qed.
Let U := ds_rules G D (fun _ => True) (fun o H _ => sp_free o H) sp_read A.
Lemma sp_gate o : gate_op o = true -> d_may D o.
Proof. destruct o; try discriminate; intros _; exact I. Qed.
Lemma sp_chan o : chan_op o = true -> d_may D o.
Proof. destruct o; try discriminate; intros _; exact I. Qed.
Lemma sp_Done p' : @kpp (DS D) (fun _ _ => True) _ (fun _ => True) (proc_Done p').
Proof.
  apply (kpp_kp U). unfold proc_Done. kbind. destruct r; [|kgo U]. cbn in H. assert (p' <> p) by (intros E; specialize (H E); discriminate). kgo U.
Qed.
Lemma sp_gates : @gates G (DS D) (fun _ _ => True) (fun _ _ => True) (fun _ => True).
Proof.
  split; [intros ? _; apply (ds_gate_w G D (fun _ => True))|intros ? ? _; apply (ds_gate_u G D (fun _ => True))|intros c s; unfold proc_get; kgo U
    |apply sp_Done|intros p'; unfold proc_Wait; kgo U|intros p'; apply (kq_any U); [auto|]; unfold proc_Start; kgo U];
  eauto using sp_free, sp_read, sp_gate.
Qed.
Lemma sp_send ch' m : @kp (DS D) (fun _ _ => True) _ (send ch' m).
Proof. unfold send. kgo U. Qed.
Lemma sp_same w w' : w_procs w' = w_procs w -> w_next w <= w_next w' -> d_inv D w -> d_inv D w'.
Proof. intros E1 E2. unfold d_inv, spent_proc, proc_of. rewrite E1. intros (H1 & H). split; [lia|exact H]. Qed.
Lemma sp_op t w o : d_inv D w -> d_may D o -> match ostep t w o with Goes w' r => d_inv D w' /\ d_ret D o r | _ => True end.
Proof.
  intros H0. pose proof H0 as (H1 & H2 & H3).
  destruct o; cbn [ostep]; cbv zeta; intros Hm; split_goes;
  try (split; [|exact I]; first [ exact H0 | apply (sp_same w); [..|exact H0]; first [reflexivity|cbn; lia]]).
  - split; [|cbn; lia]. split; [cbn; lia|]. unfold proc_of; cbn. rewrite lookup_insert_ne by lia. auto.
  - split; [|exact I]. split; [exact H1|]. rewrite proc_upd. case_decide; [subst|auto]. cbn. auto.
  - split; [exact H0|]. cbn. auto.
  - split; [|cbn; intros ->; congruence]. split; [exact H1|]. rewrite proc_upd. case_decide; [subst|auto]. cbn. auto.
  - split; [|exact I]. split; [exact H1|]. rewrite proc_upd, decide_False by (cbn in Hm; congruence). auto.
  - split; [|exact I]. split; [exact H1|]. rewrite proc_upd, decide_False by (cbn in Hm; congruence). auto.
  - split; [|exact I]. split; [exact H1|]. rewrite proc_upd. case_decide; [subst|auto]. cbn. auto.
Qed.
Lemma sp_disciplined (T : gmap tid (prog (option tcode))) :
  (forall t q, T !! t = Some q -> exists k, q = Do (OProcWoken p g) k) -> disciplined G D T.
Proof.
  intros HT. split.
  - intros t w o Hw Hm _. apply sp_op; assumption.
  - intros a _. apply (ds_impl G D (fun _ => True) (fun o H _ => sp_free o H) sp_read A sp_gates); try (intros; exact I); try (intros; apply sp_send); try (intros; apply ds_opr; exact I).
    + apply (ds_ask G D (fun _ => True) (fun o H _ => sp_free o H) sp_read A sp_gates), sp_chan.
    + apply (ds_srvask G D (fun _ => True) (fun o H _ => sp_free o H) sp_read A sp_gates), sp_chan.
  - intros a _. apply (ds_code G D (fun _ => True) (fun o H _ => sp_free o H) sp_read A sp_gates); try (intros; exact I); try (intros; apply sp_send); try (intros; apply ds_opr; exact I).
    + apply (ds_ask G D (fun _ => True) (fun o H _ => sp_free o H) sp_read A sp_gates), sp_chan.
    + apply (ds_srvask G D (fun _ => True) (fun o H _ => sp_free o H) sp_read A sp_gates), sp_chan.
  - intros w c' rest H Hs. split; [exact I|]. apply (sp_same w); [..|exact H]; reflexivity.
  - intros; exact I.
  - intros w e H. apply env_conns; [exact H| |].
    + intros c' f _ Hf. apply (sp_same w); [..|exact H]; reflexivity.
    + intros w' E1 _ E2 _ _ E4 _. apply (sp_same w); auto. lia.
  - intros t q w Hp (H1 & H2 & H3). destruct (HT _ _ Hp) as [k ->]. cbn [tstep ostep].
    replace (g <? p_gen (proc_of w p)) with false; [reflexivity|]. symmetry. apply Nat.ltb_ge, H3.
Qed.
End spent.

Lemma idle_inert G D s (t : tid) p : reachable G s -> s_th s !! t = Some p -> d_inv D (s_w s) ->
  (forall t' p', s_th s !! t' = Some p' -> t' <> t -> exists c, p' = code G c /\ d_start D c) ->
  disciplined G D {[t := p]} -> stuck G s t.
Proof.
  intros Hs Ht Hi Ho HD. apply (inert_stuck G D {[t := p]}); [exact HD| |exists p; apply lookup_singleton].
  split; [exact Hi|]. split; [apply (th_fresh G), Hs|]. split.
  - intros t' q Hq. apply lookup_singleton_Some in Hq as [<- <-]. exact Ht.
  - intros t' q Hq Hn. apply lookup_singleton_None in Hn. destruct (Ho t' q Hq (not_eq_sym Hn)) as (c & -> & Hc). apply (do_code _ _ _ HD), Hc.
Qed.

(*@file Prop_Stuck.v
From Coq Require Import ZArith.
From stdpp Require Import gmap strings list relations.
From Verif Require Import Go Errors Message World Lang Code Sem Spec_App Spec_Conn Spec_View Examples Scenes Spec_Stuck StuckProofs.
@*)

(*@prop C25 is violated.  An Ask without deadline waits for its reply on channel
    [ch] ([t] is at the select of conn.go:987-1001) and the connections know the
    channel no more (Close forgets all waiters, conn.go:1026-1028): then it
    waits for ever. @*)
Lemma l_C25_refuted : forall (G : cfg) (s : sys) (t : tid) (ch : chid),
  user_app (fun _ => True) G -> reachable G s -> others_idle G s t ->
  at_op s t (OSelect ch None) ->
  ch < w_next (s_w s) -> ch_buf (chan_of (s_w s) ch) = [] ->
  (forall c tok, c_waiting (conn_of (s_w s) c) !! tok <> Some ch) ->
  (forall tok, s_waiting (w_srv (s_w s)) !! tok <> Some ch) ->
  (forall c, TReadNext c ch ∉ w_spawn (s_w s)) ->
  (forall c t', s_th s !! t' <> Some (code G (TReadNext c ch))) ->
  stuck G s t.
Proof.
  intros G s t ch HA Hs Ho [k Hk] H1 H2 H3 H4 H5 H6.
  apply (idle_inert G (dead_chan ch) s t _ Hs Hk).
  - split; [exact H1|]. auto.
  - intros t' p Hp Hne. destruct (Ho t' p Hp Hne) as [c ->]. exists c. split; [reflexivity|]. destruct c; try exact I. cbn. intros ->. exact (H6 _ _ Hp).
  - apply dc_disciplined; [exact HA|]. intros t' p Hp. apply lookup_singleton_Some in Hp as [_ <-]. eauto.
Qed.

(** A client asks without deadline; another goroutine closes the connection. *)
Definition deserted : cfg := scene true (fun k => match k with
  | 0 => call (AConnect 2 None "chat") | 1 => call (AClose 2) | _ => call (AAsk 2 None hello_msg) end).
Definition deserted_run : list cmd :=
  [Go 0; Act1 (Env (EGo (TDial 2))); Go 1; Act1 Start; Go 2; Act1 (Env (EDeliver 2 TextMessage "Aid-1")); Go 2; Go 1;
   Act1 (Env (EGo (TUser 0))); Go 3; Act1 (Env (EDeliver 2 TextMessage "$0;chat;;_OnNamespaceConnect;0;0;")); Go 2; Go 3;
   Act1 (Env (ETick 7)); Act1 (Env (EGo (TUser 2))); Go 4; Act1 (Env (EGo (TUser 1))); Go 5; Go 2].
Lemma deserted_app : user_app (fun _ => True) deserted.
Proof. apply scene_app. intros [|[|k]]; cbn; auto. Qed.

(** ** Executable versions of the hypotheses.

    Programs are functions and cannot be compared by computation, so a run
    keeps track of the goroutines that are at the beginning of a program. *)
Definition tag1 (a : action) (s : sys) (tg : gmap tid tcode) : gmap tid tcode :=
  match a with
  | Step t => match s_th s !! t with
              | Some (Ret (Some c)) => <[t := c]> tg
              | _ => delete t tg
              end
  | Start => match w_spawn (s_w s) with c :: _ => <[s_next s := c]> tg | [] => tg end
  | Env (EGo c) => <[s_next s := c]> tg
  | _ => tg
  end.
Fixpoint drive_tags G (fuel : nat) (t : tid) (s : sys) (tg : gmap tid tcode) : sys * gmap tid tcode :=
  match fuel with
  | O => (s, tg)
  | S f => match step G (Step t) s with Some s' => drive_tags G f t s' (tag1 (Step t) s tg) | None => (s, tg) end
  end.
Fixpoint play_tags G (l : list cmd) (s : sys) (tg : gmap tid tcode) : sys * gmap tid tcode :=
  match l with
  | [] => (s, tg)
  | Act1 a :: l' => match step G a s with Some s' => play_tags G l' s' (tag1 a s tg) | None => play_tags G l' s tg end
  | Go t :: l' => let '(s', tg') := drive_tags G 500 t s tg in play_tags G l' s' tg'
  end.
Definition tagged G (s : sys) (tg : gmap tid tcode) : Prop := forall t c, tg !! t = Some c -> s_th s !! t = Some (code G c).
Lemma tag1_ok G a s s' tg : tagged G s tg -> (step G a s) = Some s' -> s_crash s' = None -> tagged G s' (tag1 a s tg).
Proof.
  intros H. unfold step. destruct (s_crash s) eqn:Ec; [discriminate|]. destruct a as [t| |e]; cbn [tag1].
  - destruct (s_th s !! t) as [p|] eqn:Ep; [|discriminate]. intros Hs Hc.
    destruct p as [[c|]|o k|b k|why]; cbn [tstep] in Hs.
    + injection Hs as <-. intros t' c'. cbn. destruct (decide (t = t')) as [->|Hne]; [rewrite !lookup_insert; congruence|rewrite !lookup_insert_ne by assumption; apply H].
    + injection Hs as <-. intros t' c'. cbn. destruct (decide (t = t')) as [->|Hne]; [rewrite lookup_delete; discriminate|rewrite !lookup_delete_ne by assumption; apply H].
    + intros t' c' Hl. apply lookup_delete_Some in Hl as [Hne Hl]. destruct (ostep t (s_w s) o); try discriminate; injection Hs as <-; cbn; [rewrite lookup_insert_ne by assumption|]; apply H, Hl.
    + intros t' c' Hl. apply lookup_delete_Some in Hl as [Hne Hl]. destruct (valid_api (s_w s) b); try discriminate; injection Hs as <-; cbn; rewrite lookup_insert_ne by assumption; apply H, Hl.
    + intros t' c' Hl. apply lookup_delete_Some in Hl as [Hne Hl]. injection Hs as <-. apply H, Hl.
  - destruct (w_spawn (s_w s)) as [|c rest]; [discriminate|]. intros [= <-] _ t' c'. cbn.
    destruct (decide (s_next s = t')) as [->|Hne]; [rewrite !lookup_insert; congruence|rewrite !lookup_insert_ne by assumption; apply H].
  - destruct e; try (destruct (env_ok _); [|discriminate]; intros [= <-] _; exact H).
    destruct (startable G code); [|discriminate]. intros [= <-] _ t' c'. cbn.
    destruct (decide (s_next s = t')) as [->|Hne]; [rewrite !lookup_insert; congruence|rewrite !lookup_insert_ne by assumption; apply H].
Qed.
Lemma crash_stays G s s' : steps G s s' -> s_crash s' = None -> s_crash s = None.
Proof.
  intros H. induction H as [|s1 s2 s3 [a Ha] _ IH]; [auto|]. intros Hc. unfold step in Ha. destruct (s_crash s1); [discriminate|reflexivity].
Qed.
Lemma drive_tags_ok G n t s tg : fst (drive_tags G n t s tg) = drive G n t s /\
  (s_crash (drive G n t s) = None -> tagged G s tg -> tagged G (drive G n t s) (snd (drive_tags G n t s tg))).
Proof.
  revert s tg. induction n as [|n IH]; intros s tg; [split; auto|]. cbn [drive drive_tags]. destruct (step G (Step t) s) as [s'|] eqn:E; [|split; auto].
  destruct (IH s' (tag1 (Step t) s tg)) as [H1 H2]. split; [exact H1|]. intros Hc H. apply H2; [exact Hc|]. eapply tag1_ok; [exact H|exact E|].
  eapply crash_stays; [apply drive_steps|exact Hc].
Qed.
Lemma play_tags_ok G l s tg : s_crash (play G l s) = None -> tagged G s tg ->
  tagged G (play G l s) (snd (play_tags G l s tg)).
Proof.
  revert s tg. induction l as [|[a|t] l IH]; intros s tg Hc H; cbn [play play_tags] in *; [exact H| |].
  - destruct (step G a s) as [s'|] eqn:E; cbn in *; [|apply IH; assumption]. apply IH; [exact Hc|]. eapply tag1_ok; [exact H|exact E|].
    eapply crash_stays; [apply play_steps|exact Hc].
  - destruct (drive_tags_ok G 500 t s tg) as [H1 H2]. destruct (drive_tags G 500 t s tg) as [s' tg']. cbn [fst snd] in *. subst s'. apply IH; [exact Hc|].
    apply H2; [|exact H]. eapply crash_stays; [apply play_steps|exact Hc].
Qed.
Lemma idle_list G l t :
  (let '(s, tg) := play_tags G l (init G) {[0 := TServer]} in
   match s_crash s with None => true | _ => false end && forallb (fun t' => Nat.eqb t' t || match tg !! t' with Some _ => true | None => false end) (elements (dom (s_th s)))) = true ->
  others_idle G (play G l (init G)) t.
Proof.
  assert (E : fst (play_tags G l (init G) {[0 := TServer]}) = play G l (init G)).
  { generalize (init G) as s, ({[0 := TServer]} : gmap tid tcode) as tg. induction l as [|[a|t'] l IH]; intros s tg; cbn [play play_tags]; [reflexivity| |].
    - destruct (step G a s); apply IH.
    - pose proof (proj1 (drive_tags_ok G 500 t' s tg)) as E. destruct (drive_tags G 500 t' s tg) as [s' tg']. cbn in E. subst s'. apply IH. }
  pose proof (play_tags_ok G l (init G) {[0 := TServer]}) as Ht. rewrite <- E in Ht |- *.
  destruct (play_tags G l (init G) {[0 := TServer]}) as [s tg]. cbn [fst snd] in *.
  rewrite andb_true_iff, forallb_forall. intros [Hc Hb] t' p Hp Hne.
  destruct (s_crash s) eqn:Ec; [discriminate|]. specialize (Ht eq_refl).
  assert (H0 : tagged G (init G) {[0 := TServer]}).
  { intros t0 c0 H. apply lookup_singleton_Some in H as [<- <-]. cbn. apply lookup_singleton. }
  specialize (Ht H0). specialize (Hb t'). rewrite orb_true_iff, Nat.eqb_eq in Hb. destruct Hb as [Hb|Hb]; [|contradiction|].
  - apply elem_of_list_In, elem_of_elements, elem_of_dom. eauto.
  - match type of Hb with match ?x with _ => _ end = true => destruct x as [c|] eqn:Et end; [|discriminate Hb]. exists c. rewrite (Ht _ _ Et) in Hp. congruence.
Qed.
Lemma nobody_waits w : forallb (fun e : cid * conn => bool_decide (c_waiting (snd e) = ∅)) (map_to_list (w_conns w)) = true ->
  forall c tok ch, c_waiting (conn_of w c) !! tok <> Some ch.
Proof.
  intros H c tok ch. unfold conn_of. destruct (w_conns w !! c) as [k|] eqn:E; cbn; [|rewrite lookup_empty; discriminate].
  rewrite forallb_forall in H. specialize (H (c, k)). cbn in H. rewrite bool_decide_eq_true in H. rewrite H; [rewrite lookup_empty; discriminate|].
  apply elem_of_list_In, elem_of_map_to_list, E.
Qed.
Definition first_op {A} (p : prog A) : option op := match p with Do o _ => Some o | _ => None end.
Lemma at_op_first s t o : match s_th s !! t with Some p => first_op p | None => None end = Some o -> at_op s t o.
Proof. destruct (s_th s !! t) as [[]|] eqn:E; try discriminate. cbn. intros [= <-]. eexists. exact E. Qed.
Lemma no_reader G s : forallb (fun e : tid * prog (option tcode) => match first_op (snd e) with Some (ORead _) => false | _ => true end) (map_to_list (s_th s)) = true ->
  forall c ch t, s_th s !! t <> Some (code G (TReadNext c ch)).
Proof.
  intros H c ch t E. rewrite forallb_forall in H. specialize (H (t, code G (TReadNext c ch))). cbn in H. discriminate H.
  apply elem_of_list_In, elem_of_map_to_list, E.
Qed.
Lemma has_conn_b w c : valid_conn w c = true -> is_Some (w_conns w !! c).
Proof. unfold valid_conn. destruct (w_conns w !! c); [eauto|discriminate]. Qed.
Ltac at_op_tac := apply at_op_first; vm_compute; reflexivity.
Ltac idle_tac := apply idle_list; vm_compute; reflexivity.

(** The tokens of the Asks made so far, newest first. *)
Definition asks (l : list event) : list string := flat_map (fun e => match e with LAsk _ tok => [tok] | _ => [] end) l.

(*@exl A client asks ([hello_msg] with token "$7") and another goroutine closes the
    connection: the Ask never returns. @*)
Lemma x_C25_example : let s := play deserted deserted_run (init deserted) in
  user_app (fun _ => True) deserted /\ reachable deserted s /\ c_closed (conn_of (s_w s) 2) = true /\
  asks (w_log (s_w s)) = ["$7"; "$0"] /\ answers (w_log (s_w s)) = [("$0", "", false)] /\
  others_idle deserted s 4 /\ at_op s 4 (OSelect 4 None) /\ stuck deserted s 4.
Proof.
  cbv zeta. assert (Hr : reachable deserted (play deserted deserted_run (init deserted))) by apply play_reachable.
  assert (Hi : others_idle deserted (play deserted deserted_run (init deserted)) 4) by idle_tac.
  assert (Ha : at_op (play deserted deserted_run (init deserted)) 4 (OSelect 4 None)) by at_op_tac.
  split; [exact deserted_app|]. split; [exact Hr|]. split; [vm_compute; reflexivity|]. split; [vm_compute; reflexivity|]. split; [vm_compute; reflexivity|]. split; [exact Hi|]. split; [exact Ha|].
  apply (l_C25_refuted deserted _ 4 4 deserted_app Hr Hi Ha).
  - vm_compute. repeat constructor.
  - vm_compute. reflexivity.
  - intros c tok. apply nobody_waits. vm_compute. reflexivity.
  - intros tok. replace (s_waiting _) with (∅ : gmap string chid) by (vm_compute; reflexivity). rewrite lookup_empty. discriminate.
  - intros c. replace (w_spawn _) with (@nil tcode) by (vm_compute; reflexivity). apply not_elem_of_nil.
  - intros c t'. apply no_reader. vm_compute. reflexivity.
Qed.

(*@prop C27 is violated by Server.Ask.  A reply is put into the channel of a
    Server.Ask that has given up (capacity 0, server.go:559): the reader
    ([t] is at the send of conn.go:437) is blocked for ever. @*)
Lemma l_C27_server_refuted : forall (G : cfg) (s : sys) (t : tid) (ch : chid) (k : nat),
  user_app (fun _ => True) G -> reachable G s -> others_idle G s t ->
  at_op s t (OChSent ch k) ->
  ch < w_next (s_w s) -> ch_cap (chan_of (s_w s) ch) = 0 -> ch_taken (chan_of (s_w s) ch) < k ->
  stuck G s t.
Proof.
  intros G s t ch k HA Hs Ho [q Hk] H1 H2 H3. apply (idle_inert G (full_chan ch k) s t _ Hs Hk).
  - split; [exact H1|]. auto.
  - intros t' p Hp Hne. destruct (Ho t' p Hp Hne) as [c ->]. exists c. split; [reflexivity|exact I].
  - apply fc_disciplined; [exact HA|]. intros t' p Hp. apply lookup_singleton_Some in Hp as [_ <-]. eauto.
Qed.

(** The server asks with token "7" and gives up; then the client replies. *)
Definition impatient : cfg := scene true (fun _ => call (AServerAsk (Some 1) hello_msg)).
Definition impatient_run : list cmd :=
  [Go 0; Act1 (Env (ECtxNew 1 None)); Act1 (Env (EGo (TUpgrade 1))); Go 1; Act1 Start; Go 0; Go 2; Act1 (Env (EDeliver 1 TextMessage "M")); Go 2;
   Act1 (Env (EDeliver 1 TextMessage "$1;chat;;_OnNamespaceConnect;0;0;")); Go 2;
   Act1 (Env (ETick 7)); Act1 (Env (EGo (TUser 0))); Go 3; Go 0; Go 3; Act1 (Env (ECtxDone 1 EDeadline)); Go 3;
   Act1 (Env (EDeliver 1 TextMessage "7;chat;;echo;0;0;c")); Go 2].
Lemma impatient_app : user_app (fun _ => True) impatient.
Proof. apply scene_app. intros k; cbn; auto. Qed.
(*@exl The reader of connection 1 never handles another message: "7;chat;;echo;0;0;hi" was
    sent, its asker returned, and the reply stops the reader. @*)
Lemma x_C27_server_example : let s := play impatient impatient_run (init impatient) in
  user_app (fun _ => True) impatient /\ reachable impatient s /\
  c_out (conn_of (s_w s) 1) = [(TextMessage, "Aid-1"); (TextMessage, "$1;;;;;;"); (TextMessage, "7;chat;;echo;0;0;hi")] /\
  s_th s !! 3 = None /\ answers (w_log (s_w s)) = [] /\
  others_idle impatient s 2 /\ stuck impatient s 2.
Proof.
  cbv zeta. set (s := play impatient impatient_run (init impatient)).
  assert (Hr : reachable impatient s) by apply play_reachable.
  assert (Hi : others_idle impatient s 2) by idle_tac.
  split; [exact impatient_app|]. split; [exact Hr|]. split; [vm_compute; reflexivity|]. split; [vm_compute; reflexivity|]. split; [vm_compute; reflexivity|]. split; [exact Hi|].
  apply (l_C27_server_refuted impatient s 2 2 1 impatient_app Hr Hi); [at_op_tac| | |].
  - apply Nat.ltb_lt. vm_compute. reflexivity.
  - vm_compute. reflexivity.
  - apply Nat.ltb_lt. vm_compute. reflexivity.
Qed.

(*@prop C31 is violated: a waiter ([t] is at the receive of waiter_once.go:53)
    whose gate was opened before it got there waits for ever. @*)
Lemma l_C31_refuted : forall (G : cfg) (s : sys) (t : tid) (c : cid),
  user_app (fun _ => True) G -> reachable G s -> others_idle G s t ->
  at_op s t (OWRecv c) ->
  is_Some (w_conns (s_w s) !! c) -> w_ready (c_wait (conn_of (s_w s) c)) = true -> w_chclosed (c_wait (conn_of (s_w s) c)) = false ->
  stuck G s t.
Proof.
  intros G s t c HA Hs Ho [q Hk] H1 H2 H3. apply (idle_inert G (missed_gate c) s t _ Hs Hk).
  - split; [exact H1|]. auto.
  - intros t' p Hp Hne. destruct (Ho t' p Hp Hne) as [c' ->]. exists c'. split; [reflexivity|exact I].
  - apply mg_disciplined; [exact HA|]. intros t' p Hp. apply lookup_singleton_Some in Hp as [_ <-]. eauto.
Qed.

(** Dial has found the gate closed; the acknowledgment opens it; Dial goes on
    to wait. *)
Definition dialer : cfg := scene true (fun _ => Ret tt).
Definition dialer_run : list cmd :=
  [Go 0; Act1 (Env (EGo (TDial 2)))] ++ repeat (Act1 (Step 1)) 4 ++
  [Act1 Start; Act1 (Env (EDeliver 2 TextMessage "Aid-1")); Go 2; Go 1].
Lemma dialer_app : user_app (fun _ => True) dialer.
Proof. apply scene_app. intros k; cbn; auto. Qed.
(*@exl The server accepted the client and the client knows it, but Dial never returns. @*)
Lemma x_C31_refuted_example : let s := play dialer dialer_run (init dialer) in
  user_app (fun _ => True) dialer /\ reachable dialer s /\
  c_acked (conn_of (s_w s) 2) = true /\ c_id (conn_of (s_w s) 2) = "id-1" /\ others_idle dialer s 1 /\ stuck dialer s 1.
Proof.
  cbv zeta. set (s := play dialer dialer_run (init dialer)).
  assert (Hr : reachable dialer s) by apply play_reachable.
  assert (Hi : others_idle dialer s 1) by idle_tac.
  split; [exact dialer_app|]. split; [exact Hr|]. split; [vm_compute; reflexivity|]. split; [vm_compute; reflexivity|]. split; [exact Hi|].
  apply (l_C31_refuted dialer s 1 2 dialer_app Hr Hi); [at_op_tac| | |].
  - apply has_conn_b. vm_compute. reflexivity.
  - vm_compute. reflexivity.
  - vm_compute. reflexivity.
Qed.

(*@prop C32 is violated: a reader waits for the process of a namespace ([t] is
    at WaitGroup.Wait, process.go:77) that is marked as done although its
    WaitGroup has not been released (two Connects started it, only the first
    Done counts, process.go:65): it waits for ever. @*)
Lemma l_C32_refuted : forall (G : cfg) (s : sys) (t : tid) (p : pid) (g : nat),
  user_app (fun _ => True) G -> reachable G s -> others_idle G s t ->
  at_op s t (OProcWoken p g) ->
  p < w_next (s_w s) -> p_done (proc_of (s_w s) p) = true -> p_gen (proc_of (s_w s) p) <= g ->
  stuck G s t.
Proof.
  intros G s t p g HA Hs Ho [q Hk] H1 H2 H3. apply (idle_inert G (spent_proc p g) s t _ Hs Hk).
  - split; [exact H1|]. auto.
  - intros t' p' Hp Hne. destruct (Ho t' p' Hp Hne) as [c' ->]. exists c'. split; [reflexivity|exact I].
  - apply sp_disciplined; [exact HA|]. intros t' p' Hp. apply lookup_singleton_Some in Hp as [_ <-]. eauto.
Qed.

(** Two goroutines of a client connect to "chat"; an event for "chat" arrives
    before the replies; both give up. *)
Definition twins : cfg := scene true (fun _ => call (AConnect 2 (Some 1) "chat")).
Definition twins_run : list cmd :=
  [Go 0; Act1 (Env (ECtxNew 1 None)); Act1 (Env (EGo (TDial 2))); Go 1; Act1 Start; Go 2; Act1 (Env (EDeliver 2 TextMessage "Aid-1")); Go 2; Go 1;
   Act1 (Env (EGo (TUser 0))); Go 3; Act1 (Env (ETick 1)); Act1 (Env (EGo (TUser 0))); Go 4;
   Act1 (Env (EDeliver 2 TextMessage ";chat;;echo;0;0;x")); Go 2; Act1 (Env (ECtxDone 1 EDeadline)); Go 3; Go 4].
Lemma twins_app : user_app (fun _ => True) twins.
Proof. apply scene_app. intros k; cbn; auto. Qed.
(*@exl Both Connects have returned; the reader of the client never handles another message. @*)
Lemma x_C32_refuted_example : let s := play twins twins_run (init twins) in
  user_app (fun _ => True) twins /\ reachable twins s /\
  s_th s !! 3 = None /\ s_th s !! 4 = None /\ c_closed (conn_of (s_w s) 2) = false /\ others_idle twins s 2 /\ stuck twins s 2.
Proof.
  cbv zeta. set (s := play twins twins_run (init twins)).
  assert (Hr : reachable twins s) by apply play_reachable.
  assert (Hi : others_idle twins s 2) by idle_tac.
  split; [exact twins_app|]. split; [exact Hr|]. split; [vm_compute; reflexivity|]. split; [vm_compute; reflexivity|]. split; [vm_compute; reflexivity|]. split; [exact Hi|].
  apply (l_C32_refuted twins s 2 1 0 twins_app Hr Hi); [at_op_tac| | |].
  - apply Nat.ltb_lt. vm_compute. reflexivity.
  - vm_compute. reflexivity.
  - apply Nat.leb_le. vm_compute. reflexivity.
Qed.
