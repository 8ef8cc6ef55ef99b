(** * LockProofs.v : calls that block on a lock they hold themselves. *)
From Coq Require Import ZArith.
From stdpp Require Import gmap strings list relations.
From RecordUpdate Require Import RecordUpdate.
From Verif Require Import Go Errors Message World Lang Code Sem Spec_Conn Spec_View Examples Scenes ExecProofs Logic Spec_App Frame Inert Spec_Stuck StuckProofs.
#[local] Arguments Write : simpl never.
#[local] Arguments Close : simpl never.
#[local] Arguments write : simpl never.
#[local] Arguments canWrite : simpl never.
#[local] Arguments forceLeaveAll : simpl never.
#[local] Arguments ostep : simpl never.

(** ** Sequential runs that block *)
Definition blocks {A} (t : tid) (p : prog A) (w : world) (o : op) (P : world -> Prop) : Prop :=
  exists w' k, exec t p w = XBlocked w' o k /\ P w'.
Lemma blocks_bind {A B} t (p : prog A) (f : A -> prog B) w o P : blocks t p w o P -> blocks t (bind p f) w o P.
Proof. intros (w' & k & H & HP). exists w', (fun r => bind (k r) f). rewrite exec_bind, H. auto. Qed.
Lemma blocks_done {A B} t (p : prog A) (f : A -> prog B) w w' a o P : exec t p w = XDone w' a -> blocks t (f a) w' o P -> blocks t (bind p f) w o P.
Proof. intros H (w1 & k & H1 & HP). exists w1, k. rewrite (exec_bind_done _ _ _ _ _ _ H). auto. Qed.
Lemma blocks_op {B} t o1 (f : res o1 -> prog B) w w' r o P : ostep t w o1 = Goes w' r -> blocks t (f r) w' o P -> blocks t (bind (opr o1) f) w o P.
Proof. intros H. apply blocks_done, exec_op, H. Qed.
Lemma blocks_here {B} t o (f : res o -> prog B) w (P : world -> Prop) : ostep t w o = Blocked -> P w -> blocks t (bind (opr o) f) w o P.
Proof. intros H HP. exists w, f. cbn [opr bind exec]. rewrite H. split; [|exact HP]. reflexivity. Qed.

Lemma exec_steps_to G {A} (p : prog A) (f : A -> prog (option tcode)) t w th nx :
  match exec t p w with
  | XBlocked w' o k => steps G (Sys w (<[t := bind p f]> th) nx None) (Sys w' (<[t := Do o (fun r => bind (k r) f)]> th) nx None)
  | XCall w' a k => steps G (Sys w (<[t := bind p f]> th) nx None) (Sys w' (<[t := Call a (fun r => bind (k r) f)]> th) nx None)
  | XDone w' a => steps G (Sys w (<[t := bind p f]> th) nx None) (Sys w' (<[t := f a]> th) nx None)
  | XPanic _ _ => True
  end.
Proof.
  revert w th; induction p as [x|o1 k1 IH|b k1 IH|why]; intros w th; cbn [exec bind]; try apply rtc_refl; [|exact I].
  destruct (ostep t w o1) as [w1 r| |] eqn:E; [|apply rtc_refl|exact I].
  assert (H1 : steps G (Sys w (<[t:=Do o1 (fun r0 => bind (k1 r0) f)]> th) nx None) (Sys w1 (<[t := bind (k1 r) f]> th) nx None)).
  { apply rtc_once. exists (Step t). cbn [step s_crash s_th s_w s_next]. rewrite lookup_insert. cbn [tstep]. rewrite E, insert_insert. reflexivity. }
  specialize (IH r w1 th). destruct (exec t (k1 r) w1); try exact I; (eapply rtc_transitive; [exact H1|exact IH]).
Qed.

(** A goroutine calls the API and the call blocks. *)
Lemma call_blocks G s t a k o (P : world -> Prop) :
  s_crash s = None -> s_th s !! t = Some (Call a k) -> valid_api (s_w s) a = true -> blocks t (impl G a) (s_w s) o P ->
  exists s', steps G s s' /\ at_op s' t o /\ P (s_w s').
Proof.
  intros Hc Ht Hv (w' & q & He & HP). destruct s as [w th nx cr]. cbn in *. subst cr.
  pose proof (exec_steps_to G (impl G a) k t w th nx) as H. rewrite He in H.
  exists (Sys w' (<[t := Do o (fun r => bind (q r) k)]> th) nx None). split; [|split; [eexists; apply lookup_insert|exact HP]].
  eapply rtc_l; [|exact H]. exists (Step t). cbn [step s_crash s_th s_w s_next]. rewrite Ht. cbn [tstep]. rewrite Hv. reflexivity.
Qed.

(** ** DisconnectAll with a broken socket *)
(** [w'] differs from [w] in things that do not matter here. *)
Definition alike (c : cid) (w w' : world) : Prop :=
  (forall c', c_closed (conn_of w' c') = c_closed (conn_of w c') /\ c_sockclosed (conn_of w' c') = c_sockclosed (conn_of w c') /\
     c_wfail (conn_of w' c') = c_wfail (conn_of w c') /\ c_wait (conn_of w' c') = c_wait (conn_of w c') /\
     c_nsmu (conn_of w' c') = c_nsmu (conn_of w c') /\ c_nss (conn_of w' c') = c_nss (conn_of w c')) /\
  (forall c', is_Some (w_conns w !! c') -> is_Some (w_conns w' !! c')) /\
  w_nss w' = w_nss w /\ w_next w <= w_next w'.
Lemma alike_refl c w : alike c w w.
Proof. split; [intros; repeat split|]. auto. Qed.
Lemma alike_trans c w1 w2 w3 : alike c w1 w2 -> alike c w2 w3 -> alike c w1 w3.
Proof.
  intros (A1 & A2 & A3 & A4) (B1 & B2 & B3 & B4). split; [|split; [|split; [congruence|lia]]].
  - intros c'. destruct (A1 c') as (? & ? & ? & ? & ? & ?), (B1 c') as (? & ? & ? & ? & ? & ?). repeat split; congruence.
  - intros c' H. apply B2, A2, H.
Qed.
Lemma alike_broken G c w w' : alike c w w' -> broken G w c -> broken G w' c.
Proof.
  intros (A1 & A2 & _) [B1 B2 B3 B4 B5]. destruct (A1 c) as (E1 & E2 & E3 & E4 & _). split; auto.
  - rewrite E1, E2. exact B3.
  - rewrite E3. exact B4.
  - rewrite E4. exact B5.
Qed.
Lemma alike_conns c w w' : w_conns w' = w_conns w -> w_nss w' = w_nss w -> w_next w <= w_next w' -> alike c w w'.
Proof. intros E1 E2 E3. unfold alike, conn_of. rewrite E1, E2. split; [intros; repeat split|]. auto. Qed.
Lemma alike_upd c c' f w : (forall k, c_closed (f k) = c_closed k /\ c_sockclosed (f k) = c_sockclosed k /\ c_wfail (f k) = c_wfail k /\ c_wait (f k) = c_wait k /\
   c_nsmu (f k) = c_nsmu k /\ c_nss (f k) = c_nss k) -> alike c w (upd_conn c' f w).
Proof.
  intros Hf. split; [|split; [|split; reflexivity]].
  - intros c1. rewrite conn_upd. case_decide; [subst; apply Hf|repeat split].
  - intros c1 H. unfold upd_conn. cbn. destruct (decide (c' = c1)) as [->|Hne]; [rewrite lookup_insert; eauto|rewrite lookup_insert_ne by assumption; exact H].
Qed.

Lemma unwait_ready t c e w : w_ready (c_wait (conn_of w c)) = true -> exec t (unwait c e) w = XDone w tt.
Proof.
  intros H. unfold unwait. cbn [opr bind exec]. change (ostep t w (OWReady c)) with (Goes (R := bool) w (w_ready (c_wait (conn_of w c)))). rewrite H. reflexivity.
Qed.
(** The write fails and closes the connection. *)
Lemma write_closes G t w c b bin o P : broken G w c ->
  blocks t (Close G c) w o P -> blocks t (write G c b bin) w o P.
Proof.
  intros B H. destruct (br_fail _ _ _ B) as (e & He & Hc). destruct (br_open _ _ _ B) as [_ Hs]. unfold write.
  eapply blocks_op; [unfold ostep; rewrite Hs, He; reflexivity|]. cbn beta iota. rewrite Hc. apply blocks_bind, H.
Qed.
Lemma ask_closes G t w c x m nx o P : broken G w c -> (forall w', alike c w w' -> exec t (canWrite G c (set_wait (genWait (IsClient G c) (w_now w)) m)) w' = XDone w' true) ->
  ostep t w (OCtxLate x) = Goes w false -> m_err m = None ->
  (forall w', alike c w w' -> blocks t (Close G c) w' o P) -> blocks t (ask G c x m nx) w o P.
Proof.
  intros B Hcw Hx Hm HC. unfold ask. rewrite (br_mixed _ _ _ B).
  eapply blocks_op; [unfold ostep; rewrite (proj1 (br_open _ _ _ B)); reflexivity|]. cbn beta iota.
  eapply blocks_op; [exact Hx|]. cbn beta iota.
  eapply blocks_op; [reflexivity|]. cbn beta iota. eapply blocks_op; [reflexivity|]. cbv zeta.
  set (w1 := w <| w_chans ::= <[w_next w:=chan0 1]> |> <| w_next ::= S |>).
  assert (A1 : alike c w w1) by (apply alike_conns; [reflexivity|reflexivity|cbn; lia]).
  eapply blocks_op; [reflexivity|]. cbn beta.
  match goal with |- blocks _ _ ?w2 _ _ => assert (A2 : alike c w w2) by (eapply alike_trans; [exact A1|apply alike_conns; [reflexivity|reflexivity|cbn; lia]]); set (w2' := w2) in * end.
  assert (Hrest : forall w3, alike c w w3 -> blocks t (bind (Write G c (set_wait (genWait (IsClient G c) (w_now w)) m)) (fun ok => if negb ok then Ret (no_message, Some EWrite) else
      bind (opr (OSelect (w_next w) x)) (fun r => match r with inl e => bind (opr (OIsClosed c)) (fun closed => Ret (no_message, Some (if closed then EWrite else e)))
        | inr receive => bind (if nx then Ret tt else opr (OWaitDel c (genWait (IsClient G c) (w_now w)))) (fun _ => bind (opr (OLog (LAskReply c (genWait (IsClient G c) (w_now w)) receive nx))) (fun _ => Ret (receive, m_err receive))) end))) w3 o P).
  { intros w3 A3. apply blocks_bind. unfold Write. eapply blocks_done; [apply Hcw, A3|]. cbn beta iota.
    unfold serializeMessage. cbn. rewrite Hm. cbn. destruct (m_isNative m && _); cbn; (apply write_closes; [eapply alike_broken; eassumption|]; apply HC, A3). }
  destruct nx.
  - eapply blocks_done; [reflexivity|]. apply Hrest. eapply alike_trans; [exact A2|]. apply alike_conns; [reflexivity|reflexivity|cbn; lia].
  - eapply blocks_done; [reflexivity|]. apply Hrest. eapply alike_trans; [exact A2|]. apply alike_upd. intros; repeat split.
Qed.

Lemma late_in_time t w x : in_time w x -> ostep t w (OCtxLate x) = Goes w false.
Proof.
  intros H. unfold ostep. destruct x as [k|]; [|reflexivity]. destruct (w_ctxs w !! k) as [xc|] eqn:E; [|reflexivity].
  destruct (x_deadline xc) as [d|] eqn:E1; [|reflexivity]. specialize (H k xc d eq_refl E E1). f_equal. apply Z.ltb_ge. lia.
Qed.
Lemma Is_empty G t c w : exec t (Is G c "") w = XDone w false.
Proof. reflexivity. Qed.
Lemma Ask_closes G t w c x m o P : broken G w c -> (forall w', alike c w w' -> exec t (canWrite G c (set_wait (genWait (IsClient G c) (w_now w)) m)) w' = XDone w' true) ->
  in_time w x -> m_err m = None ->
  (forall w', alike c w w' -> blocks t (Close G c) w' o P) -> blocks t (Ask G c x m) w o P.
Proof. intros. unfold Ask. eapply blocks_op; [reflexivity|]. apply ask_closes; auto. apply late_in_time. assumption. Qed.

(** canWrite of a disconnect message *)
Lemma canWrite_disc G t w c m : broken G w c -> isDisconnect m = true -> m_fromExplicit m = "" -> exec t (canWrite G c m) w = XDone w true.
Proof.
  intros B Hd Hf. unfold canWrite. erewrite exec_bind_done; [|apply exec_op; unfold ostep; rewrite (proj1 (br_open _ _ _ B)); reflexivity]. cbv iota beta.
  erewrite exec_bind_done; [|destruct (IsClient G c) eqn:E; [reflexivity|apply unwait_ready, (br_ready _ _ _ B), E]].
  rewrite Hd, orb_true_r, Hf. reflexivity.
Qed.

Lemma l_disconnectall_blocks G t w c x : broken G w c -> in_time w x -> c_nsmu (conn_of w c) = rw0 -> c_nss (conn_of w c) <> ∅ ->
  blocks t (DisconnectAll G c x) w (ONsLock c) (fun w' => has_conn w' c /\ rw_writer (c_nsmu (conn_of w' c)) = Some t).
Proof.
  intros B Hx Hmu Hne. unfold DisconnectAll. rewrite (br_mixed _ _ _ B).
  eapply blocks_op; [unfold ostep; rewrite Hmu; reflexivity|]. cbv zeta.
  eapply blocks_op; [reflexivity|]. cbv beta.
  rewrite conn_upd, decide_True by reflexivity.
  change (c_nss (conn_of w c <| c_nsmu := RW (Some t) [] |>)) with (c_nss (conn_of w c)).
  match goal with |- blocks _ _ ?w1 _ _ => set (w' := w1) end.
  assert (Hw' : c_nsmu (conn_of w' c) = RW (Some t) []).
  { unfold w', pop_seed; unfold conn_of at 1; cbn; rewrite lookup_insert; reflexivity. }
  assert (Hn' : c_nss (conn_of w' c) = c_nss (conn_of w c)).
  { unfold w', pop_seed; unfold conn_of at 1; cbn; rewrite lookup_insert; reflexivity. }
  assert (B' : broken G w' c).
  { destruct B as [B1 B2 B3 B4 B5]. split; [|exact B2|..].
    - unfold w', pop_seed; cbn; rewrite lookup_insert; eauto.
    - unfold w', pop_seed; unfold conn_of; cbn; rewrite lookup_insert; exact B3.
    - unfold w', pop_seed; unfold conn_of; cbn; rewrite lookup_insert; exact B4.
    - unfold w', pop_seed; unfold conn_of; cbn; rewrite lookup_insert; exact B5. }
  assert (Hx' : in_time w' x).
  { unfold w', pop_seed; exact Hx. }
  clearbody w'. apply blocks_bind.
  pose proof (permute_perm (seed (upd_conn c (λ k, k <| c_nsmu := RW (Some t) [] |>) w)) (map_to_list (c_nss (conn_of w c)))) as Hp.
  destruct (permute _ _) as [|[nm n] l].
  { apply Permutation_nil_l in Hp. exfalso. apply Hne, map_to_list_empty_iff. auto. }
  cbn [for_each]. apply blocks_bind. unfold askDisconnect. cbn [bind].
  eapply blocks_op; [reflexivity|]. cbn [m_namespace fst bind].
  replace (m_namespace (set_namespace nm (set_locked true (set_isLocal true (set_event OnNamespaceDisconnect no_message))))) with nm by reflexivity.
  assert (Hnm : c_nss (conn_of w c) !! nm = Some n) by (apply elem_of_map_to_list; rewrite <- Hp; left).
  rewrite Hn', Hnm. cbv iota beta. apply blocks_bind.
  apply Ask_closes; [exact B'| |exact Hx'|reflexivity|].
  - intros w1 A1. apply canWrite_disc; [eapply alike_broken; eassumption|reflexivity|reflexivity].
  - intros w1 A1. pose proof (alike_broken _ _ _ _ A1 B') as B1. destruct A1 as (A1 & _). destruct (A1 c) as (_ & _ & _ & _ & E & _).
    unfold Close. eapply blocks_op; [unfold ostep; rewrite (proj1 (br_open _ _ _ B1)); reflexivity|]. cbv iota beta.
    rewrite (br_mixed _ _ _ B1). cbn [negb]. cbv zeta. apply blocks_bind.
    match goal with |- blocks _ _ ?w2 _ _ => assert (E2 : c_nsmu (conn_of w2 c) = RW (Some t) []) by (rewrite conn_upd, decide_True by reflexivity; cbn; congruence); assert (Hc2 : has_conn w2 c) by (unfold has_conn, upd_conn; cbn; rewrite lookup_insert; eauto) end.
    apply blocks_here; [unfold ostep; rewrite E2; reflexivity|]. rewrite E2. auto.
Qed.

(*@file Prop_Lock.v
From Coq Require Import ZArith.
From stdpp Require Import gmap strings list relations.
From Verif Require Import Go Errors Message World Lang Code Sem Spec_App Spec_Conn Spec_View Examples Scenes Spec_Stuck StuckProofs LockProofs. @*)
(*@prop C46 is violated by DisconnectAll.  A goroutine calls DisconnectAll on a
    connection with a broken socket and a connected namespace: the Ask fails,
    the failed write closes the connection, and Close wants the lock that
    DisconnectAll holds (conn.go:719, 1020).  The call never returns. @*)
Lemma l_C46_refuted : forall (G : cfg) (s : sys) (t : tid) (c : cid) (x : ctxref) k,
  reachable G s -> s_crash s = None -> s_th s !! t = Some (Call (ADisconnectAll c x) k) ->
  broken G (s_w s) c -> in_time (s_w s) x ->
  c_nsmu (conn_of (s_w s) c) = rw0 -> c_nss (conn_of (s_w s) c) <> ∅ ->
  exists s', steps G s s' /\ stuck G s' t.
Proof.
  intros G s t c x k Hr Hc Ht B Hx Hmu Hne.
  destruct (call_blocks G s t (ADisconnectAll c x) k (ONsLock c) (fun w' => has_conn w' c /\ rw_writer (c_nsmu (conn_of w' c)) = Some t)) as (s' & H1 & H2 & H3 & H4).
  - exact Hc.
  - exact Ht.
  - cbn. unfold valid_conn. destruct (br_there _ _ _ B) as [y ->]. reflexivity.
  - apply l_disconnectall_blocks; assumption.
  - exists s'. split; [exact H1|]. apply (stuck_nsmu G s' t (ONsLock c) c); auto. eapply rtc_transitive; eassumption.
Qed.

(** ** LeaveAll with a broken socket *)
Lemma canWrite_leave G t w c n m : broken G w c -> isConnect m = false -> isDisconnect m = false -> m_locked m = true -> m_fromExplicit m = "" ->
  c_nss (conn_of w c) !! m_namespace m = Some n -> m_room m ∈ o_rooms (ns_of w n) -> exec t (canWrite G c m) w = XDone w true.
Proof.
  intros B H1 H2 Hl Hf Hn Hr. unfold canWrite. erewrite exec_bind_done; [|apply exec_op; unfold ostep; rewrite (proj1 (br_open _ _ _ B)); reflexivity]. cbv iota beta.
  erewrite exec_bind_done; [|destruct (IsClient G c) eqn:E; [reflexivity|apply unwait_ready, (br_ready _ _ _ B), E]].
  rewrite H1, H2, Hl, Hf. cbn [orb].
  assert (E : forall b : bool, exec t (if b then bind (opr (OHasRoom n (m_room m))) (fun ok => Ret ok) else Ret true) w = XDone w true).
  { intros [|]; [|reflexivity]. erewrite exec_bind_done; [|apply exec_op; unfold ostep; rewrite bool_decide_eq_true_2 by exact Hr; reflexivity]. reflexivity. }
  erewrite exec_bind_done; [|].
  2:{ cbn [bind]. erewrite exec_bind_done; [|apply exec_op; unfold ostep; rewrite Hn; reflexivity]. cbv iota beta. exact (E _). }
  reflexivity.
Qed.
Lemma ns_of_alike c w w' n : alike c w w' -> ns_of w' n = ns_of w n.
Proof. intros (_ & _ & E & _). unfold ns_of. rewrite E. reflexivity. Qed.

Lemma leaveall_blocks G t w n x : broken G w (n_conn n) -> in_time w x -> n_id n < w_next w ->
  c_nsmu (conn_of w (n_conn n)) = rw0 -> c_nss (conn_of w (n_conn n)) = {[n_name n := n]} ->
  o_mu (ns_of w n) = rw0 -> o_rooms (ns_of w n) <> ∅ ->
  blocks t (LeaveAll G (Some n) x) w (ORoomLock n) (fun w' => n_id n < w_next w' /\ rw_writer (o_mu (ns_of w' n)) = Some t).
Proof.
  intros B Hx Hid Hmu Hnss Hrm Hne. unfold LeaveAll.
  eapply blocks_op; [unfold ostep; rewrite Hrm; reflexivity|]. cbv zeta.
  eapply blocks_op; [reflexivity|]. cbv beta.
  rewrite ns_upd, decide_True by reflexivity.
  change (o_rooms (ns_of w n <| o_mu := RW (Some t) [] |>)) with (o_rooms (ns_of w n)).
  match goal with |- blocks _ _ ?w1 _ _ => set (w' := w1) end.
  assert (Hw' : ns_of w' n = ns_of w n <| o_mu := RW (Some t) [] |>).
  { unfold w', pop_seed, upd_ns. unfold ns_of at 1. cbn. rewrite lookup_insert. reflexivity. }
  assert (Hc' : forall c', conn_of w' c' = conn_of w c') by reflexivity.
  assert (B' : broken G w' (n_conn n)) by (destruct B; split; assumption).
  assert (Hx' : in_time w' x) by exact Hx.
  assert (Hid' : n_id n < w_next w') by exact Hid.
  clearbody w'. apply blocks_bind.
  pose proof (permute_perm (seed (upd_ns n (λ k, k <| o_mu := RW (Some t) [] |>) w)) (elements (o_rooms (ns_of w n)))) as Hp.
  destruct (permute _ _) as [|r l].
  { apply Permutation_nil_l in Hp. exfalso. apply Hne, leibniz_equiv, elements_empty_iff. auto. }
  assert (Hr : r ∈ o_rooms (ns_of w n)) by (apply elem_of_elements; rewrite <- Hp; left).
  cbn [for_each]. apply blocks_bind. unfold askRoomLeave. cbn [bind].
  eapply blocks_op; [unfold ostep; rewrite Hw', bool_decide_eq_true_2 by exact Hr; reflexivity|]. cbn [negb bind]. apply blocks_bind.
  apply Ask_closes; [exact B'| |exact Hx'|reflexivity|].
  - intros w1 A1. apply (canWrite_leave G t w1 (n_conn n) n); try reflexivity.
    + eapply alike_broken; eassumption.
    + destruct A1 as (A1 & _). destruct (A1 (n_conn n)) as (_ & _ & _ & _ & _ & E). rewrite E, Hc', Hnss. apply lookup_singleton.
    + rewrite (ns_of_alike _ _ _ _ A1), Hw'. exact Hr.
  - intros w1 A1. pose proof (alike_broken _ _ _ _ A1 B') as B1. pose proof (ns_of_alike _ _ _ n A1) as En.
    destruct A1 as (A1 & _ & _ & Hlt). destruct (A1 (n_conn n)) as (_ & _ & _ & _ & E & E').
    unfold Close. eapply blocks_op; [unfold ostep; rewrite (proj1 (br_open _ _ _ B1)); reflexivity|]. cbv iota beta.
    rewrite (br_mixed _ _ _ B1). cbn [negb]. cbv zeta. apply blocks_bind.
    eapply blocks_op; [unfold ostep; rewrite conn_upd, decide_True by reflexivity; change (c_nsmu (conn_of w1 (n_conn n) <| c_closed := true |>)) with (c_nsmu (conn_of w1 (n_conn n))); rewrite E, Hc', Hmu; reflexivity|].
    eapply blocks_op; [reflexivity|]. rewrite !conn_upd, !decide_True by reflexivity.
    match goal with |- context [map_to_list ?x] => replace x with ({[n_name n := n]} : gmap string nsref) by (cbn; rewrite E', Hc', Hnss; reflexivity) end.
    rewrite map_to_list_singleton. match goal with |- context [permute ?k [?e]] => replace (permute k [e]) with [e] by (symmetry; apply Permutation_singleton_r, permute_perm) end.
    cbn [for_all]. apply blocks_bind. cbv iota beta. apply blocks_bind. apply blocks_bind. unfold forceLeaveAll.
    match goal with |- blocks _ _ ?w2 _ _ => assert (E2 : ns_of w2 n = ns_of w1 n) by reflexivity; assert (E3 : w_next w2 = w_next w1) by reflexivity end.
    apply blocks_here; [unfold ostep; rewrite E2, En, Hw'; reflexivity|]. rewrite E2, E3, En, Hw'. split; [lia|reflexivity].
Qed.
(*@prop C46 is violated by LeaveAll too: here Close wants the lock of the rooms
    (conn_namespace.go:131, 147).  For simplicity [n] is the only connected
    namespace. @*)
Lemma l_C46_leave_refuted : forall (G : cfg) (s : sys) (t : tid) (n : nsref) (x : ctxref) k,
  reachable G s -> s_crash s = None -> s_th s !! t = Some (Call (ALeaveAll (Some n) x) k) ->
  valid_ns (s_w s) n = true -> n_id n < w_next (s_w s) ->
  broken G (s_w s) (n_conn n) -> in_time (s_w s) x ->
  c_nsmu (conn_of (s_w s) (n_conn n)) = rw0 -> c_nss (conn_of (s_w s) (n_conn n)) = {[n_name n := n]} ->
  o_mu (ns_of (s_w s) n) = rw0 -> o_rooms (ns_of (s_w s) n) <> ∅ ->
  exists s', steps G s s' /\ stuck G s' t.
Proof.
  intros G s t n x k Hr Hc Ht Hv Hid B Hx H1 H2 H3 H4.
  destruct (call_blocks G s t (ALeaveAll (Some n) x) k (ORoomLock n) (fun w' => n_id n < w_next w' /\ rw_writer (o_mu (ns_of w' n)) = Some t)) as (s' & H5 & H6 & H7 & H8).
  - exact Hc.
  - exact Ht.
  - exact Hv.
  - apply leaveall_blocks; assumption.
  - exists s'. split; [exact H5|]. apply (stuck_romu G s' t (ORoomLock n) n n); auto. eapply rtc_transitive; eassumption.
Qed.

(** ** Callbacks of a forced leave *)
Lemma query_blocks G t w n a : room_query n a -> rw_writer (o_mu (ns_of w n)) = Some t ->
  exists o, (o = ORoomLock n \/ o = ORoomRLock n) /\ blocks t (impl G a) w o (fun w' => w' = w).
Proof.
  intros Hq Hw.
  assert (Hl : ostep t w (ORoomLock n) = Blocked) by (unfold ostep, rw_can_lock; rewrite Hw; reflexivity).
  assert (Hrl : ostep t w (ORoomRLock n) = Blocked) by (unfold ostep, rw_can_rlock; rewrite Hw; reflexivity).
  destruct Hq as [->|[(r & ->)|[(x & r & ->)|[(x & ->)|(x & r & ->)]]]].
  - exists (ORoomRLock n). split; [auto|]. apply blocks_here; auto.
  - exists (ORoomRLock n). split; [auto|]. apply blocks_here; auto.
  - exists (ORoomRLock n). split; [auto|]. apply blocks_here; auto.
  - exists (ORoomLock n). split; [auto|]. apply blocks_here; auto.
  - exists (ORoomRLock n). split; [auto|]. cbn [impl]. unfold RoomLeave, askRoomLeave. apply blocks_here; auto.
Qed.

(** Sequential runs up to the first call of the API by a callback *)
Definition calls {A} (t : tid) (p : prog A) (w : world) (P : world -> api -> Prop) : Prop :=
  exists w' a k, exec t p w = XCall w' a k /\ P w' a.
Lemma calls_bind {A B} t (p : prog A) (f : A -> prog B) w P : calls t p w P -> calls t (bind p f) w P.
Proof. intros (w' & a & k & H & HP). exists w', a, (fun r => bind (k r) f). rewrite exec_bind, H. auto. Qed.
Lemma calls_done {A B} t (p : prog A) (f : A -> prog B) w w' a P : exec t p w = XDone w' a -> calls t (f a) w' P -> calls t (bind p f) w P.
Proof. intros H (w1 & b & k & H1 & HP). exists w1, b, k. rewrite (exec_bind_done _ _ _ _ _ _ H). auto. Qed.
Lemma calls_op {B} t o1 (f : res o1 -> prog B) w w' r P : ostep t w o1 = Goes w' r -> calls t (f r) w' P -> calls t (bind (opr o1) f) w P.
Proof. intros H. apply calls_done, exec_op, H. Qed.

(** The application calls [a0], whose callback calls [a], which blocks. *)
Lemma call_call_blocks G s t a0 k (P : world -> api -> Prop) (Q : op -> world -> Prop) :
  s_crash s = None -> s_th s !! t = Some (Call a0 k) -> valid_api (s_w s) a0 = true -> calls t (impl G a0) (s_w s) P ->
  (forall w a, P w a -> valid_api w a = true /\ exists o, blocks t (impl G a) w o (Q o)) ->
  exists s' o, steps G s s' /\ at_op s' t o /\ Q o (s_w s').
Proof.
  intros Hc Ht Hv (w' & a & q & He & HP) HQ. destruct s as [w th nx cr]. cbn in *. subst cr.
  pose proof (exec_steps_to G (impl G a0) k t w th nx) as H. rewrite He in H.
  destruct (HQ _ _ HP) as (Hva & o & Hb).
  set (s1 := Sys w' (<[t := Call a (fun r => bind (q r) k)]> th) nx None) in H.
  destruct (call_blocks G s1 t a (fun r => bind (q r) k) o (Q o)) as (s' & H1 & H2 & H3); [reflexivity|apply lookup_insert|exact Hva|exact Hb|].
  exists s', o. split; [|auto]. eapply rtc_l; [|eapply rtc_transitive; [exact H|exact H1]].
  exists (Step t). cbn [step s_crash s_th s_w s_next]. rewrite Ht. cbn [tstep]. rewrite Hv. reflexivity.
Qed.

(** forceLeaveAll calls the callback while it holds the lock. *)
Lemma forceLeaveAll_calls G t w n b h : o_mu (ns_of w n) = rw0 -> o_rooms (ns_of w n) <> ∅ ->
  ns_events G n !! OnRoomLeave = Some h -> (forall m, exists a q, h n m = Call a q /\ room_query n a) ->
  calls t (forceLeaveAll G n b) w (fun w' a => room_query n a /\ rw_writer (o_mu (ns_of w' n)) = Some t /\ w_next w' = w_next w /\ w_conns w' = w_conns w /\
     o_ref (ns_of w' n) = o_ref (ns_of w n) /\ is_Some (w_nss w' !! n_id n)).
Proof.
  intros Hmu Hne Hh Hq. unfold forceLeaveAll. eapply calls_op; [unfold ostep; rewrite Hmu; reflexivity|]. cbv beta.
  eapply calls_op; [reflexivity|]. cbv zeta beta. rewrite ns_upd, decide_True by reflexivity.
  change (o_rooms (ns_of w n <| o_mu := RW (Some t) [] |>)) with (o_rooms (ns_of w n)).
  match goal with |- context [permute ?k ?l] => pose proof (permute_perm k l) as Hp; destruct (permute k l) as [|r l'] end.
  { apply Permutation_nil_l in Hp. exfalso. apply Hne, leibniz_equiv, elements_empty_iff. auto. }
  apply calls_bind. cbn [for_all]. apply calls_bind. apply calls_bind. unfold fireEvent.
  match goal with |- context [m_event (set_event ?e ?m)] => change (m_event (set_event e m)) with e end. rewrite Hh.
  eapply calls_op; [reflexivity|]. cbv beta.
  match goal with |- calls t (h n ?m) ?w1 _ => destruct (Hq m) as (a & q & -> & Ha); exists w1, a, q; split; [reflexivity|]; split; [exact Ha|]; set (w2 := w1) end.
  assert (E : w_nss w2 !! n_id n = Some (ns_of w n <| o_mu := RW (Some t) [] |>)) by apply lookup_insert.
  assert (En : ns_of w2 n = ns_of w n <| o_mu := RW (Some t) [] |>) by (unfold ns_of at 1; rewrite E; reflexivity).
  rewrite En, E. repeat split; try reflexivity. eauto.
Qed.

(*@prop C47 is violated.  A connection with the single connected namespace [n]
    is closed while [n] has rooms, and the OnRoomLeave callback of [n] looks at
    the rooms of [n]: the callback runs while Close holds the lock of the rooms
    (conn_namespace.go:147), so it never returns, and neither does Close. @*)
Lemma l_C47_refuted : forall (G : cfg) (s : sys) (t : tid) (n : nsref) k h,
  reachable G s -> s_crash s = None -> s_th s !! t = Some (Call (AClose (n_conn n)) k) ->
  valid_ns (s_w s) n = true -> n_id n < w_next (s_w s) -> onlyNative G (n_conn n) = false -> c_closed (conn_of (s_w s) (n_conn n)) = false ->
  c_nsmu (conn_of (s_w s) (n_conn n)) = rw0 -> c_nss (conn_of (s_w s) (n_conn n)) = {[n_name n := n]} ->
  o_mu (ns_of (s_w s) n) = rw0 -> o_rooms (ns_of (s_w s) n) <> ∅ ->
  ns_events G n !! OnRoomLeave = Some h -> (forall m, exists a q, h n m = Call a q /\ room_query n a) ->
  exists s', steps G s s' /\ stuck G s' t.
Proof.
  intros G s t n k h Hr Hc Ht Hv Hid Hnat Hcl Hmu Hnss Hrm Hne Hh Hq.
  destruct (call_call_blocks G s t (AClose (n_conn n)) k
    (fun w' a => room_query n a /\ rw_writer (o_mu (ns_of w' n)) = Some t /\ n_id n < w_next w' /\ valid_ns w' n = true)
    (fun o w' => (o = ORoomLock n \/ o = ORoomRLock n) /\ rw_writer (o_mu (ns_of w' n)) = Some t /\ n_id n < w_next w')) as (s' & o & H1 & H2 & H3 & H4 & H5).
  - exact Hc.
  - exact Ht.
  - unfold valid_ns in Hv. apply andb_true_iff in Hv as [Hv _]. exact Hv.
  - cbn [impl]. unfold Close. set (w := s_w s) in *.
    eapply calls_op; [unfold ostep; rewrite Hcl; reflexivity|]. cbv iota beta. rewrite Hnat. cbn [negb]. cbv zeta. apply calls_bind.
    eapply calls_op; [unfold ostep; rewrite conn_upd, decide_True by reflexivity; change (c_nsmu (conn_of w (n_conn n) <| c_closed := true |>)) with (c_nsmu (conn_of w (n_conn n))); rewrite Hmu; reflexivity|].
    eapply calls_op; [reflexivity|]. rewrite !conn_upd, !decide_True by reflexivity.
    match goal with |- context [map_to_list ?x] => replace x with ({[n_name n := n]} : gmap string nsref) by (cbn; rewrite Hnss; reflexivity) end.
    rewrite map_to_list_singleton. match goal with |- context [permute ?k [?e]] => replace (permute k [e]) with [e] by (symmetry; apply Permutation_singleton_r, permute_perm) end.
    cbn [for_all]. apply calls_bind. cbv iota beta. apply calls_bind. apply calls_bind.
    match goal with |- calls _ _ ?w2 _ => assert (Hcn : is_Some (w_conns w2 !! n_conn n)) by (cbn; rewrite lookup_insert; eauto); set (w' := w2) in * end.
    assert (Hnn : ns_of w' n = ns_of w n) by reflexivity. assert (Hns : w_nss w' = w_nss w) by reflexivity. assert (Hnx : w_next w' = w_next w) by reflexivity. clearbody w'.
    destruct (forceLeaveAll_calls G t w' n true h) as (w1 & a & q & He & Ha & Hw & Hn1 & Hcs & Href & Hs); try assumption; try (rewrite Hnn; assumption).
    exists w1, a, q. split; [exact He|]. split; [exact Ha|]. split; [exact Hw|]. split; [lia|].
    unfold valid_ns in *. apply andb_true_iff in Hv as [_ Hv]. apply andb_true_iff. split.
    + unfold valid_conn. rewrite Hcs. destruct Hcn as [? ->]. reflexivity.
    + destruct Hs as [o1 Ho1]. unfold ns_of in Href at 1. rewrite Hnn in Href. unfold ns_of in Href. rewrite Ho1 in Href |- *. destruct (w_nss w !! n_id n) as [o2|]; [|discriminate]. cbn in Href. rewrite Href. exact Hv.
  - intros w a (Ha & Hw & Hlt & Hva). split.
    + destruct Ha as [->|[(r & ->)|[(x & r & ->)|[(x & ->)|(x & r & ->)]]]]; exact Hva.
    + destruct (query_blocks G t w n a Ha Hw) as (o & Ho & w' & q & Hb & ->). exists o, w, q. auto.
  - exists s'. split; [exact H1|]. apply (stuck_romu G s' t o n n); auto. eapply rtc_transitive; eassumption.
Qed.

(** ** Concrete runs *)
Lemma go_user G k s : s_crash s = None -> exists s', step G (Env (EGo (TUser k))) s = Some s' /\ s_w s' = s_w s /\ s_crash s' = None /\
  s_th s' !! s_next s = Some (code G (TUser k)).
Proof. intros H. exists (spawn G (TUser k) s). unfold step. rewrite H. split; [reflexivity|]. split; [reflexivity|]. split; [exact H|]. apply lookup_insert. Qed.
Definition brokenb (G : cfg) (w : world) (c : cid) : bool :=
  match w_conns w !! c with Some _ => true | None => false end && negb (onlyNative G c) && negb (c_closed (conn_of w c)) && negb (c_sockclosed (conn_of w c)) &&
  match c_wfail (conn_of w c) with Some e => is_close_error (Some e) | None => false end && (g_client G c || w_ready (c_wait (conn_of w c))).
Lemma brokenb_ok G w c : brokenb G w c = true -> broken G w c.
Proof.
  unfold brokenb. rewrite !andb_true_iff, !negb_true_iff, orb_true_iff. intros (((((H1 & H2) & H3) & H4) & H5) & H6). split; auto.
  - destruct (w_conns w !! c); [eauto|discriminate].
  - destruct (c_wfail (conn_of w c)) as [e|]; [eauto|discriminate].
  - intros Hc. destruct H6 as [H6|H6]; [congruence|exact H6].
Qed.

(** Connection 1 has joined room "open" of namespace "chat"; then its socket breaks. *)
Definition the_chat : nsref := NsRef 1 "chat" 1.
Definition snapped : cfg := scene true (fun k => match k with 0 => call (ADisconnectAll 1 None) | _ => call (ALeaveAll (Some the_chat) None) end).
Definition snapped_run : list cmd :=
  [Go 0; Act1 (Env (EGo (TUpgrade 1))); Go 1; Act1 Start; Go 0; Go 2; Act1 (Env (EDeliver 1 TextMessage "M")); Go 2;
   Act1 (Env (EDeliver 1 TextMessage "$1;chat;;_OnNamespaceConnect;0;0;")); Go 2;
   Act1 (Env (EDeliver 1 TextMessage "$2;chat;open;_OnRoomJoin;0;0;")); Go 2;
   Act1 (Env (EWriteFail 1 EEOF))].
Lemma single_of_list {V} (m : gmap string V) k v : map_to_list m = [(k, v)] -> m = {[k := v]}.
Proof. intros H. rewrite <- (list_to_map_to_list m), H. reflexivity. Qed.
Lemma snapped_app : user_app (fun _ => True) snapped.
Proof. apply scene_app. intros [|k]; cbn; auto. Qed.
Lemma snapped_broken : broken snapped (s_w (play snapped snapped_run (init snapped))) 1.
Proof. apply brokenb_ok. vm_compute. reflexivity. Qed.
(*@exl The application then calls DisconnectAll (goroutine 0 of the application)
    or LeaveAll (1): it never returns. @*)
Lemma x_C46_example : let s := play snapped snapped_run (init snapped) in
  user_app (fun _ => True) snapped /\ reachable snapped s /\ c_nss (conn_of (s_w s) 1) = {["chat" := the_chat]} /\ o_rooms (ns_of (s_w s) the_chat) = {["open"]} /\
  broken snapped (s_w s) 1 /\
  (forall k, exists s1 t s2, step snapped (Env (EGo (TUser k))) s = Some s1 /\ s_th s1 !! t = Some (code snapped (TUser k)) /\ steps snapped s1 s2 /\ stuck snapped s2 t).
Proof.
  cbv zeta. set (s := play snapped snapped_run (init snapped)).
  assert (Hr : reachable snapped s) by apply play_reachable.
  assert (Hn : c_nss (conn_of (s_w s) 1) = {["chat" := the_chat]}) by (apply single_of_list; vm_compute; reflexivity).
  assert (Ho : o_rooms (ns_of (s_w s) the_chat) = {["open"]}) by decide_eq.
  assert (B : broken snapped (s_w s) 1) by exact snapped_broken.
  assert (Hc : s_crash s = None) by (vm_compute; reflexivity).
  assert (Hm : c_nsmu (conn_of (s_w s) 1) = rw0) by (vm_compute; reflexivity).
  assert (Hm2 : o_mu (ns_of (s_w s) the_chat) = rw0) by (vm_compute; reflexivity).
  assert (Hv : valid_ns (s_w s) the_chat = true) by (vm_compute; reflexivity).
  assert (Hid : n_id the_chat < w_next (s_w s)) by (apply Nat.ltb_lt; vm_compute; reflexivity).
  assert (Hx : in_time (s_w s) None) by (intros ? ? ? [=]).
  split; [exact snapped_app|]. split; [exact Hr|]. split; [exact Hn|]. split; [exact Ho|]. split; [exact B|].
  intros k. destruct (go_user snapped k s Hc) as (s1 & H1 & H2 & H3 & H4). clearbody s.
  assert (Hr1 : reachable snapped s1) by (eapply rtc_r; [exact Hr|]; exists (Env (EGo (TUser k))); exact H1).
  rewrite <- H2 in *.
  destruct k as [|k].
  - destruct (l_C46_refuted snapped s1 (s_next s) 1 None (fun _ => Ret None)) as (s2 & H5 & H6); [exact Hr1|exact H3|exact H4|exact B|exact Hx|exact Hm|rewrite Hn; apply insert_non_empty|].
    + exists s1, (s_next s), s2. auto.
  - destruct (l_C46_leave_refuted snapped s1 (s_next s) the_chat None (fun _ => Ret None)) as (s2 & H5 & H6); [exact Hr1|exact H3|exact H4|exact Hv|exact Hid|exact B|exact Hx|exact Hm|exact Hn|exact Hm2|rewrite Ho; apply non_empty_singleton_L|].
    + exists s1, (s_next s), s2. auto.
Qed.

(** The OnRoomLeave callback of "chat" asks for the rooms that are left. *)
Definition nosy : cfg := {|
  g_client := fun c => Nat.eqb c 2;
  g_namespaces := fun _ => {["chat" := {[OnRoomLeave := fun n m => Call (ARooms (Some n)) (fun _ => Ret None)]}]};
  g_connid := fun c => "id-1";
  g_uuid := "u";
  g_ptr := fun c => "0x1";
  g_known := knownErrors0;
  g_exch := None;
  g_sync := true;
  g_firealways := false;
  g_onconnect := None;
  g_ondisconnect := None;
  g_do := fun _ _ => Ret tt;
  g_user := fun _ => call (AClose 1) |}.
Definition nosy_run : list cmd :=
  [Go 0; Act1 (Env (EGo (TUpgrade 1))); Go 1; Act1 Start; Go 0; Go 2; Act1 (Env (EDeliver 1 TextMessage "M")); Go 2;
   Act1 (Env (EDeliver 1 TextMessage "$1;chat;;_OnNamespaceConnect;0;0;")); Go 2;
   Act1 (Env (EDeliver 1 TextMessage "$2;chat;open;_OnRoomJoin;0;0;")); Go 2].
Lemma nosy_app : user_app (fun _ => True) nosy.
Proof.
  constructor; try discriminate; try (intros; exact I); [|cbn; auto].
  intros c ns evs ev h n m H1 H2. cbn in H1. apply lookup_singleton_Some in H1 as [<- <-]. apply lookup_singleton_Some in H2 as [<- <-]. cbn. auto.
Qed.
(*@exl The connection is in room "open"; the application closes it: Close never returns. @*)
Lemma x_C47_example : let s := play nosy nosy_run (init nosy) in
  user_app (fun _ => True) nosy /\ reachable nosy s /\ c_nss (conn_of (s_w s) 1) = {["chat" := the_chat]} /\ o_rooms (ns_of (s_w s) the_chat) = {["open"]} /\
  exists s1 t s2, step nosy (Env (EGo (TUser 0))) s = Some s1 /\ s_th s1 !! t = Some (code nosy (TUser 0)) /\ steps nosy s1 s2 /\ stuck nosy s2 t.
Proof.
  cbv zeta. set (s := play nosy nosy_run (init nosy)).
  assert (Hr : reachable nosy s) by apply play_reachable.
  assert (Hn : c_nss (conn_of (s_w s) 1) = {["chat" := the_chat]}) by (apply single_of_list; vm_compute; reflexivity).
  assert (Ho : o_rooms (ns_of (s_w s) the_chat) = {["open"]}) by decide_eq.
  assert (Hc : s_crash s = None) by (vm_compute; reflexivity).
  assert (Hcl : c_closed (conn_of (s_w s) 1) = false) by (vm_compute; reflexivity).
  assert (Hm : c_nsmu (conn_of (s_w s) 1) = rw0) by (vm_compute; reflexivity).
  assert (Hm2 : o_mu (ns_of (s_w s) the_chat) = rw0) by (vm_compute; reflexivity).
  assert (Hv : valid_ns (s_w s) the_chat = true) by (vm_compute; reflexivity).
  assert (Hid : n_id the_chat < w_next (s_w s)) by (apply Nat.ltb_lt; vm_compute; reflexivity).
  split; [exact nosy_app|]. split; [exact Hr|]. split; [exact Hn|]. split; [exact Ho|].
  destruct (go_user nosy 0 s Hc) as (s1 & H1 & H2 & H3 & H4). clearbody s.
  assert (Hr1 : reachable nosy s1) by (eapply rtc_r; [exact Hr|]; exists (Env (EGo (TUser 0))); exact H1).
  rewrite <- H2 in *.
  destruct (l_C47_refuted nosy s1 (s_next s) the_chat (fun _ => Ret None) (fun n m => Call (ARooms (Some n)) (fun _ => Ret None))) as (s2 & H5 & H6); [exact Hr1|exact H3|exact H4|exact Hv|exact Hid|reflexivity|exact Hcl|exact Hm|exact Hn|exact Hm2|rewrite Ho; apply non_empty_singleton_L|reflexivity| |].
  - intros m. exists (ARooms (Some the_chat)), (fun _ => Ret None). split; [reflexivity|]. left. reflexivity.
  - exists s1, (s_next s), s2. auto.
Qed.

(*@prop C47 is violated for OnNamespaceDisconnect too: Close calls it while it holds the lock of the namespaces of the connection
    ([t] is its writer then; DisconnectAll does the same).  If the callback looks at the namespaces of the connection, then
    it never returns, and neither does Close. @*)
Lemma l_C47_namespaces_refuted : forall (G : cfg) (s : sys) (t : tid) c a k,
  reachable G s -> s_crash s = None -> s_th s !! t = Some (Call a k) -> valid_api (s_w s) a = true -> is_Some (w_conns (s_w s) !! c) ->
  rw_writer (c_nsmu (conn_of (s_w s) c)) = Some t -> ns_query G c a ->
  exists s', steps G s s' /\ stuck G s' t.
Proof.
  intros G s t c a k Hr Hc Ht Hv Hh Hw Hq.
  assert (H : exists o, (o = ONsLock c \/ o = ONsRLock c) /\ blocks t (impl G a) (s_w s) o (fun w' => has_conn w' c /\ rw_writer (c_nsmu (conn_of w' c)) = Some t)).
  { destruct Hq as [[ns ->]|[(n & x & -> & <-)|(x & -> & Hn)]]; cbn [impl].
    - exists (ONsRLock c). split; [auto|]. apply blocks_here; [|auto]. unfold ostep, rw_can_rlock. rewrite Hw. reflexivity.
    - exists (ONsRLock (n_conn n)). split; [auto|]. apply blocks_here; [|auto]. unfold ostep, rw_can_rlock. rewrite Hw. reflexivity.
    - exists (ONsLock c). split; [auto|]. unfold DisconnectAll. rewrite Hn. apply blocks_here; [|auto]. unfold ostep, rw_can_lock. rewrite Hw. reflexivity. }
  destruct H as (o & Ho & Hb). destruct (call_blocks G s t a k o _ Hc Ht Hv Hb) as (s' & H1 & H2 & H3 & H4).
  exists s'. split; [exact H1|]. eapply (stuck_nsmu G s' t o c); eauto. eapply rtc_transitive; eassumption.
Qed.

(** The OnNamespaceDisconnect callback of "chat" asks for the namespace. *)
Definition asks_back : cfg := {|
  g_client := fun c => Nat.eqb c 2;
  g_namespaces := fun _ => {["chat" := {[OnNamespaceDisconnect := fun n m => Call (ANamespace (n_conn n) (n_name n)) (fun _ => Ret None)]}]};
  g_connid := fun c => "id-1";
  g_uuid := "u";
  g_ptr := fun c => "0x1";
  g_known := knownErrors0;
  g_exch := None;
  g_sync := true;
  g_firealways := false;
  g_onconnect := None;
  g_ondisconnect := None;
  g_do := fun _ _ => Ret tt;
  g_user := fun _ => call (AClose 1) |}.
Lemma asks_back_app : user_app (fun _ => True) asks_back.
Proof.
  constructor; try discriminate; try (intros; exact I); [|cbn; auto].
  intros c ns evs ev h n m H1 H2. cbn in H1. apply lookup_singleton_Some in H1 as [<- <-]. apply lookup_singleton_Some in H2 as [<- <-]. cbn. auto.
Qed.
Definition asks_run : list cmd :=
  [Go 0; Act1 (Env (EGo (TUpgrade 1))); Go 1; Act1 Start; Go 0; Go 2; Act1 (Env (EDeliver 1 TextMessage "M")); Go 2;
   Act1 (Env (EDeliver 1 TextMessage "$1;chat;;_OnNamespaceConnect;0;0;")); Go 2; Act1 (Env (EGo (TUser 0)))] ++ repeat (Act1 (Step 3)) 8.
Definition calls_ns (p : option (prog (option tcode))) : bool := match p with Some (Call (ANamespace 1 _) _) => true | _ => false end.
Lemma calls_ns_ok s (t : tid) : calls_ns (s_th s !! t) = true -> exists ns k, s_th s !! t = Some (Call (ANamespace 1 ns) k).
Proof.
  generalize (s_th s !! t). intros p H. destruct p as [p|]; [|discriminate H]. destruct p as [r|o k|b k|why]; try discriminate H. destruct b; try discriminate H.
  cbn in H. destruct c as [|[|c]]; try discriminate H. eauto.
Qed.
Lemma valid_lookup w c ns : is_Some (w_conns w !! c) -> valid_api w (ANamespace c ns) = true.
Proof. intros [x H]. cbn. unfold valid_conn. rewrite H. reflexivity. Qed.
(*@exl The application closes a connection that is in "chat", and Close has called OnNamespaceDisconnect, which asks for the namespace. @*)
Lemma x_C47_namespaces_example : let s := play asks_back asks_run (init asks_back) in
  user_app (fun _ => True) asks_back /\ reachable asks_back s /\ s_crash s = None /\ is_Some (w_conns (s_w s) !! 1) /\
  rw_writer (c_nsmu (conn_of (s_w s) 1)) = Some (3 : tid) /\
  exists a k, s_th s !! (3 : tid) = Some (Call a k) /\ valid_api (s_w s) a = true /\ ns_query asks_back 1 a.
Proof.
  cbv zeta. split; [exact asks_back_app|]. split; [apply play_reachable|]. split; [vm_compute; reflexivity|]. split; [eexists; vm_compute; reflexivity|].
  split; [vm_compute; reflexivity|]. destruct (calls_ns_ok (play asks_back asks_run (init asks_back)) 3) as (ns & k & H); [vm_compute; reflexivity|].
  exists (ANamespace 1 ns), k. split; [exact H|]. split; [|left; eauto].
  apply valid_lookup. eexists. vm_compute. reflexivity.
Qed.
