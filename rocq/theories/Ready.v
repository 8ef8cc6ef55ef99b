(** * Ready.v : nothing the other side sent is handled before the handshake
    (C30), in every interleaving. *)
From Coq Require Import ZArith.
From stdpp Require Import gmap strings list relations.
From RecordUpdate Require Import RecordUpdate.
From Verif Require Import Go Errors Message World Lang Code Sem ExecProofs Logic Spec_App Spec_Ready Frame.

#[local] Arguments Write : simpl never.
#[local] Arguments write : simpl never.
#[local] Arguments Close : simpl never.
#[local] Arguments wait : simpl never.
#[local] Arguments unwait : simpl never.
#[local] Arguments handleQueue : simpl never.
#[local] Arguments Broadcast : simpl never.
#[local] Arguments handle_event : simpl never.
#[local] Arguments handle_reply_or_event : simpl never.
#[local] Arguments send : simpl never.

Section ready.
Context (G : cfg).
(** A goroutine knows of some connections that their handshake is over. *)
Definition krule (l : gset cid) (o : op) : (res o -> gset cid -> Prop) -> Prop :=
  match o as o return (res o -> gset cid -> Prop) -> Prop with
  | OIsAcked c => fun P => forall r : bool, P r (if r then {[c]} ∪ l else l)
  | OSetAcked c true => fun P => c ∈ l /\ P tt l
  | OLog (LAcked c) => fun P => P tt ({[c]} ∪ l)
  | OGetNs c s => fun P => forall r, (forall n, r = Some n -> n_conn n = c) -> P r l
  | ONewNs c s => fun P => forall n, n_conn n = c -> P n l
  | OSetNs c s n => fun P => n_conn n = c /\ P tt l
  | OLog (LFire n e m) => fun P => (from_remote m -> n_conn n ∈ l) /\ P tt l
  | ONewConn c id native => fun P => native = onlyNative G c /\ P tt l
  | _ => fun P => forall r, P r l
  end.
Definition KS : lspec := {|
  ls_L := gset cid; ls_rule := krule; ls_cpre := fun _ a => no_payload a; ls_cpost := fun l a r l' => l ⊆ l';
  ls_crash := fun _ => True; ls_start := fun _ _ => True; ls_fin := fun _ => True |}.
Lemma kmono : rule_mono KS.
Proof.
  intros l o P P' H. destruct o; try match goal with x : tcode |- _ => destruct x | x : event |- _ => destruct x | x : bool |- _ => destruct x end; cbn in *; intros HP;
    repeat match goal with H : _ /\ _ |- _ => destruct H end; eauto 12.
Qed.

Context (A : user_app no_payload G).
Notation any := (fun _ _ => True).
Notation sub := (fun l l' : gset cid => l ⊆ l').
Lemma krules : @rules G KS no_payload sub any any (fun l c => c ∈ l) any (fun l c => c ∈ l) (fun n c => n_conn n = c) any any any any (fun _ _ _ _ => True) (fun _ _ => True).
Proof.
  constructor; cbn; unfold stable; auto using kmono; try (intros; set_solver); try (intros; eauto; fail).
  - intros o l P Hp H.
    destruct o; cbn in *; try discriminate; eauto; try match goal with x : tcode |- _ => destruct x | x : event |- _ => destruct x | x : bool |- _ => destruct x end; try discriminate; cbn; eauto.
  - intros c s l P H r Hr. apply H; [reflexivity|]. destruct r; auto.
  - intros o n l P Ho _ H. destruct o; try discriminate Ho; cbn; intros; apply H; reflexivity.
  - intros c l P H [|]; apply H; set_solver.
Qed.
Notation kp := (@kp KS sub _).
Definition neutral (o : op) : bool :=
  match o with
  | OIsAcked _ | OSetAcked _ true | OLog (LAcked _) | OGetNs _ _ | ONewNs _ _ | OSetNs _ _ _ | OLog (LFire _ _ _) | ONewConn _ _ _ => false
  | _ => true
  end.
Lemma k_free o : neutral o = true -> kp (opr o).
Proof. intros H l. cbn. unfold neutral in H. destruct o; try discriminate; cbn; intros; try reflexivity;
  match goal with x : tcode |- _ => destruct x | x : event |- _ => destruct x | x : bool |- _ => destruct x end; try discriminate; cbn; intros; reflexivity. Qed.
Ltac kf := repeat first
  [ apply (kp_ret krules) | apply (kp_crash krules) | match goal with |- @Frame.kp _ _ _ (opr ?o) => exact (k_free o eq_refl) end | assumption
  | match goal with H : forall _, _ |- _ => apply H; fail end
  | apply (kp_for_all krules); intros | apply (kp_bind krules); [|intros]
  | match goal with |- @Frame.kp _ _ _ ?p => match p with context [match ?x with _ => _ end] => destruct x eqn:? end end ].
Lemma k_gates : @gates G KS sub (fun _ _ => True) (fun _ => True).
Proof.
  constructor; intros.
  - unfold wait. kf.
  - unfold unwait. kf.
  - unfold proc_get. kf.
  - apply (kpp_kp krules). unfold proc_Done. kf.
  - unfold proc_Wait. kf.
  - apply (kq_any krules); [auto|]. unfold proc_Start. kf.
Qed.
Lemma k_ask c x m nx : kp (ask G c x m nx).
Proof. pose proof (Write_kp krules k_gates) as HW. unfold ask. kf. Qed.
Lemma k_send ch m : kp (send ch m).
Proof. unfold send. kf. Qed.
Notation kpp c := (@kpp KS sub _ (fun l => c ∈ l)).
Lemma stable_in c : @stable KS sub (fun l => c ∈ l).
Proof. intros l l' H1 H2. cbn in *. set_solver. Qed.
Lemma k_reply c m : kpp c (handle_event G c m) -> kpp c (handle_reply_or_event G c m).
Proof.
  intros H. unfold handle_reply_or_event. apply (kpp_bind krules); [apply stable_in|apply (kpp_kp krules), k_free; reflexivity|].
  intros [ch|]; [|exact H]. apply (kpp_kp krules). pose proof k_send as HS. kf.
Qed.
Lemma k_message c m : (forall m', kpp c (handle_event G c m')) -> kpp c (handle_reply_or_event G c m) ->
  (forall n m', n_conn n = c -> @Frame.kpp KS sub _ (fun l => True /\ True /\ c ∈ l) (fireEvent G n m')) -> kpp c (handleMessage G c m).
Proof.
  intros He Hr Hf. unfold handleMessage. destruct (m_isInvalid m); [apply (kpp_ret krules)|].
  assert (Hs : kpp c (bind (opr (OSWaitGet (m_wait m))) (fun w => match w with Some ch => bind (send ch m) (fun _ => Ret None) | None => handle_reply_or_event G c m end))).
  { apply (kpp_bind krules); [apply stable_in|apply (kpp_kp krules), k_free; reflexivity|]. intros [ch|]; [|exact Hr]. apply (kpp_kp krules). pose proof k_send as HS. kf. }
  destruct (m_isNative m && onlyNative G c).
  - eapply (kpp_bindq krules); [apply stable_in|apply (Namespace_kq krules k_gates), stable_in|]. intros [n|]; cbn beta iota; [|apply (kpp_crash krules)].
    intros l (Hl & _ & Hn & _). apply (Hf n m Hn l). auto.
  - destruct (IsWait (IsClient G c) m); [|apply He]. destruct (IsClient G c); [exact Hr|].
    destruct (g_exch G) as [ex|]; [|exact Hs]. destruct (m_fromStackExchange m); [|exact Hs].
    apply (kpp_kp krules). kf.
Qed.
Lemma k_ack c typ b : kpp c (handleQueue G c) -> (forall s bin, kp (write G c s bin)) -> kp (wait c) -> (forall e, kp (unwait c e)) ->
  @Frame.kpp KS sub _ (fun _ => True) (handleACK G c typ b).
Proof.
  intros H1 H2 H3 H4. apply (kpp_kp krules). unfold handleACK. destruct b as [|a rest]; [apply (kp_crash krules)|].
  destruct (Ascii.eqb a ackBinary).
  - apply (kp_bind krules); [exact H3|]. intros [e|]; [kf|]. intros l. cbn. split; [set_solver|].
    eapply (ok_seq KS kmono); [apply H1; set_solver|]. intros r l' Hl. cbn. intros id.
    eapply (ok_mono KS kmono); [|apply H2]. intros r' l'' Hl'. cbn in *. set_solver.
  - destruct (Ascii.eqb a ackIDBinary); [|kf]. intros l. cbn. intros _. split; [set_solver|].
    eapply (ok_seq KS kmono); [apply H4|]. intros r l' Hl. cbn in *. set_solver.
Qed.
Lemma k_waitm c l : (forall msgs, kp (publishMessages G c msgs)) -> ok (S := KS) l (waitMessages G c) (fun r l' => if r : bool then True else True).
Proof.
  intros H. apply (ok_mono KS kmono l (waitMessages G c) (fun _ l' => sub l l')); [intros [|] ? _; exact Logic.I|]. revert l. change (kp (waitMessages G c)). unfold waitMessages, publish. kf. Qed.
Lemma k_broadcast msgs : kp (broadcast msgs).
Proof. unfold broadcast. kf. Qed.
Lemma k_srvask x m : (forall e msgs, kp (Broadcast G e msgs)) -> kp (ServerAsk G x m).
Proof. intros HB. unfold ServerAsk. kf. Qed.
Lemma k_newconn c : kp (newConn G c).
Proof. intros l. unfold newConn. cbn. split; reflexivity. Qed.
Lemma k_upgrade c : (forall e, kp (unwait c e)) -> (forall f, g_onconnect G = Some f -> kp (f c)) -> kp (Upgrade G c).
Proof.
  intros H1 H2. pose proof (k_newconn c) as HN. unfold Upgrade. destruct (g_onconnect G) as [f|] eqn:E; [pose proof (H2 f eq_refl)|]; kf.
Qed.
Lemma k_dial c : kp (sendClientACK G c) -> kp (Dial G c).
Proof. intros H. pose proof (k_newconn c) as HN. unfold Dial. kf. Qed.
Lemma k_next c ch : kp (read_next G c ch).
Proof. pose proof k_send as HS. unfold read_next. kf. Qed.
Lemma k_server l : (forall c msgs, kp (publishMessages G c msgs)) ->
  (forall c, exists f, Close G c = bind (opr (OCasClosed c)) f /\ forall r : bool, @Frame.kpp KS sub _ (fun _ => r = true -> True) (f r)) -> (forall k c, kp (g_do G k c)) ->
  (forall x, kp (exch_call G x)) -> (forall f c, g_ondisconnect G = Some f -> kp (f c)) -> ok (S := KS) l (server_step G) (fun _ l' => True).
Proof.
  intros H1 H2 H2' H3 H4. apply (ok_mono KS kmono l (server_step G) (fun _ l' => sub l l')); [intros; exact Logic.I|]. revert l. change (kp (server_step G)).
  assert (HC : forall c, kp (Close G c)) by (intros c; destruct (H2 c) as (f & -> & Hf); assert (Hf' : forall r, kp (f r)) by (intros r l; apply (Hf r); auto); kf).
  unfold server_step, publish, act_call. apply (kp_bind krules); [kf|]. intros x. apply (kp_bind krules); [kf|]. intros _.
  destruct x; [kf| |kf|kf]. destruct (g_ondisconnect G) as [f|] eqn:E; [|kf]. pose proof (fun c => H4 f c eq_refl) as H5. kf.
Qed.

(** ** The invariant. *)
Definition shaken (l : list event) (c : cid) : Prop := onlyNative G c = true \/ LAcked c ∈ l.
Lemma shaken_cons e l c : shaken l c -> shaken (e :: l) c.
Proof. intros [H|H]; [left; exact H|right; constructor; exact H]. Qed.
Definition in_time (log : list event) : Prop := forall l2 n e m l1, log = l2 ++ LFire n e m :: l1 -> from_remote m -> shaken l1 (n_conn n).
Lemma in_time_cons e log : (forall n k m, e = LFire n k m -> from_remote m -> shaken log (n_conn n)) -> in_time log -> in_time (e :: log).
Proof.
  intros H1 H2 l2 n k m l1 E Hm. destruct l2 as [|e' l2]; injection E as -> E; [subst; eapply H1; eauto|]. subst. eapply H2; [reflexivity|exact Hm].
Qed.
Record Inv (w : world) (Ls : gmap tid (gset cid)) : Prop := MkI {
  iv_acked : forall c, c_acked (conn_of w c) = true -> shaken (w_log w) c;
  iv_nss : forall c s n, c_nss (conn_of w c) !! s = Some n -> n_conn n = c;
  iv_know : forall (t : tid) l c, Ls !! t = Some l -> c ∈ l -> shaken (w_log w) c;
  iv_log : in_time (w_log w) }.
Record calm (w w' : world) : Prop := Calm {
  cm_acked : forall c, c_acked (conn_of w' c) = true -> c_acked (conn_of w c) = true;
  cm_nss : forall c s n, c_nss (conn_of w' c) !! s = Some n -> c_nss (conn_of w c) !! s = Some n;
  cm_log : w_log w' = w_log w \/ exists e, w_log w' = e :: w_log w /\ match e with LFire _ _ _ => False | _ => True end }.
Lemma calm_refl w : calm w w.
Proof. constructor; auto. Qed.
Lemma conn_of_upd c f w c' : conn_of (upd_conn c f w) c' = if decide (c' = c) then f (conn_of w c) else conn_of w c'.
Proof. unfold conn_of, upd_conn. cbn. case_decide as E; [subst; rewrite lookup_insert|rewrite lookup_insert_ne by congruence]; reflexivity. Qed.
Lemma calm_conn c f w : (c_acked (f (conn_of w c)) = true -> c_acked (conn_of w c) = true) ->
  (forall s n, c_nss (f (conn_of w c)) !! s = Some n -> c_nss (conn_of w c) !! s = Some n) -> calm w (upd_conn c f w).
Proof.
  intros H1 H2. constructor; [| |left; reflexivity].
  - intros c'. rewrite conn_of_upd. case_decide as E; [subst|]; auto.
  - intros c' s n. rewrite conn_of_upd. case_decide as E; [subst|]; auto.
Qed.
Lemma calm_same w w' : w_conns w' = w_conns w -> w_log w' = w_log w -> calm w w'.
Proof. intros H1 H2. constructor; [| |left; exact H2]; intros c; unfold conn_of; rewrite H1; auto. Qed.
Lemma calm_pop_conn c f w : (c_acked (f (conn_of w c)) = true -> c_acked (conn_of w c) = true) ->
  (forall s n, c_nss (f (conn_of w c)) !! s = Some n -> c_nss (conn_of w c) !! s = Some n) -> calm w (upd_conn c f (pop_seed w)).
Proof. intros H1 H2. destruct (calm_conn c f w H1 H2) as [C1 C2 C3]. constructor; [exact C1|exact C2|exact C3]. Qed.
Lemma neutral_calm t w o w' r : neutral o = true -> ostep t w o = Goes w' r -> calm w w'.
Proof.
  intros Hb H. destruct o; try discriminate Hb; cbn [ostep] in H;
    repeat match goal with
    | H : match ?x with _ => _ end = Goes _ _ |- _ => destruct x eqn:?; try discriminate H
    end; try discriminate H; injection H as <- <-;
    first [apply calm_refl | (apply calm_same; reflexivity)
      | (apply calm_conn; [cbn; auto; fail|cbn; auto; fail])
      | (apply calm_conn; cbn; auto; fail) | (apply calm_pop_conn; cbn; auto; fail) | idtac].
  - apply calm_conn; cbn; [auto|]. intros s n H. apply lookup_delete_Some in H as [_ H]. exact H.
  - match goal with |- calm _ (upd_conn ?c ?f ?w1) => pose proof (calm_conn c f w ltac:(cbn; auto) ltac:(cbn; auto)) as [C1 C2 C3] end.
    constructor; [exact C1|exact C2|left; reflexivity].
  - destruct b; [discriminate Hb|]. apply calm_conn; cbn; [discriminate|auto].
  - apply calm_conn; destruct typ; cbn; auto.
  - apply calm_conn; destruct typ; cbn; auto.
  - constructor; [cbn; auto|cbn; auto|right; eexists; split; [reflexivity|exact Logic.I]].
  - constructor; [cbn; auto|cbn; auto|right; eexists; split; [reflexivity|]]. destruct e; try exact Logic.I; discriminate Hb.
Qed.
Lemma env_calm w e : calm w (env_step e w).
Proof.
  destruct e; cbn [env_step]; repeat match goal with |- context [match ?x with _ => _ end] => destruct x eqn:? end;
    first [apply calm_refl | (apply calm_same; reflexivity) | (apply calm_conn; cbn; auto; fail)].
Qed.
Lemma neutral_rule l o P r : neutral o = true -> krule l o P -> P r l.
Proof. intros Hn. destruct o; try discriminate; cbn; auto; match goal with x : tcode |- _ => destruct x | x : event |- _ => destruct x | x : bool |- _ => destruct x end; try discriminate; cbn; auto. Qed.
Lemma inv_calm w w' Ls : Inv w Ls -> calm w w' -> Inv w' Ls.
Proof.
  intros [I1 I2 I3 I4] [C1 C2 C3].
  assert (Hs : forall c, shaken (w_log w) c -> shaken (w_log w') c).
  { intros c H. destruct C3 as [->|(e & -> & _)]; [exact H|apply shaken_cons, H]. }
  constructor; eauto. destruct C3 as [->|(e & -> & He)]; [exact I4|]. apply in_time_cons; [|exact I4]. intros n k m ->. contradiction.
Qed.
Lemma inv_labels w (Ls : gmap tid (gset cid)) (t : tid) l : Inv w Ls -> (forall c, c ∈ l -> shaken (w_log w) c) -> Inv w (<[t := l]> Ls).
Proof.
  intros [I1 I2 I3 I4] H. constructor; auto. intros t' l' c Ht Hc. apply lookup_insert_Some in Ht as [[<- <-]|[_ Ht]]; eauto.
Qed.
Lemma ready_op t w Ls l o (P : res o -> gset cid -> Prop) : Inv w Ls -> Ls !! t = Some l -> krule l o P ->
  match ostep t w o with
  | Goes w' r => exists l', Inv w' (<[t := l']> Ls) /\ P r l'
  | _ => True
  end.
Proof.
  intros HI Ht HP. destruct (ostep t w o) as [w' r| |why] eqn:E; auto.
  destruct (neutral o) eqn:En.
  { exists l. rewrite insert_id by exact Ht. split; [eapply inv_calm; [exact HI|eapply neutral_calm; eassumption]|eapply neutral_rule; eassumption]. }
  assert (Hkn : forall c, c ∈ l -> shaken (w_log w) c) by (intros c Hc; eapply (iv_know _ _ HI); eassumption).
  destruct o; try discriminate En; cbn [ostep] in E.
  - (* OGetNs *) injection E as <- <-. exists l. rewrite insert_id by exact Ht. split; [exact HI|]. apply HP. intros n. apply (iv_nss _ _ HI).
  - (* OSetNs *) injection E as <- <-. destruct HP as [Hn HP]. exists l. rewrite insert_id by exact Ht. split; [|exact HP].
    destruct HI as [I1 I2 I3 I4]. constructor; auto; cbn.
    + intros c'. rewrite conn_of_upd. case_decide as D; [subst|]; auto.
    + intros c' s m. rewrite conn_of_upd. case_decide as D; [subst|apply I2]. cbn. intros H. apply lookup_insert_Some in H as [[_ <-]|[_ H]]; [auto|eauto].
  - (* ONewNs *) injection E as <- <-. exists l. rewrite insert_id by exact Ht. split; [|apply HP; reflexivity].
    eapply inv_calm; [exact HI|]. apply calm_same; reflexivity.
  - (* OIsAcked *) injection E as <- <-. eexists. split; [|apply HP]. apply inv_labels; [exact HI|].
    destruct (c_acked (conn_of w c)) eqn:Ea; [|exact Hkn]. intros c' Hc. apply elem_of_union in Hc as [Hc|Hc]; [|auto].
    apply elem_of_singleton in Hc as ->. apply (iv_acked _ _ HI), Ea.
  - (* OSetAcked *) destruct b; [|discriminate En]. injection E as <- <-. destruct HP as [Hc HP]. exists l. rewrite insert_id by exact Ht. split; [|exact HP].
    destruct HI as [I1 I2 I3 I4]. constructor; auto; cbn.
    + intros c'. rewrite conn_of_upd. case_decide as D; [subst; auto|apply I1].
    + intros c' s m. rewrite conn_of_upd. case_decide as D; [subst|]; apply I2.
  - (* ONewConn *) destruct HP as [-> HP]. destruct (w_conns w !! c) eqn:Ec; [discriminate E|]. exists l. rewrite insert_id by exact Ht.
    destruct (onlyNative G c) eqn:Eo; injection E as <- <-; (split; [|exact HP]); destruct HI as [I1 I2 I3 I4]; (constructor; [| |exact I3|exact I4]); cbn; intros c'; unfold conn_of; cbn;
      (destruct (decide (c' = c)) as [->|Hne]; [rewrite lookup_insert; cbn|rewrite lookup_insert_ne by congruence]).
    + left. exact Eo.
    + apply I1.
    + intros s n H. apply lookup_singleton_Some in H as [_ <-]. reflexivity.
    + apply I2.
    + discriminate.
    + apply I1.
    + intros s n H. rewrite lookup_empty in H. discriminate.
    + apply I2.
  - (* OLog *) injection E as <- <-. destruct e; try discriminate En.
    + destruct HP as [Hf HP]. exists l. rewrite insert_id by exact Ht. split; [|exact HP].
      destruct HI as [I1 I2 I3 I4]. constructor; cbn; eauto using shaken_cons.
      apply in_time_cons; [|exact I4]. intros n' k' m' [= <- <- <-] Hm. apply Hkn, Hf, Hm.
    + cbn in HP. eexists. split; [|exact HP].
      assert (HI' : Inv (w <| w_log ::= cons (LAcked c) |>) Ls).
      { eapply inv_calm; [exact HI|]. constructor; [cbn; auto|cbn; auto|right; eexists; split; [reflexivity|exact Logic.I]]. }
      apply inv_labels; [exact HI'|]. intros c' Hc. cbn. apply elem_of_union in Hc as [Hc|Hc]; [|apply shaken_cons; auto].
      apply elem_of_singleton in Hc as ->. right. constructor.
Qed.
Lemma ready_respects : respects KS G Inv.
Proof.
  constructor.
  - intros t w Ls l o P HI Ht HP. pose proof (ready_op t w Ls l o P HI Ht HP) as H. destruct (ostep t w o); auto.
  - intros t w Ls l a HI Ht _ Ha. exists l. rewrite insert_id by exact Ht. split; [exact HI|].
    apply (impl_kp krules k_gates); auto using k_ask, k_reply, k_message, k_ack, k_waitm, k_broadcast, k_srvask; try (intros; exact Logic.I).
    destruct a; cbn; auto; try contradiction; destruct n; auto.
  - intros t l Hs. apply (code_kp krules k_gates); auto using k_ask, k_reply, k_message, k_ack, k_waitm, k_broadcast, k_srvask, k_server; try (intros; exact Logic.I).
    + cbn. auto.
    + intros. apply k_upgrade; auto.
    + intros. apply k_dial; auto.
    + intros. apply k_next.
  - intros t w Ls l [I1 I2 I3 I4] Ht _. constructor; auto. intros t' l' c H. apply lookup_delete_Some in H as [_ H]. eauto.
  - intros t w Ls c rest HI Hsp Ht. exists ∅. split; [exact Logic.I|]. apply inv_labels; [|intros c' H; set_solver].
    eapply inv_calm; [exact HI|]. apply calm_same; reflexivity.
  - intros t w Ls c HI Hs Ht. exists ∅. split; [exact Logic.I|]. apply inv_labels; [exact HI|intros c' H; set_solver].
  - intros w Ls e HI _. eapply inv_calm; [exact HI|apply env_calm].
Qed.
Lemma ready_start : exists l, ls_start KS TServer l /\ Inv world0 {[0 := l]}.
Proof.
  exists ∅. split; [exact Logic.I|]. constructor.
  - intros c. unfold conn_of, world0. cbn. rewrite lookup_empty. discriminate.
  - intros c s n. unfold conn_of, world0. cbn. rewrite lookup_empty. cbn. rewrite lookup_empty. discriminate.
  - intros t l c H Hc. apply lookup_singleton_Some in H as [_ <-]. set_solver.
  - intros l2 n e m l1 E. destruct l2; discriminate.
Qed.
Lemma ready_reachable s : reachable G s -> holds KS Inv s.
Proof. exact (fun Hr => reachable_holds KS kmono G Inv ready_respects s ready_start Hr). Qed.
End ready.
