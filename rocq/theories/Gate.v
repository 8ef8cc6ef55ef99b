(** * Gate.v : the readiness gate lets its waiter through only after it was
    opened (C31), in every interleaving. *)
From Coq Require Import ZArith.
From stdpp Require Import gmap strings list relations.
From RecordUpdate Require Import RecordUpdate.
From Verif Require Import Go Errors Message World Lang Code Sem ExecProofs Logic Spec_App Spec_Stuck Frame.

#[local] Arguments Write : simpl never.
#[local] Arguments write : simpl never.
#[local] Arguments Close : simpl never.
#[local] Arguments wait : simpl never.
#[local] Arguments unwait : simpl never.
#[local] Arguments handleQueue : simpl never.
#[local] Arguments Broadcast : simpl never.
#[local] Arguments handle_event : simpl never.
#[local] Arguments handle_reply_or_event : simpl never.
#[local] Arguments send : simpl never.

Section gate.
Context (G : cfg).
(** A goroutine knows of some connections that their gate is opened. *)
Definition krule (l : gset cid) (o : op) : (res o -> gset cid -> Prop) -> Prop :=
  match o as o return (res o -> gset cid -> Prop) -> Prop with
  | OWSetReady c => fun P => P tt ({[c]} ∪ l)
  | OWClose c => fun P => c ∈ l /\ P tt l
  | _ => fun P => forall r, P r l
  end.
Definition KS : lspec := {|
  ls_L := gset cid; ls_rule := krule; ls_cpre := fun _ a => True; ls_cpost := fun l a r l' => l ⊆ l';
  ls_crash := fun _ => True; ls_start := fun _ _ => True; ls_fin := fun _ => True |}.
Lemma kmono : rule_mono KS.
Proof. intros l o P P' H. destruct o; cbn in *; intros HP; repeat match goal with H : _ /\ _ |- _ => destruct H end; eauto. Qed.

Context (A : user_app (fun _ => True) G).
Notation any := (fun _ _ => True).
Notation sub := (fun l l' : gset cid => l ⊆ l').
Lemma krules : @rules G KS (fun _ => True) sub any any any any any any any any any any (fun _ _ _ _ => True) (fun _ _ => True).
Proof.
  constructor; cbn; unfold stable; auto using kmono; try (intros; set_solver); try (intros; eauto; fail).
  - intros o l P Hp H. destruct o; cbn in *; try discriminate; eauto.
  - intros c s l P H r. apply H; [reflexivity|destruct r; auto].
  - intros o n l P Ho _ H. destruct o; try discriminate Ho; cbn; intros; apply H; reflexivity.
Qed.
Notation kp := (@kp KS sub _).
Definition neutral (o : op) : bool := match o with OWSetReady _ | OWClose _ => false | _ => true end.
Lemma k_free o : neutral o = true -> kp (opr o).
Proof. intros H l. cbn. unfold neutral in H. destruct o; try discriminate; cbn; intros; reflexivity. Qed.
Ltac kf := repeat first
  [ apply (kp_ret krules) | apply (kp_crash krules) | match goal with |- @Frame.kp _ _ _ (opr ?o) => exact (k_free o eq_refl) end | assumption
  | match goal with H : forall _, _ |- _ => apply H; fail end
  | apply (kp_for_all krules); intros | apply (kp_bind krules); [|intros]
  | match goal with |- @Frame.kp _ _ _ ?p => match p with context [match ?x with _ => _ end] => destruct x eqn:? end end ].
Lemma k_gates : @gates G KS sub (fun _ _ => True) (fun _ => True).
Proof.
  constructor; intros.
  - unfold wait. kf.
  - unfold unwait. apply (kp_bind krules); [kf|]. intros [|]; [kf|]. apply (kp_bind krules); [kf|]. intros _ l. cbn. intros [|]; cbn; set_solver.
  - unfold proc_get. kf.
  - apply (kpp_kp krules). unfold proc_Done. kf.
  - unfold proc_Wait. kf.
  - apply (kq_any krules); [auto|]. unfold proc_Start. kf.
Qed.
Lemma k_ask c x m nx : kp (ask G c x m nx).
Proof. pose proof (Write_kp krules k_gates) as HW. unfold ask. kf. Qed.
Lemma k_send ch m : kp (send ch m).
Proof. unfold send. kf. Qed.
Notation kpp P := (@kpp KS sub _ P).
Lemma k_reply c m : kpp (fun _ => True) (handle_event G c m) -> kpp (fun _ => True) (handle_reply_or_event G c m).
Proof.
  intros H. unfold handle_reply_or_event. apply (kpp_bind krules); [intros ? ? ? ?; exact Logic.I|apply (kpp_kp krules), k_free; reflexivity|].
  intros [ch|]; [|exact H]. apply (kpp_kp krules). pose proof k_send as HS. kf.
Qed.
Lemma k_message c m : (forall m', kpp (fun _ => True) (handle_event G c m')) -> kpp (fun _ => True) (handle_reply_or_event G c m) ->
  (forall n m', True -> kpp (fun _ => True /\ True /\ True) (fireEvent G n m')) -> kpp (fun _ => True) (handleMessage G c m).
Proof.
  intros He Hr Hf. assert (He' : forall m', kp (handle_event G c m')) by (intros m' l; apply He; exact Logic.I).
  assert (Hr' : kp (handle_reply_or_event G c m)) by (intros l; apply Hr; exact Logic.I).
  assert (Hf' : forall n m', kp (fireEvent G n m')) by (intros n m' l; apply (Hf n m' Logic.I); repeat split).
  apply (kpp_kp krules). pose proof k_send as HS. pose proof (Namespace_kp krules k_gates) as HN. unfold handleMessage. kf.
Qed.
Lemma k_ack c typ b : kpp (fun _ => True) (handleQueue G c) -> (forall s bin, kp (write G c s bin)) -> kp (wait c) -> (forall e, kp (unwait c e)) ->
  kpp (fun _ => True) (handleACK G c typ b).
Proof.
  intros H1 H2 H3 H4. assert (H1' : kp (handleQueue G c)) by (intros l; apply H1; exact Logic.I).
  apply (kpp_kp krules). unfold handleACK. kf.
Qed.
Lemma k_waitm c l : (forall msgs, kp (publishMessages G c msgs)) -> ok (S := KS) l (waitMessages G c) (fun r l' => if r : bool then True else True).
Proof.
  intros H. apply (ok_mono KS kmono l (waitMessages G c) (fun _ l' => sub l l')); [intros [|] ? _; exact Logic.I|]. revert l. change (kp (waitMessages G c)). unfold waitMessages, publish. kf. Qed.
Lemma k_broadcast msgs : kp (broadcast msgs).
Proof. unfold broadcast. kf. Qed.
Lemma k_srvask x m : (forall e msgs, kp (Broadcast G e msgs)) -> kp (ServerAsk G x m).
Proof. intros HB. unfold ServerAsk. kf. Qed.
Lemma k_newconn c : kp (newConn G c).
Proof. unfold newConn. kf. Qed.
Lemma k_upgrade c : (forall e, kp (unwait c e)) -> (forall f, g_onconnect G = Some f -> kp (f c)) -> kp (Upgrade G c).
Proof.
  intros H1 H2. pose proof (k_newconn c) as HN. unfold Upgrade. destruct (g_onconnect G) as [f|] eqn:E; [pose proof (H2 f eq_refl)|]; kf.
Qed.
Lemma k_dial c : kp (sendClientACK G c) -> kp (Dial G c).
Proof. intros H. pose proof (k_newconn c) as HN. unfold Dial. kf. Qed.
Lemma k_next c ch : kp (read_next G c ch).
Proof. pose proof k_send as HS. unfold read_next. kf. Qed.
Lemma k_server l : (forall c msgs, kp (publishMessages G c msgs)) ->
  (forall c, exists f, Close G c = bind (opr (OCasClosed c)) f /\ forall r : bool, @Frame.kpp KS sub _ (fun _ => r = true -> True) (f r)) -> (forall k c, kp (g_do G k c)) ->
  (forall x, kp (exch_call G x)) -> (forall f c, g_ondisconnect G = Some f -> kp (f c)) -> ok (S := KS) l (server_step G) (fun _ l' => True).
Proof.
  intros H1 H2 H2' H3 H4. apply (ok_mono KS kmono l (server_step G) (fun _ l' => sub l l')); [intros; exact Logic.I|]. revert l. change (kp (server_step G)).
  assert (HC : forall c, kp (Close G c)) by (intros c; destruct (H2 c) as (f & -> & Hf); assert (Hf' : forall r, kp (f r)) by (intros r l; apply (Hf r); auto); kf).
  unfold server_step, publish, act_call. apply (kp_bind krules); [kf|]. intros x. apply (kp_bind krules); [kf|]. intros _.
  destruct x; [kf| |kf|kf]. destruct (g_ondisconnect G) as [f|] eqn:E; [|kf]. pose proof (fun c => H4 f c eq_refl) as H5. kf.
Qed.


(** ** The invariant. *)
Definition opened (w : world) (c : cid) : bool := w_ready (c_wait (conn_of w c)).
Record Inv (w : world) (Ls : gmap tid (gset cid)) : Prop := MkI {
  iv_gate : forall c, w_chclosed (c_wait (conn_of w c)) = true -> opened w c = true;
  iv_dom : forall (t : tid) l c, Ls !! t = Some l -> c ∈ l -> opened w c = true /\ is_Some (w_conns w !! c) }.
Record calm (w w' : world) : Prop := Calm {
  cm_ready : forall c, is_Some (w_conns w !! c) -> opened w c = true -> opened w' c = true /\ is_Some (w_conns w' !! c);
  cm_closed : forall c, w_chclosed (c_wait (conn_of w' c)) = true -> w_chclosed (c_wait (conn_of w c)) = true /\ (opened w c = true -> opened w' c = true) }.
Lemma calm_refl w : calm w w.
Proof. constructor; auto. Qed.
Lemma conn_of_upd c f w c' : conn_of (upd_conn c f w) c' = if decide (c' = c) then f (conn_of w c) else conn_of w c'.
Proof. unfold conn_of, upd_conn. cbn. case_decide as E; [subst; rewrite lookup_insert|rewrite lookup_insert_ne by congruence]; reflexivity. Qed.
Lemma is_some_upd c f w c' : is_Some (w_conns w !! c') -> is_Some (w_conns (upd_conn c f w) !! c').
Proof. intros H. unfold upd_conn. cbn. destruct (decide (c = c')) as [->|D]; [rewrite lookup_insert; eauto|rewrite lookup_insert_ne by exact D; exact H]. Qed.
Lemma calm_conn c f w : (w_ready (c_wait (conn_of w c)) = true -> w_ready (c_wait (f (conn_of w c))) = true) ->
  (w_chclosed (c_wait (f (conn_of w c))) = true -> w_chclosed (c_wait (conn_of w c)) = true) -> calm w (upd_conn c f w).
Proof.
  intros H1 H2. constructor; unfold opened.
  - intros c' Hs. split; [|apply is_some_upd, Hs]. rewrite conn_of_upd. case_decide as E; [subst|]; auto.
  - intros c'. rewrite conn_of_upd. case_decide as E; [subst|]; auto.
Qed.
Lemma calm_same w w' : w_conns w' = w_conns w -> calm w w'.
Proof. intros H1. constructor; intros c; unfold opened, conn_of; rewrite H1; auto. Qed.
Lemma calm_then w w1 w' : calm w w1 -> w_conns w' = w_conns w1 -> calm w w'.
Proof. intros [C1 C2] H. constructor; intros c; unfold opened, conn_of in *; rewrite H; auto. Qed.
Lemma calm_new w w' c k : w_conns w !! c = None -> w_conns w' = <[c := k]> (w_conns w) -> w_chclosed (c_wait k) = false -> calm w w'.
Proof.
  intros H1 H2 H3. constructor; intros c'; unfold opened, conn_of; rewrite H2; (destruct (decide (c = c')) as [<-|D]; [rewrite ?H1, lookup_insert|rewrite lookup_insert_ne by exact D]); cbn; auto.
  - intros [? H]. discriminate H.
  - congruence.
Qed.
Lemma neutral_calm t w o w' r : neutral o = true -> ostep t w o = Goes w' r -> calm w w'.
Proof.
  intros Hb H. destruct o; try discriminate Hb; cbn [ostep] in H;
    repeat match goal with
    | H : match ?x with _ => _ end = Goes _ _ |- _ => destruct x eqn:?; try discriminate H
    end; try discriminate H; injection H as <- <-;
    first [apply calm_refl | (apply calm_same; reflexivity)
      | (apply calm_conn; cbn; auto; fail)
      | (eapply calm_then; [|reflexivity]; apply calm_conn; cbn; auto; fail) | idtac].
  - apply (calm_then w (upd_conn c (fun k => k <| c_procs ::= <[name := w_next w]> |>) w)); [apply calm_conn; cbn; auto|reflexivity].
  - apply calm_conn; destruct typ; cbn; auto.
  - apply calm_conn; destruct typ; cbn; auto.
  - eapply calm_new; [eassumption|reflexivity|reflexivity].
  - eapply calm_new; [eassumption|reflexivity|reflexivity].
Qed.
Lemma env_calm w e : calm w (env_step e w).
Proof.
  destruct e; cbn [env_step]; repeat match goal with |- context [match ?x with _ => _ end] => destruct x eqn:? end;
    first [apply calm_refl | (apply calm_same; reflexivity) | (apply calm_conn; cbn; auto; fail)].
Qed.
Lemma neutral_rule l o P r : neutral o = true -> krule l o P -> P r l.
Proof. intros Hn. destruct o; try discriminate; cbn; auto. Qed.
Lemma inv_calm w w' Ls : Inv w Ls -> calm w w' -> Inv w' Ls.
Proof.
  intros [I1 I2] [C1 C2]. constructor.
  - intros c H. destruct (C2 c H) as [H1 H2]. auto.
  - intros t l c Ht Hc. destruct (I2 t l c Ht Hc) as [H1 H2]. apply C1; assumption.
Qed.
Lemma inv_labels w (Ls : gmap tid (gset cid)) (t : tid) l : Inv w Ls -> (forall c, c ∈ l -> opened w c = true /\ is_Some (w_conns w !! c)) -> Inv w (<[t := l]> Ls).
Proof.
  intros [I1 I2] H. constructor; auto. intros t' l' c Ht Hc. apply lookup_insert_Some in Ht as [[<- <-]|[_ Ht]]; eauto.
Qed.
Lemma gate_op t w Ls l o (P : res o -> gset cid -> Prop) : Inv w Ls -> Ls !! t = Some l -> krule l o P ->
  match ostep t w o with
  | Goes w' r => exists l', Inv w' (<[t := l']> Ls) /\ P r l'
  | _ => True
  end.
Proof.
  intros HI Ht HP. destruct (ostep t w o) as [w' r| |why] eqn:E; auto.
  destruct (neutral o) eqn:En.
  { exists l. rewrite insert_id by exact Ht. split; [eapply inv_calm; [exact HI|eapply neutral_calm; eassumption]|eapply neutral_rule; eassumption]. }
  assert (Hkn : forall c, c ∈ l -> opened w c = true /\ is_Some (w_conns w !! c)) by (intros c Hc; eapply (iv_dom _ _ HI); eassumption).
  destruct o; try discriminate En; cbn [ostep] in E.
  - (* OWSetReady *) injection E as <- <-. cbn in HP. exists ({[c]} ∪ l). split; [|exact HP].
    match goal with |- Inv ?w' _ => set (w1 := w') end.
    assert (HI' : Inv w1 Ls) by (eapply inv_calm; [exact HI|]; apply calm_conn; cbn; auto).
    apply inv_labels; [exact HI'|]. intros c' Hc. destruct (decide (c' = c)) as [->|Hne].
    + unfold opened, w1. rewrite conn_of_upd, decide_True by reflexivity. split; [reflexivity|]. unfold upd_conn. cbn. rewrite lookup_insert. eauto.
    + eapply (iv_dom _ _ HI'); [exact Ht|]. set_solver.
  - (* OWClose *) destruct (w_chclosed (c_wait (conn_of w c))) eqn:Ec; [discriminate E|]. injection E as <- <-. destruct HP as [Hc HP].
    exists l. rewrite insert_id by exact Ht. split; [|exact HP]. destruct HI as [I1 I2]. constructor; unfold opened.
    + intros c'. rewrite conn_of_upd. case_decide as D; [subst; intros _; cbn; apply Hkn, Hc|apply I1].
    + intros t' l' c' Ht' Hc'. destruct (I2 t' l' c' Ht' Hc') as [H1 H2]. split; [|apply is_some_upd, H2]. rewrite conn_of_upd. case_decide as D; [subst|]; exact H1.
Qed.
Lemma gate_respects : respects KS G Inv.
Proof.
  constructor.
  - intros t w Ls l o P HI Ht HP. pose proof (gate_op t w Ls l o P HI Ht HP) as H. destruct (ostep t w o); auto.
  - intros t w Ls l a HI Ht _ Ha. exists l. rewrite insert_id by exact Ht. split; [exact HI|].
    apply (impl_kp krules k_gates); auto using k_ask, k_reply, k_message, k_ack, k_waitm, k_broadcast, k_srvask; try (intros; exact Logic.I).
    destruct a; cbn; auto; destruct n; auto.
  - intros t l Hs. apply (code_kp krules k_gates); auto using k_ask, k_reply, k_message, k_ack, k_waitm, k_broadcast, k_srvask, k_server; try (intros; exact Logic.I).
    + cbn. auto.
    + intros. apply k_upgrade; auto.
    + intros. apply k_dial; auto.
    + intros. apply k_next.
  - intros t w Ls l [I1 I2] Ht _. constructor; auto. intros t' l' c H. apply lookup_delete_Some in H as [_ H]. eauto.
  - intros t w Ls c rest HI Hsp Ht. exists ∅. split; [exact Logic.I|]. apply inv_labels; [|intros c' H; set_solver].
    eapply inv_calm; [exact HI|]. apply calm_same; reflexivity.
  - intros t w Ls c HI Hs Ht. exists ∅. split; [exact Logic.I|]. apply inv_labels; [exact HI|intros c' H; set_solver].
  - intros w Ls e HI _. eapply inv_calm; [exact HI|apply env_calm].
Qed.
Lemma gate_start : exists l, ls_start KS TServer l /\ Inv world0 {[0 := l]}.
Proof.
  exists ∅. split; [exact Logic.I|]. constructor.
  - intros c. unfold conn_of, world0. cbn. rewrite lookup_empty. discriminate.
  - intros t l c H Hc. apply lookup_singleton_Some in H as [_ <-]. set_solver.
Qed.
Lemma gate_reachable s c : reachable G s -> w_chclosed (c_wait (conn_of (s_w s) c)) = true -> w_ready (c_wait (conn_of (s_w s) c)) = true.
Proof. intros Hr. destruct (reachable_holds KS kmono G Inv gate_respects s gate_start Hr) as (_ & Ls & HI & _). apply (iv_gate _ _ HI). Qed.
End gate.
