(** * Jam.v : who may use the broadcaster.  A goroutine takes over a batch, or
    offers one to a connection, only while it holds the lock of the broadcaster
    (broadcaster.go:31-53, server.go:458-468), in every interleaving. *)
From Coq Require Import ZArith.
From stdpp Require Import gmap strings list relations.
From RecordUpdate Require Import RecordUpdate.
From Verif Require Import Go Errors Message World Lang Code Sem Logic Spec_App Frame Spec_Async Async.

Section jam.
Context (G : cfg).
(** Ghost state: whether the goroutine holds the lock. *)
Definition jrule (l : bool) (o : op) : (res o -> bool -> Prop) -> Prop :=
  match o as o return (res o -> bool -> Prop) -> Prop with
  | OBLock => fun P => l = false -> P tt true
  | OBUnlock => fun P => P tt false
  | OBSet _ => fun P => l = true /\ P tt l
  | OLog (LBatch _ _) => fun P => l = true /\ P tt l
  | OLog (LBcast _) => fun P => False
  | OBcSend _ => fun P => False
  | OSrvSelect => fun P => forall x, (forall msgs, x <> SBroadcast msgs) -> P x l
  | _ => fun P => forall r, P r l
  end.
Definition JS : lspec := {|
  ls_L := bool; ls_rule := jrule; ls_cpre := fun _ _ => True; ls_cpost := fun l _ _ l' => l = l';
  ls_crash := fun _ => True; ls_start := fun _ l => l = false; ls_fin := fun _ => True |}.
Lemma jmono : rule_mono JS.
Proof.
  intros l o P P' H. destruct o; try match goal with x : tcode |- _ => destruct x | x : event |- _ => destruct x end; cbn in *; intros HP;
    repeat match goal with H : _ /\ _ |- _ => destruct H | H : ex _ |- _ => destruct H | H : _ \/ _ |- _ => destruct H end; eauto 12.
Qed.
Context (A : user_app (fun _ => True) G) (Hasync : g_sync G = false).
Notation any := (fun _ _ => True).
Lemma jrules : @rules G JS (fun _ => True) eq any any any any any any any any any any (fun _ _ _ _ => True) (fun _ _ => True).
Proof.
  constructor; cbn; unfold stable; auto using jmono; try congruence; try (intros; eauto; fail);
    [|intros c s l P H r; apply H; [reflexivity|destruct r; repeat split]|intros o n l P Ho _ H; destruct o; try discriminate Ho; cbn; intros; apply H; reflexivity].
  intros o l P Hp H.
  destruct o; cbn in *; try discriminate; eauto; try match goal with x : tcode |- _ => destruct x | x : event |- _ => destruct x end; try discriminate; cbn; eauto.
Qed.
Notation kp := (@kp JS eq _).
Definition jneutral (o : op) : bool :=
  match o with
  | OBLock | OBUnlock | OBSet _ | OLog (LBatch _ _) | OLog (LBcast _) | OSrvSelect | OBcSend _ => false
  | _ => true
  end.
Lemma j_free o : jneutral o = true -> kp (opr o).
Proof. intros H l. cbn. unfold jneutral in H. destruct o; try discriminate; cbn; intros; auto;
  match goal with x : tcode |- _ => destruct x | x : event |- _ => destruct x end; try discriminate; cbn; auto. Qed.
Ltac kf := repeat first
  [ apply (kp_ret jrules) | apply (kp_crash jrules) | match goal with |- @Frame.kp _ _ _ (opr ?o) => exact (j_free o eq_refl) end | assumption
  | match goal with H : forall _, _ |- _ => apply H; fail end
  | apply (kp_for_all jrules); intros | apply (kp_bind jrules); [|intros]
  | match goal with |- @Frame.kp _ _ _ ?p => match p with context [match ?x with _ => _ end] => destruct x eqn:? end end ].
Lemma j_gates : @gates G JS eq (fun _ _ => True) (fun _ => True).
Proof.
  constructor; intros.
  - unfold wait. kf.
  - unfold unwait. kf.
  - unfold proc_get. kf.
  - apply (kpp_kp jrules). unfold proc_Done. kf.
  - unfold proc_Wait. kf.
  - apply (kq_any jrules); [auto|]. unfold proc_Start. kf.
Qed.
Lemma j_ask c x m nx : kp (ask G c x m nx).
Proof. pose proof (Write_kp jrules j_gates) as HW. unfold ask. kf. Qed.
Lemma j_send ch m : kp (send ch m).
Proof. unfold send. kf. Qed.
Notation kpp := (@kpp JS eq _ (fun _ => True)).
Lemma kpp_kp1 {X} (p : prog X) : kpp p <-> kp p.
Proof. split; [intros H l; apply H; exact Logic.I|intros H l _; apply H]. Qed.
Lemma j_reply c m : kpp (handle_event G c m) -> kpp (handle_reply_or_event G c m).
Proof. rewrite !kpp_kp1. intros H. pose proof j_send as HS. unfold handle_reply_or_event. kf. Qed.
Lemma j_message c m : (forall m', kpp (handle_event G c m')) -> kpp (handle_reply_or_event G c m) ->
  (forall (n : nsref) m', True -> @Frame.kpp JS eq _ (fun _ => True /\ True /\ True) (fireEvent G n m')) -> kpp (handleMessage G c m).
Proof.
  rewrite !kpp_kp1. intros He Hr Hf. assert (He' : forall m', kp (handle_event G c m')) by (intros; apply kpp_kp1, He).
  assert (Hf' : forall n m', kp (fireEvent G n m')) by (intros n m' l; apply Hf; auto). clear He Hf.
  pose proof j_send as HS. pose proof (Namespace_kp jrules j_gates) as HN. unfold handleMessage. kf.
Qed.
Lemma j_ack c typ b : kpp (handleQueue G c) -> (forall s bin, kp (write G c s bin)) -> kp (wait c) -> (forall e, kp (unwait c e)) ->
  kpp (handleACK G c typ b).
Proof. rewrite !kpp_kp1. intros H1 H2 H3 H4. unfold handleACK. kf. Qed.
Lemma ok_kp {X} l (p : prog X) (Q : X -> bool -> Prop) : kp p -> (forall r, Q r l) -> ok (S := JS) l p Q.
Proof. intros H HQ. eapply (ok_mono JS jmono); [|apply H]. intros r l' <-. apply HQ. Qed.
Lemma kp_ok {X Y} l (p : prog X) (f : X -> prog Y) Q : kp p -> (forall r, ok (S := JS) l (f r) Q) -> ok (S := JS) l (bind p f) Q.
Proof. intros H HQ. eapply (ok_seq JS jmono); [apply H|]. intros r l' <-. apply HQ. Qed.
Lemma j_waitm c l : l = false -> (forall msgs, kp (publishMessages G c msgs)) ->
  ok (S := JS) l (waitMessages G c) (fun r l' => if r : bool then l' = false else True).
Proof.
  intros -> HP. unfold waitMessages, publish. cbn. intros _ g [|]; cbn; [|auto].
  intros ms _. split; [reflexivity|]. apply kp_ok; [apply HP|]. intros r. cbn. destruct r; auto.
Qed.
Lemma j_broadcast msgs : kp (broadcast msgs).
Proof. intros l. unfold broadcast. cbn. intros ->. auto. Qed.
Lemma j_srvask x m : (forall e msgs, kp (Broadcast G e msgs)) -> kp (ServerAsk G x m).
Proof. intros HB. unfold ServerAsk. kf. Qed.
Lemma j_newconn c : kp (newConn G c).
Proof. unfold newConn. kf. Qed.
Lemma j_upgrade c l : (forall e, kp (unwait c e)) -> (forall f, g_onconnect G = Some f -> kp (f c)) -> ok (S := JS) l (Upgrade G c) (fun _ l' => l = l').
Proof.
  intros H1 H2. revert l. refine (_ : kp (Upgrade G c)). pose proof (j_newconn c). unfold Upgrade. destruct (g_onconnect G) as [f|] eqn:E; [pose proof (H2 f eq_refl)|]; kf.
Qed.
Lemma j_dial c l : kp (sendClientACK G c) -> ok (S := JS) l (Dial G c) (fun _ l' => l = l').
Proof. intros H1. revert l. refine (_ : kp (Dial G c)). pose proof (j_newconn c). unfold Dial. kf. Qed.
Lemma j_next c ch : kp (read_next G c ch).
Proof. pose proof j_send. unfold read_next. kf. Qed.
Lemma j_server l : l = false -> (forall c msgs, kp (publishMessages G c msgs)) ->
  (forall c, exists f, Close G c = bind (opr (OCasClosed c)) f /\ forall r : bool, @Frame.kpp JS eq _ (fun _ => r = true -> True) (f r)) -> (forall k c, kp (g_do G k c)) ->
  (forall x, kp (exch_call G x)) -> (forall f c, g_ondisconnect G = Some f -> kp (f c)) -> ok (S := JS) l (server_step G) (fun _ l' => l' = false).
Proof.
  intros -> HP HC HD HX HO. unfold server_step.
  apply (ok_seq JS jmono _ _ _ (fun x l' => l' = false /\ forall msgs, x <> SBroadcast msgs)); [cbn; auto|]. intros x l' [-> Hx].
  assert (HC' : forall c, kp (Close G c)) by (intros c; destruct (HC c) as (f & -> & Hf); assert (Hf' : forall r, kp (f r)) by (intros r l; apply (Hf r); auto); kf).
  destruct x as [c|c|msgs|a]; [| |exfalso; eapply Hx; reflexivity|]; (apply ok_kp; [|reflexivity]).
  - kf.
  - destruct (g_ondisconnect G) as [f|] eqn:E; [|kf]. pose proof (fun c => HO f c eq_refl) as H5. kf.
  - unfold act_call. kf.
Qed.
Lemma jam_code x l : ls_start JS x l -> ok (S := JS) l (code G x) after.
Proof.
  apply (code_kp jrules j_gates); auto using j_ask, j_reply, j_message, j_ack, j_waitm, j_broadcast, j_srvask, j_server; try (intros; exact Logic.I).
  - cbn. auto.
  - intros c' l0 Hc Hu Hf. apply j_upgrade; auto.
  - intros c' l0 Hc Hd. apply j_dial; auto.
  - intros c' ch l0 _. apply j_next.
  - cbn. congruence.
  - cbn. congruence.
Qed.

(** ** The invariant. *)
Record JInv (w : world) (Ls : gmap tid bool) : Prop := MkJ {
  jv_lock : forall (t : tid), Ls !! t = Some true -> b_mu (w_srv w) = Some t;
  jv_bcast : s_bcast (w_srv w) = [] }.
Lemma jneutral_op t w o w' r : jneutral o = true -> ostep t w o = Goes w' r -> b_mu (w_srv w') = b_mu (w_srv w) /\ s_bcast (w_srv w') = s_bcast (w_srv w).
Proof.
  intros Hn H. destruct o; try discriminate Hn; cbn [ostep] in H; cbv zeta in H;
    repeat match goal with H : match ?x with _ => _ end = Goes _ _ |- _ => destruct x eqn:?; try discriminate H end; try discriminate H; injection H as <- <-; auto.
Qed.
Lemma jneutral_rule l o (P : res o -> bool -> Prop) : jneutral o = true -> jrule l o P -> forall r, P r l.
Proof. intros Hn H. destruct o; try discriminate Hn; try exact H. destruct e; try discriminate Hn; exact H. Qed.
Lemma jenv w e : b_mu (w_srv (env_step e w)) = b_mu (w_srv w) /\ s_bcast (w_srv (env_step e w)) = s_bcast (w_srv w).
Proof. destruct e; cbn [env_step]; repeat match goal with |- context [match ?x with _ => _ end] => destruct x eqn:? end; auto. Qed.
Lemma jam_respects : respects JS G JInv.
Proof.
  constructor.
  - intros t w Ls l o P HI Ht HP. destruct (ostep t w o) as [w' r| |why] eqn:E; auto; [|exact Logic.I]. destruct HI as [I1 I2].
    destruct (jneutral o) eqn:En.
    { destruct (jneutral_op t w o w' r En E) as [E1 E2]. exists l. rewrite insert_id by exact Ht. split; [constructor; rewrite ?E1, ?E2; auto|].
      eapply jneutral_rule; eassumption. }
    destruct o; try discriminate En; cbn in HP, E.
    + contradiction.
    + destruct (pick w (srv_ready (w_srv w))) as [x|] eqn:Ep; [|discriminate]. injection E as <- <-.
      assert (Hx : forall msgs, x <> SBroadcast msgs).
      { intros msgs ->. apply elem_of_list_In, nth_error_In, elem_of_list_In in Ep || (unfold pick in Ep; apply nth_error_In, elem_of_list_In in Ep). unfold srv_ready in Ep. rewrite I2 in Ep.
        rewrite !elem_of_app in Ep. destruct (s_connbuf _), (s_disc _), (s_acts _); rewrite ?elem_of_list_singleton, ?elem_of_nil in Ep; naive_solver. }
      exists l. rewrite insert_id by exact Ht. split; [|apply HP, Hx]. destruct x; try (constructor; cbn; auto; fail). exfalso. eapply Hx. reflexivity.
    + destruct (b_mu (w_srv w)) as [u|] eqn:Eb; [discriminate|]. injection E as <- <-. exists true. split.
      * constructor; cbn; [|exact I2]. intros t' H. apply lookup_insert_Some in H as [[-> _]|[_ H]]; [reflexivity|]. apply I1 in H. discriminate.
      * apply HP. destruct l; [|reflexivity]. apply I1 in Ht. discriminate.
    + destruct (b_mu (w_srv w)) as [u|] eqn:Eb; [|discriminate]. destruct (Nat.eqb t u) eqn:Eu; [|discriminate]. injection E as <- <-. exists false. split; [|exact HP].
      apply Nat.eqb_eq in Eu as <-. constructor; cbn; [|exact I2]. intros t' H. apply lookup_insert_Some in H as [[_ H]|[Hne H]]; [discriminate|]. apply I1 in H. congruence.
    + injection E as <- <-. destruct HP as [_ HP]. exists l. rewrite insert_id by exact Ht. split; [constructor; auto|exact HP].
    + injection E as <- <-. exists l. rewrite insert_id by exact Ht. split; [constructor; auto|]. destruct e; try discriminate En; cbn in HP; first [contradiction|apply HP].
  - intros t w Ls l a HI Ht _ Ha. exists l. rewrite insert_id by exact Ht. split; [exact HI|].
    apply (impl_kp jrules j_gates); auto using j_ask, j_reply, j_message, j_ack, j_waitm, j_broadcast, j_srvask; try (intros; exact Logic.I).
    destruct a; cbn; auto; destruct n; auto.
  - intros x l Hs. apply jam_code, Hs.
  - intros t w Ls l [I1 I2] Ht _. constructor; [|exact I2]. intros t' H. apply lookup_delete_Some in H as [_ H]. auto.
  - intros t w Ls x rest [I1 I2] Hsp Ht. exists false. split; [reflexivity|]. constructor; [|exact I2]. intros t' H. apply lookup_insert_Some in H as [[_ H]|[_ H]]; [discriminate|auto].
  - intros t w Ls x [I1 I2] Hs Ht. exists false. split; [reflexivity|]. constructor; [|exact I2]. intros t' H. apply lookup_insert_Some in H as [[_ H]|[_ H]]; [discriminate|auto].
  - intros w Ls e [I1 I2] _. destruct (jenv w e) as [E1 E2]. constructor; rewrite ?E1, ?E2; auto.
Qed.
End jam.
Lemma jam_reachable G s : user_app (fun _ => True) G -> g_sync G = false -> reachable G s -> holds JS JInv s.
Proof.
  intros HA HG Hr. refine (reachable_holds JS jmono G _ (jam_respects G HA HG) s _ Hr).
  exists false. split; [reflexivity|]. constructor; [|reflexivity]. intros t H. apply lookup_singleton_Some in H as [_ H]. discriminate.
Qed.
