(** * End.v : the goroutine that reads a connection stops only when the
    connection is closed, and a Dial that fails has closed it (C63), in every
    interleaving. *)
From Coq Require Import ZArith.
From stdpp Require Import gmap strings list relations.
From RecordUpdate Require Import RecordUpdate.
From Verif Require Import Go Errors Message World Lang Code Sem Logic Spec_App Frame.

(** Ghost state of a goroutine: whether it is a reader of [c], whether it knows that [c] is closed. *)
Notation lab := (bool * bool)%type.

Section ends.
Context (G : cfg) (c : cid) (t0 : tid).
Definition erule (l : lab) (o : op) : (res o -> lab -> Prop) -> Prop :=
  match o as o return (res o -> lab -> Prop) -> Prop with
  | OCasClosed c' => fun P => forall r, P r (if Nat.eqb c' c then (l.1, true) else l)
  | OIsClosed c' => fun P => forall r : bool, P r (if Nat.eqb c' c && r then (l.1, true) else l)
  | _ => fun P => forall r, P r l
  end.
Definition more (l l' : lab) : Prop := l'.1 = l.1 /\ (l.2 = true -> l'.2 = true).
Definition estart (x : tcode) (l : lab) : Prop :=
  match x with TReader c' | TReaderLoop c' => c' = c \/ l.1 = false | _ => l.1 = false end.
Definition SE : lspec := {|
  ls_L := lab; ls_rule := erule; ls_cpre := fun _ _ => True; ls_cpost := fun l _ _ l' => more l l';
  ls_crash := fun _ => True; ls_start := estart; ls_fin := fun l => l.1 = true -> l.2 = true |}.
Lemma emono : rule_mono SE.
Proof. intros l o P P' H. destruct o; cbn; auto. Qed.
Lemma more_refl l : more l l.
Proof. split; auto. Qed.
Lemma more_trans a b d : more a b -> more b d -> more a d.
Proof. intros [? ?] [? ?]. split; [congruence|auto]. Qed.
Lemma rule_any o l (P : res o -> lab -> Prop) : (forall r l', more l l' -> P r l') -> erule l o P.
Proof.
  intros H. destruct o; cbn; intros; apply H; try apply more_refl.
  - destruct (Nat.eqb c0 c && r); [split; auto|apply more_refl].
  - destruct (Nat.eqb c0 c); [split; auto|apply more_refl].
Qed.
(** Any program whatsoever only adds to what is known. *)
Lemma any {X} (p : prog X) l : ok (S := SE) l p (fun _ l' => more l l').
Proof.
  revert l. induction p as [x|o k IH|a k IH|why]; intros l; cbn [ok]; [apply more_refl| | |exact Logic.I].
  - apply rule_any. intros r l' H. eapply (ok_mono SE emono); [|apply IH]. intros r' l'' H'. exact (more_trans _ _ _ H H').
  - split; [exact Logic.I|]. intros r l' H. eapply (ok_mono SE emono); [|apply IH]. intros r' l'' H'. exact (more_trans _ _ _ H H').
Qed.
Lemma anyQ {X Y} (p : prog X) (f : X -> prog Y) l Q : (forall r l', more l l' -> ok (S := SE) l' (f r) Q) -> ok (S := SE) l (bind p f) Q.
Proof. intros H. eapply (ok_seq SE emono); [apply any|]. exact H. Qed.
Lemma plain_end {X} (p : prog X) l : l.1 = false -> ok (S := SE) l (bind p (fun _ => Ret None)) after.
Proof. intros E. apply anyQ. intros r l' [H _]. cbn. congruence. Qed.
Lemma close_knows l : ok (S := SE) l (Close G c) (fun _ l' => more l l' /\ l'.2 = true).
Proof.
  unfold Close. cbn [bind opr ok ls_rule SE erule]. rewrite Nat.eqb_refl. intros r. eapply (ok_mono SE emono); [|apply any]. intros r' l' [H1 H2]. cbn in *. split; [split; auto|auto].
Qed.
Lemma ends_code x l : estart x l -> ok (S := SE) l (code G x) after.
Proof.
  destruct x as [k|c'|c'|c' ch|c'| | |c'|c'|c']; cbn [estart code]; intros Hs; try (apply plain_end; exact Hs).
  - cbn. intros r. destruct r; cbn; [|destruct (Nat.eqb c' c && false) eqn:E; [apply andb_true_iff in E as [_ E]; discriminate|exact Hs]].
    destruct Hs as [->|Hs]; [rewrite Nat.eqb_refl; auto|]. destruct (Nat.eqb c' c && true); cbn; congruence.
  - apply anyQ. intros go l' [H1 H2]. destruct go; [cbn; destruct Hs; [auto|right; congruence]|]. destruct Hs as [->|Hs].
    + eapply (ok_seq SE emono); [apply close_knows|]. intros r l'' [_ H]. cbn. auto.
    + apply plain_end. congruence.
  - apply anyQ. intros r l' [H _]. cbn. congruence.
  - apply anyQ. intros r l' [H _]. cbn. congruence.
  - apply anyQ. intros r l' [H _]. destruct r; cbn; congruence.
Qed.

(** ** The invariant. *)
Definition gone (w : world) : Prop := c_closed (conn_of w c) = true.
Record Inv (w : world) (Ls : gmap tid lab) : Prop := MkI {
  iv_know : forall (t : tid) l, Ls !! t = Some l -> l.2 = true -> gone w;
  iv_me : gone w \/ exists l, Ls !! t0 = Some l /\ l.1 = true }.
Lemma gone_op t w o w' r : ostep t w o = Goes w' r -> gone w -> gone w'.
Proof.
  intros H Hg. unfold gone in *.
  assert (Hu : forall c0 f w1, conn_of w1 c = conn_of w c -> (c0 = c -> c_closed (f (conn_of w c)) = true) -> c_closed (conn_of (upd_conn c0 f w1) c) = true).
  { intros c0 f w1 E Hf. destruct (decide (c0 = c)) as [->|Hne]; unfold conn_of at 1; cbn; [rewrite lookup_insert; cbn; rewrite E; auto|rewrite lookup_insert_ne by exact Hne; fold (conn_of w1 c); rewrite E; exact Hg]. }
  destruct o; cbn [ostep] in H;
    repeat match goal with
    | H : match ?x with _ => _ end = Goes _ _ |- _ => destruct x eqn:?; try discriminate H
    end; try discriminate H; injection H as <- <-; try exact Hg;
    first [apply Hu; [reflexivity|intros _; cbn; first [exact Hg|reflexivity|match goal with |- context [match ?x with _ => _ end] => destruct x; exact Hg end]] | idtac].
  all: match goal with H : w_conns _ !! ?x = None |- _ => unfold conn_of in *; cbn; destruct (decide (x = c)) as [->|Hne]; [rewrite H in Hg; discriminate Hg|rewrite lookup_insert_ne by exact Hne; exact Hg] end.
Qed.
Lemma gone_env w e : gone w -> gone (env_step e w).
Proof.
  intros Hg. unfold gone in *.
  destruct e; cbn [env_step]; repeat match goal with |- context [match ?x with _ => _ end] => destruct x eqn:? end; try exact Hg.
  all: unfold conn_of, upd_conn in *; cbn; match goal with |- context [<[?x := _]> _ !! c] => destruct (decide (x = c)) as [->|Hne]; [rewrite lookup_insert; exact Hg|rewrite lookup_insert_ne by exact Hne; exact Hg] end.
Qed.
Lemma ends_respects : respects SE G Inv.
Proof.
  constructor.
  - intros t w Ls l o P [I1 I2] Ht HP. destruct (ostep t w o) as [w' r| |why] eqn:E; auto; [|exact Logic.I].
    assert (Hg : gone w -> gone w') by (eapply gone_op, E).
    assert (Hl : exists l', P r l' /\ l'.1 = l.1 /\ (l'.2 = true -> gone w')).
    { pose proof (I1 _ _ Ht) as Hk. destruct o; try (exists l; split; [apply HP|split; auto]; fail); cbn in HP, E.
      - injection E as <- <-. eexists. split; [apply HP|]. destruct (Nat.eqb_spec c0 c) as [->|]; cbn; [|auto]. destruct (c_closed (conn_of w c)) eqn:Ec; cbn; auto.
      - eexists. split; [apply HP|]. destruct (Nat.eqb_spec c0 c) as [->|]; cbn; [|auto]. split; [reflexivity|]. intros _.
        destruct (c_closed (conn_of w c)) eqn:Ec; injection E as <- <-; [exact Ec|]. unfold gone, conn_of, upd_conn. cbn. rewrite lookup_insert. reflexivity. }
    destruct Hl as (l' & HP' & E1 & E2). exists l'. split; [|exact HP']. constructor.
    + intros t1 l1 H. apply lookup_insert_Some in H as [[<- <-]|[_ H]]; eauto.
    + destruct I2 as [H|(l1 & H & H')]; [auto|right]. destruct (decide (t = t0)) as [->|Hne]; [pose proof (eq_trans (eq_sym H) Ht) as X; injection X as ->; exists l'; split; [apply lookup_insert|rewrite E1; exact H']|rewrite lookup_insert_ne by exact Hne; eauto].
  - intros t w Ls l a HI Ht _ _. exists l. rewrite insert_id by exact Ht. split; [exact HI|apply any].
  - intros x l Hs. apply ends_code, Hs.
  - intros t w Ls l [I1 I2] Ht Hf. constructor; [intros t1 l1 H; apply lookup_delete_Some in H as [_ H]; eauto|].
    destruct I2 as [H|(l1 & H & H')]; [auto|]. destruct (decide (t = t0)) as [->|Hne]; [left; pose proof (eq_trans (eq_sym H) Ht) as X; injection X as ->; exact (I1 _ _ Ht (Hf H'))|right; rewrite lookup_delete_ne by exact Hne; eauto].
  - intros t w Ls x rest [I1 I2] Hsp Ht. exists (false, false). split; [destruct x; cbn; auto|]. constructor.
    + intros t1 l1 H. apply lookup_insert_Some in H as [[<- <-]|[_ H]]; [discriminate|eauto].
    + destruct I2 as [H|(l1 & H & H')]; [auto|right]. destruct (decide (t = t0)) as [->|Hne]; [pose proof (eq_trans (eq_sym H) Ht) as X; discriminate X|rewrite lookup_insert_ne by exact Hne; eauto].
  - intros t w Ls x [I1 I2] Hs Ht. exists (false, false). split; [destruct x; cbn; auto|]. constructor.
    + intros t1 l1 H. apply lookup_insert_Some in H as [[<- <-]|[_ H]]; [discriminate|eauto].
    + destruct I2 as [H|(l1 & H & H')]; [auto|right]. destruct (decide (t = t0)) as [->|Hne]; [pose proof (eq_trans (eq_sym H) Ht) as X; discriminate X|rewrite lookup_insert_ne by exact Hne; eauto].
  - intros w Ls e [I1 I2] _. constructor; [intros t l H H'; eapply gone_env, I1; eassumption|]. destruct I2; [left; apply gone_env; assumption|auto].
Qed.
End ends.

(** From any state in which [t] starts to read [c]. *)
Lemma reader_ends G c t s s' : (s_th s !! t = Some (code G (TReader c)) \/ s_th s !! t = Some (code G (TReaderLoop c))) ->
  (forall t' : tid, s_next s <= t' -> s_th s !! t' = None) -> steps G s s' -> s_th s' !! t = None -> c_closed (conn_of (s_w s') c) = true.
Proof.
  intros Ht Hn Hst He.
  assert (Hh : holds (SE c) (Inv c t) s).
  { split; [intros; exact Logic.I|]. exists (<[t := (true, false)]> ((fun _ => (false, false)) <$> s_th s)). split; [|split; [exact Hn|split]].
    - constructor; [|right; exists (true, false); split; [apply lookup_insert|reflexivity]].
      intros t' l H. apply lookup_insert_Some in H as [[_ <-]|[_ H]]; [discriminate|]. apply lookup_fmap_Some in H as (p & <- & _). discriminate.
    - intros t' H. apply lookup_insert_None. split; [rewrite lookup_fmap, H; reflexivity|]. intros <-. destruct Ht; congruence.
    - intros t' p H. destruct (decide (t = t')) as [<-|Hne].
      + exists (true, false). split; [apply lookup_insert|]. destruct Ht as [Ht|Ht]; rewrite Ht in H; apply (inj Some) in H as <-.
        * exact (ends_code G c (TReader c) (true, false) (or_introl eq_refl)).
        * exact (ends_code G c (TReaderLoop c) (true, false) (or_introl eq_refl)).
      + exists (false, false). split; [rewrite lookup_insert_ne, lookup_fmap, H by exact Hne; reflexivity|]. eapply (ok_mono (SE c) (emono c)); [|apply any].
        intros [x|] l' [H1 _]; cbn in *; [destruct x; cbn; auto|congruence]. }
  destruct (steps_holds (SE c) (emono c) G (Inv c t) (ends_respects G c t) s s' Hh Hst) as (_ & Ls & [_ [Hg|(l & H & _)]] & _ & H2 & _); [exact Hg|].
  pose proof (eq_trans (eq_sym (H2 _ He)) H) as X. discriminate X.
Qed.

(** ** A Dial that reports an error has closed the connection. *)
Section err.
Context (G : cfg) (c : cid).
(** Ghost state: whether the goroutine knows that [c] is closed. *)
Definition frule (l : bool) (o : op) : (res o -> bool -> Prop) -> Prop :=
  match o as o return (res o -> bool -> Prop) -> Prop with
  | OCasClosed c' => fun P => forall r, P r (if Nat.eqb c' c then true else l)
  | OLog (LDial c' (Some _) _) => fun P => (c' = c -> l = true) /\ P tt l
  | _ => fun P => forall r, P r l
  end.
Definition imp (l l' : bool) : Prop := l = true -> l' = true.
Definition SF : lspec := {|
  ls_L := bool; ls_rule := frule; ls_cpre := fun _ _ => True; ls_cpost := fun l _ _ l' => imp l l';
  ls_crash := fun _ => True; ls_start := fun _ _ => True; ls_fin := fun _ => True |}.
Lemma fmono : rule_mono SF.
Proof. intros l o P P' H. destruct o; cbn; auto. destruct e; cbn; auto. destruct err; cbn; auto. intros [? ?]; auto. Qed.
Lemma imp_refl l : imp l l.
Proof. exact (fun H => H). Qed.
Lemma imp_trans a b d : imp a b -> imp b d -> imp a d.
Proof. unfold imp. auto. Qed.
Lemma imp_if (b : bool) l : imp l (if b then true else l).
Proof. destruct b; unfold imp; auto. Qed.
#[local] Hint Resolve imp_refl imp_if : core.
Context (A : user_app (fun _ => True) G).
Notation any := (fun _ _ => True).
Notation free := (fun _ => True).
Lemma frules : @rules G SF (fun _ => True) imp any any any any any any any any any any (fun _ _ _ _ => True) (fun _ _ => True).
Proof.
  constructor; cbn; unfold stable; auto using fmono; try (intros; eauto using imp_trans; fail).
  - intros o l P Hp H. destruct o; cbn in *; try discriminate; auto. destruct e; try discriminate; auto.
  - intros c0 s l P H r. apply H; [auto|]. destruct r; auto.
  - intros o n l P Ho _ H. destruct o; try discriminate Ho; cbn; auto.
Qed.
Notation kp := (@kp SF imp _).
Notation kpp P := (@kpp SF imp _ P).
Definition neutral (o : op) : bool := match o with OLog (LDial _ (Some _) _) => false | _ => true end.
Lemma f_free o : neutral o = true -> kp (opr o).
Proof. intros H l. destruct o; try discriminate; cbn; try (intros; auto; fail). destruct e; cbn; auto. destruct err; [discriminate|auto]. Qed.
Ltac kf := repeat first
  [ apply (kp_ret frules) | apply (kp_crash frules) | match goal with |- @Frame.kp _ _ _ (opr ?o) => exact (f_free o eq_refl) end | assumption
  | match goal with H : forall _, _ |- _ => apply H; fail end
  | match goal with |- @Frame.kp _ _ _ (Do _ _) => apply (kp_do frules); [reflexivity|intros] end
  | apply (kp_for_all frules); intros | apply (kp_bind frules); [|intros]
  | match goal with |- @Frame.kp _ _ _ ?p => match p with context [match ?x with _ => _ end] => destruct x eqn:? end end ].
Lemma f_gates : @gates G SF imp any free.
Proof.
  constructor; intros.
  - unfold wait. kf.
  - unfold unwait. kf.
  - unfold proc_get. kf.
  - apply (kpp_kp frules). unfold proc_Done. kf.
  - unfold proc_Wait. kf.
  - apply (kq_any frules); [auto|]. unfold proc_Start. kf.
Qed.
Lemma f_ask c' x m nx : kp (ask G c' x m nx).
Proof. pose proof (Write_kp frules f_gates) as HW. unfold ask. kf. Qed.
Lemma f_send ch m : kp (send ch m).
Proof. unfold send. kf. Qed.
Lemma f_reply c' m : kpp (fun _ => True) (handle_event G c' m) -> kpp (fun _ => True) (handle_reply_or_event G c' m).
Proof.
  intros H. assert (H' : kp (handle_event G c' m)) by (intros l; apply H; exact Logic.I). pose proof f_send. apply (kpp_kp frules). unfold handle_reply_or_event. kf.
Qed.
Lemma f_message c' m : (forall m', kpp (fun _ => True) (handle_event G c' m')) -> kpp (fun _ => True) (handle_reply_or_event G c' m) ->
  (forall n m', True -> kpp (fun _ => True /\ True /\ True) (fireEvent G n m')) -> kpp (fun _ => True) (handleMessage G c' m).
Proof.
  intros He Hr Hf. assert (He' : forall m', kp (handle_event G c' m')) by (intros m' l; apply He; exact Logic.I).
  assert (Hr' : kp (handle_reply_or_event G c' m)) by (intros l; apply Hr; exact Logic.I).
  assert (Hf' : forall n m', kp (fireEvent G n m')) by (intros n m' l; apply Hf; auto).
  pose proof (Namespace_kp frules f_gates) as HN. pose proof f_send as HS.
  apply (kpp_kp frules). unfold handleMessage. destruct (m_isInvalid m); [kf|]. pose proof (exch_call_kp frules f_gates). kf.
Qed.
Lemma f_ack c' typ b : kpp (fun _ => True) (handleQueue G c') -> (forall s bin, kp (write G c' s bin)) -> True -> kp (wait c') -> (forall e, kp (unwait c' e)) ->
  kpp (fun _ => True) (handleACK G c' typ b).
Proof.
  intros H1 H2 Hc H3 H4 l0 _. revert l0. assert (H1' : kp (handleQueue G c')) by (intros l; apply H1; exact Logic.I).
  refine (_ : kp (handleACK G c' typ b)). unfold handleACK. kf.
Qed.
Lemma f_any {X} (p : prog X) l (Q : X -> bool -> Prop) : kp p -> (forall r l', Q r l') -> ok (S := SF) l p Q.
Proof. intros H HQ. eapply (ok_mono SF fmono); [|apply H]. intros r l' _. auto. Qed.
Lemma f_waitm c' l : True -> (forall msgs, kp (publishMessages G c' msgs)) -> ok (S := SF) l (waitMessages G c') (fun r l' => if r : bool then True else True).
Proof. intros _ H. apply f_any; [unfold waitMessages, publish; kf|]. intros [|]; auto. Qed.
Lemma f_broadcast msgs : kp (broadcast msgs).
Proof. unfold broadcast. kf. Qed.
Lemma f_srvask x m : (forall e msgs, kp (Broadcast G e msgs)) -> kp (ServerAsk G x m).
Proof. intros HB. unfold ServerAsk. kf. Qed.
Lemma f_seq {X Y} l (p : prog X) (f : X -> prog Y) (Q : Y -> bool -> Prop) : kp p -> (forall r l', imp l l' -> ok (S := SF) l' (f r) Q) -> ok (S := SF) l (bind p f) Q.
Proof. intros Hp Hf. eapply (ok_seq SF fmono); [apply Hp|]. intros r l' H. apply Hf, H. Qed.
Lemma f_newconn c' : kp (newConn G c').
Proof. unfold newConn. kf. Qed.
Lemma f_upgrade c' l : (forall e, kp (unwait c' e)) -> (forall f, g_onconnect G = Some f -> kp (f c')) -> ok (S := SF) l (Upgrade G c') (fun _ l' => imp l l').
Proof.
  intros H1 H2. revert l. refine (_ : kp (Upgrade G c')). pose proof (f_newconn c'). unfold Upgrade. destruct (g_onconnect G) as [f|] eqn:E; [pose proof (H2 f eq_refl)|]; kf.
Qed.
Lemma f_close l : ok (S := SF) l (Close G c) (fun _ l' => l' = true).
Proof.
  destruct (Close_split frules f_gates c) as (f & -> & Hf). cbn. rewrite Nat.eqb_refl. intros r. eapply (ok_mono SF fmono); [|apply Hf; auto]. intros r' l' H. apply H. reflexivity.
Qed.
Lemma f_client l : ok (S := SF) l (sendClientACK G c) (fun r l' => imp l l' /\ (r <> None -> l' = true)).
Proof.
  assert (Hc : forall l (e : option gerr), ok (S := SF) l (Close G c ;;; Ret e) (fun r l' => imp l l' /\ (r <> None -> l' = true))).
  { intros l0 e. eapply (ok_seq SF fmono); [apply f_close|]. cbn. unfold imp. auto. }
  unfold sendClientACK. destruct (onlyNative G c); [cbn; split; [auto|congruence]|].
  apply f_seq; [apply (write_kp frules f_gates)|]. intros [|] l1 H1; cbn [negb].
  - apply f_seq; [apply f_gates; exact Logic.I|]. intros [e|] l2 H2; [|cbn; split; [eauto using imp_trans|congruence]].
    eapply (ok_mono SF fmono); [|apply Hc]. intros r l3 [H3 H4]. split; [|exact H4]. eauto using imp_trans.
  - eapply (ok_mono SF fmono); [|apply Hc]. intros r l3 [H3 H4]. split; [|exact H4]. eauto using imp_trans.
Qed.
Lemma f_dial c' l : kp (sendClientACK G c') -> ok (S := SF) l (Dial G c') (fun _ l' => imp l l').
Proof.
  intros H1. unfold Dial. apply f_seq; [apply f_newconn|]. intros _ l1 M1. apply f_seq; [kf|]. intros _ l2 M2.
  assert (M : imp l l2) by eauto using imp_trans. clear l1 M1 M2. destruct (decide (c' = c)) as [->|Hne].
  - eapply (ok_seq SF fmono); [apply f_client|]. intros [e|] l3 [M3 H3].
    + cbn. split; [intros _; apply H3; discriminate|eauto using imp_trans].
    + cbn. intros _ _. eauto using imp_trans.
  - apply f_seq; [exact H1|]. intros [e|] l3 M3; cbn; [split; [congruence|]; eauto using imp_trans|]. intros _ _. eauto using imp_trans.
Qed.
Lemma f_next c' ch : kp (read_next G c' ch).
Proof. pose proof f_send. unfold read_next. kf. Qed.
Lemma f_server l : True -> (forall c' msgs, kp (publishMessages G c' msgs)) ->
  (forall c', exists f, Close G c' = bind (opr (OCasClosed c')) f /\ forall r : bool, @Frame.kpp SF imp _ (fun l => r = true -> True) (f r)) -> (forall k c', kp (g_do G k c')) ->
  (forall x, kp (exch_call G x)) -> (forall f c', g_ondisconnect G = Some f -> kp (f c')) -> ok (S := SF) l (server_step G) (fun _ l' => True).
Proof.
  intros _ H1 _ H2' H3 H4. pose proof (Close_kp frules f_gates) as HC. apply f_any; [|auto].
  unfold server_step, publish, act_call. apply (kp_bind frules); [kf|]. intros x. apply (kp_bind frules); [kf|]. intros _.
  destruct x; [kf| |kf|kf]. destruct (g_ondisconnect G) as [f|] eqn:E; [|kf]. pose proof (fun c => H4 f c eq_refl) as H5. kf.
Qed.
Lemma err_code x l : ok (S := SF) l (code G x) after.
Proof.
  apply (code_kp frules f_gates); auto using f_ask, f_reply, f_message, f_ack, f_waitm, f_broadcast, f_srvask, f_server; try (intros; exact Logic.I).
  - cbn. auto.
  - intros c' l0 Hc Hu Hf. apply f_upgrade; auto.
  - intros c' l0 Hc Hd. apply f_dial; auto.
  - intros c' ch l0 _. apply f_next.
Qed.
Record FInv (w : world) (Ls : gmap tid bool) : Prop := MkF {
  fv_know : forall (t : tid), Ls !! t = Some true -> gone c w;
  fv_log : forall e i, LDial c (Some e) i ∈ w_log w -> gone c w }.
Lemma finv_mono w w' Ls : FInv w Ls -> (gone c w -> gone c w') -> (forall e i, LDial c (Some e) i ∈ w_log w' -> LDial c (Some e) i ∈ w_log w \/ gone c w) -> FInv w' Ls.
Proof. intros [I1 I2] Hg Hl. constructor; [eauto|]. intros e i H. destruct (Hl e i H); eauto. Qed.
Lemma log_op t w o w' r : ostep t w o = Goes w' r -> w_log w' = w_log w \/ exists e, w_log w' = e :: w_log w /\ match o with OLog e' => e' = e | _ => forall c' x i, e <> LDial c' x i end.
Proof.
  intros H. destruct o; cbn [ostep] in H;
    repeat match goal with
    | H : match ?x with _ => _ end = Goes _ _ |- _ => destruct x eqn:?; try discriminate H
    end; try discriminate H; injection H as <- <-; first [left; reflexivity | right; eexists; split; [reflexivity|]; first [reflexivity|discriminate]].
Qed.
Lemma log_env w e : w_log (env_step e w) = w_log w.
Proof. destruct e; cbn [env_step]; repeat match goal with |- context [match ?x with _ => _ end] => destruct x eqn:? end; reflexivity. Qed.
Lemma err_respects : respects SF G FInv.
Proof.
  constructor.
  - intros t w Ls l o P HI Ht HP. destruct (ostep t w o) as [w' r| |why] eqn:E; auto; [|exact Logic.I].
    assert (Hg : gone c w -> gone c w') by (eapply gone_op, E). pose proof HI as [I1 I2].
    assert (Hl : exists l', P r l' /\ (l' = true -> gone c w') /\ (forall e i, LDial c (Some e) i ∈ w_log w' -> LDial c (Some e) i ∈ w_log w \/ gone c w)).
    { assert (Hk : l = true -> gone c w) by (intros ->; eapply I1, Ht).
      destruct (match o with OCasClosed _ => true | OLog (LDial _ (Some _) _) => true | _ => false end) eqn:Eo.
      - destruct o; try discriminate Eo; cbn in HP, E.
        + eexists. split; [apply HP|]. split; [|intros e i H; left; destruct (c_closed (conn_of w c0)); injection E as <- <-; exact H].
          destruct (Nat.eqb_spec c0 c) as [->|]; [intros _|auto]. destruct (c_closed (conn_of w c)) eqn:Ec; injection E as <- <-; [exact Ec|].
          unfold gone, conn_of, upd_conn. cbn. rewrite lookup_insert. reflexivity.
        + injection E as <- <-. destruct e; try discriminate Eo. destruct err as [e|]; [|discriminate Eo]. cbn in HP. destruct HP as [HP1 HP]. exists l. split; [exact HP|]. split; [auto|].
          intros e' i H. apply elem_of_cons in H as [H|H]; [right; apply Hk, HP1; congruence|auto].
      - exists l. split; [destruct o; try discriminate Eo; try apply HP; destruct e; try discriminate Eo; try apply HP; destruct err; [discriminate Eo|apply HP]|]. split; [auto|].
        intros e i H. left. destruct (log_op _ _ _ _ _ E) as [El|(e' & El & He)]; rewrite El in H; [exact H|]. apply elem_of_cons in H as [<-|H]; [|exact H].
        destruct o; try (destruct (He _ _ _ eq_refl)). subst. discriminate Eo. }
    destruct Hl as (l' & HP' & H1 & H2). exists l'. split; [|exact HP']. constructor.
    + intros t' H. apply lookup_insert_Some in H as [[_ ->]|[_ H]]; eauto.
    + intros e i H. destruct (H2 e i H); eauto.
  - intros t w Ls l a HI Ht _ Ha. exists l. rewrite insert_id by exact Ht. split; [exact HI|].
    apply (impl_kp frules f_gates); auto using f_ask, f_reply, f_message, f_ack, f_waitm, f_broadcast, f_srvask; try (intros; exact Logic.I).
    destruct a; cbn; auto; destruct n; auto.
  - intros x l Hs. apply err_code.
  - intros t w Ls l [I1 I2] Ht _. constructor; [|exact I2]. intros t' H. apply lookup_delete_Some in H as [_ H]. eauto.
  - intros t w Ls x rest [I1 I2] Hsp Ht. exists false. split; [exact Logic.I|]. constructor; [|exact I2]. intros t' H. apply lookup_insert_Some in H as [[_ H]|[_ H]]; [discriminate|exact (I1 _ H)].
  - intros t w Ls x [I1 I2] Hs Ht. exists false. split; [exact Logic.I|]. constructor; [|exact I2]. intros t' H. apply lookup_insert_Some in H as [[_ H]|[_ H]]; [discriminate|exact (I1 _ H)].
  - intros w Ls e HI _. eapply finv_mono; [exact HI|apply gone_env|]. intros e' i. rewrite log_env. auto.
Qed.
Lemma err_start : exists l, ls_start SF TServer l /\ FInv world0 {[0 := l]}.
Proof.
  exists false. split; [exact Logic.I|]. constructor; [|intros e i H; apply elem_of_nil in H as []]. intros t H. apply lookup_singleton_Some in H as [_ H]. discriminate.
Qed.
End err.
Lemma dial_error_closed G c s e i : user_app (fun _ => True) G -> reachable G s -> LDial c (Some e) i ∈ w_log (s_w s) -> c_closed (conn_of (s_w s) c) = true.
Proof. intros HA Hr H. destruct (reachable_holds (SF c) (fmono c) G _ (err_respects G c HA) s (err_start c) Hr) as (_ & Ls & [_ HI] & _). exact (HI _ _ H). Qed.
