(** * Ident.v : where the ID of a connection comes from (C61), in every
    interleaving. *)
From Coq Require Import ZArith Ascii.
From stdpp Require Import gmap strings list relations.
From RecordUpdate Require Import RecordUpdate.
From Verif Require Import Go Errors Message World Lang Code Sem ExecProofs Logic Spec_App Spec_View Spec_Ident Frame.

#[local] Arguments Write : simpl never.
#[local] Arguments write : simpl never.
#[local] Arguments Close : simpl never.
#[local] Arguments wait : simpl never.
#[local] Arguments unwait : simpl never.
#[local] Arguments handleQueue : simpl never.
#[local] Arguments Broadcast : simpl never.
#[local] Arguments handle_event : simpl never.
#[local] Arguments handle_reply_or_event : simpl never.
#[local] Arguments send : simpl never.

(** Ghost state of a goroutine: whether it has made [c], and the contents of frames of [c] that it has read. *)
Notation lab := (bool * list string)%type.

Section ident.
Context (G : cfg) (c : cid).
Definition keep (c' : cid) (r : gerr + mtype * string) (l : lab) : lab :=
  match r with inr (_, b) => if Nat.eqb c' c then (l.1, b :: l.2) else l | inl _ => l end.
Definition irule (l : lab) (o : op) : (res o -> lab -> Prop) -> Prop :=
  match o as o return (res o -> lab -> Prop) -> Prop with
  | ORead c' => fun P => forall r, P r (keep c' r l)
  | OSetId c' i => fun P => (c' = c -> In (String ackIDBinary i) l.2) /\ P tt l
  | ONewConn c' i _ => fun P => (c' = c -> i = own_id G c) /\ P tt (if Nat.eqb c' c then (true, l.2) else l)
  | OLog (LUpgraded c' None) => fun P => (c' = c -> l.1 = true) /\ P tt l
  | _ => fun P => forall r, P r l
  end.
Definition more (l l' : lab) : Prop := incl l.2 l'.2 /\ (l.1 = true -> l'.1 = true).
Definition SI : lspec := {|
  ls_L := lab; ls_rule := irule; ls_cpre := fun _ a => True; ls_cpost := fun l a r l' => more l l';
  ls_crash := fun _ => True; ls_start := fun _ _ => True; ls_fin := fun _ => True |}.
Lemma smono : rule_mono SI.
Proof. intros l o P P' H. destruct o; try match goal with x : event |- _ => destruct x end; try match goal with x : option gerr |- _ => destruct x end; cbn in *; intros HP; try destruct HP; auto. Qed.
Lemma more_refl l : more l l.
Proof. split; [apply incl_refl|auto]. Qed.
Lemma more_trans a b d : more a b -> more b d -> more a d.
Proof. intros [? ?] [? ?]. split; [eapply incl_tran; eassumption|auto]. Qed.
Lemma more_keep c' r l : more l (keep c' r l).
Proof. unfold keep. destruct r as [|[? ?]]; [apply more_refl|]. destruct (Nat.eqb c' c); [split; [apply incl_tl, incl_refl|auto]|apply more_refl]. Qed.

Context (A : user_app (fun _ => True) G).
Notation any := (fun _ _ => True).
Notation notc := (fun _ c' => c' <> c).
Lemma srules : @rules G SI (fun _ => True) more any any any notc any any notc any any any (fun _ _ _ _ => True) (fun _ _ => True).
Proof.
  constructor; cbn; unfold stable; auto using smono, more_refl, more_keep; try (intros; eauto using more_refl, more_trans; fail).
  - intros o l P Hp H. destruct o; cbn in *; try discriminate; try (intros; apply H, more_refl). destruct e; try discriminate; intros; apply H, more_refl.
  - intros c0 s l P H r. apply H; [apply more_refl|]. destruct r; auto.
  - intros o n l P Ho _ H. destruct o; try discriminate Ho; cbn; intros; apply H, more_refl.
Qed.
Notation kp := (@kp SI more _).
Notation kpp P := (@kpp SI more _ P).
Definition neutral (o : op) : bool := match o with ONewConn _ _ _ | OSetId _ _ | ORead _ | OLog (LUpgraded _ None) => false | _ => true end.
Lemma s_free o : neutral o = true -> kp (opr o).
Proof. intros H l. destruct o; try discriminate; cbn; try (intros; apply more_refl). destruct e; try (intros; apply more_refl). destruct err; try discriminate. intros; apply more_refl. Qed.
Lemma s_read c' : kp (opr (ORead c')).
Proof. intros l r. apply more_keep. Qed.
Ltac kf := repeat first
  [ apply (kp_ret srules) | apply (kp_crash srules) | apply s_read | match goal with |- @Frame.kp _ _ _ (opr ?o) => exact (s_free o eq_refl) end | assumption
  | match goal with H : forall _, _ |- _ => apply H; fail end
  | match goal with |- @Frame.kp _ _ _ (Do _ _) => apply (kp_do srules); [reflexivity|intros] end
  | apply (kp_for_all srules); intros | apply (kp_bind srules); [|intros]
  | match goal with |- @Frame.kp _ _ _ ?p => match p with context [match ?x with _ => _ end] => destruct x eqn:? end end ].
Lemma s_gates : @gates G SI more any (fun _ => True).
Proof.
  constructor; intros.
  - unfold wait. kf.
  - unfold unwait. kf.
  - unfold proc_get. kf.
  - apply (kpp_kp srules). unfold proc_Done. kf.
  - unfold proc_Wait. kf.
  - apply (kq_any srules); [auto|]. unfold proc_Start. kf.
Qed.
Lemma s_ask c' x m nx : kp (ask G c' x m nx).
Proof. pose proof (Write_kp srules s_gates) as HW. unfold ask. kf. Qed.
Lemma s_send ch m : kp (send ch m).
Proof. unfold send. kf. Qed.
Lemma s_reply c' m : kpp (fun _ => True) (handle_event G c' m) -> kpp (fun _ => True) (handle_reply_or_event G c' m).
Proof.
  intros H. assert (H' : kp (handle_event G c' m)) by (intros l; apply H; exact Logic.I). pose proof s_send. apply (kpp_kp srules). unfold handle_reply_or_event. kf.
Qed.
Lemma s_message c' m : (forall m', kpp (fun _ => True) (handle_event G c' m')) -> kpp (fun _ => True) (handle_reply_or_event G c' m) ->
  (forall n m', True -> kpp (fun _ => True /\ True /\ True) (fireEvent G n m')) -> kpp (fun _ => True) (handleMessage G c' m).
Proof.
  intros He Hr Hf. assert (He' : forall m', kp (handle_event G c' m')) by (intros m' l; apply He; exact Logic.I).
  assert (Hr' : kp (handle_reply_or_event G c' m)) by (intros l; apply Hr; exact Logic.I).
  assert (Hf' : forall n m', kp (fireEvent G n m')) by (intros n m' l; apply Hf; auto).
  pose proof (Namespace_kp srules s_gates) as HN. pose proof s_send as HS.
  apply (kpp_kp srules). unfold handleMessage. destruct (m_isInvalid m); [kf|]. pose proof (exch_call_kp srules s_gates). kf.
Qed.
Lemma s_ack c' typ b : kpp (fun _ => True) (handleQueue G c') -> (forall s bin, kp (write G c' s bin)) -> kp (wait c') -> (forall e, kp (unwait c' e)) ->
  kpp (fun _ => c' <> c) (handleACK G c' typ b).
Proof.
  intros H1 H2 H3 H4 l0 Hc. revert l0. assert (H1' : kp (handleQueue G c')) by (intros l; apply H1; exact Logic.I).
  assert (Hi : forall i, kp (opr (OSetId c' i))) by (intros i l; cbn; split; [congruence|apply more_refl]).
  refine (_ : kp (handleACK G c' typ b)). unfold handleACK. kf.
Qed.
Lemma s_any {X} (p : prog X) l (Q : X -> lab -> Prop) : kp p -> (forall r l', Q r l') -> ok (S := SI) l p Q.
Proof. intros H HQ. eapply (ok_mono SI smono); [|apply H]. intros r l' _. auto. Qed.
Lemma s_waitm c' l : True -> (forall msgs, kp (publishMessages G c' msgs)) -> ok (S := SI) l (waitMessages G c') (fun r l' => if r : bool then True else True).
Proof. intros _ H. apply s_any; [unfold waitMessages, publish; kf|]. intros [|]; auto. Qed.
Lemma s_broadcast msgs : kp (broadcast msgs).
Proof. unfold broadcast. kf. Qed.
Lemma s_srvask x m : (forall e msgs, kp (Broadcast G e msgs)) -> kp (ServerAsk G x m).
Proof. intros HB. unfold ServerAsk. kf. Qed.
Lemma s_seq {X Y} l (p : prog X) (f : X -> prog Y) (Q : Y -> lab -> Prop) : kp p -> (forall r l', more l l' -> ok (S := SI) l' (f r) Q) -> ok (S := SI) l (bind p f) Q.
Proof. intros Hp Hf. eapply (ok_seq SI smono); [apply Hp|]. intros r l' H. apply Hf, H. Qed.
Lemma s_rest {X} l l' (p : prog X) : kp p -> more l l' -> ok (S := SI) l' p (fun _ l2 => more l l2).
Proof. intros H Hm. eapply (ok_mono SI smono); [|apply H]. intros r l2 H2. eapply more_trans; eassumption. Qed.
Lemma s_newconn {X} c' l (f : unit -> prog X) (Q : X -> lab -> Prop) : (forall l', more l l' -> (c' = c -> l'.1 = true) -> ok (S := SI) l' (f tt) Q) -> ok (S := SI) l (bind (newConn G c') f) Q.
Proof.
  intros H. unfold newConn. cbn. split; [intros ->; reflexivity|]. apply H.
  - destruct (Nat.eqb c' c); [split; [apply incl_refl|auto]|apply more_refl].
  - intros ->. rewrite Nat.eqb_refl. reflexivity.
Qed.
Lemma s_ok c' l l' : more l l' -> (c' = c -> l'.1 = true) -> ok (S := SI) l' (opr (OLog (LUpgraded c' None))) (fun _ l2 => more l l2).
Proof. intros H1 H2. cbn. auto. Qed.
Lemma s_upgrade c' l : (forall e, kp (unwait c' e)) -> (forall f, g_onconnect G = Some f -> kp (f c')) -> ok (S := SI) l (Upgrade G c') (fun _ l' => more l l').
Proof.
  intros H1 H2. unfold Upgrade. apply s_seq; [kf|]. intros [|] l1 M1; [apply s_rest; [kf|exact M1]|].
  apply s_newconn. intros l2 M2 E2. assert (M : more l l2) by (eapply more_trans; eassumption). clear l1 M1 M2.
  apply s_seq; [kf|]. intros _ l3 [I3 E3]. apply s_seq; [kf|]. intros _ l4 [I4 E4]. apply s_seq; [kf|]. intros _ l5 [I5 E5]. apply s_seq; [kf|]. intros xe l6 [I6 E6].
  assert (M6 : more l l6) by (destruct M as [I0 E0]; split; [intros x Hx; apply I6, I5, I4, I3, I0, Hx|auto 10]). assert (F6 : c' = c -> l6.1 = true) by auto 10. clear l2 E2 M l3 I3 E3 l4 I4 E4 l5 I5 E5 I6 E6.
  destruct xe as [e|]; [apply s_rest; [kf|exact M6]|]. apply s_seq; [destruct (g_onconnect G) as [f|] eqn:E; [pose proof (H2 f eq_refl)|]; kf|]. intros err l7 M7.
  assert (M8 : more l l7) by (eapply more_trans; eassumption). assert (F7 : c' = c -> l7.1 = true) by (destruct M7; auto). destruct err as [e|]; [apply s_rest; [kf|exact M8]|].
  apply s_seq; [apply H1|]. intros _ l8 M9. apply s_ok; [eapply more_trans; eassumption|destruct M9; auto].
Qed.
Lemma s_dial c' l : kp (sendClientACK G c') -> ok (S := SI) l (Dial G c') (fun _ l' => more l l').
Proof. intros H1. unfold Dial. apply s_newconn. intros l1 M1 _. apply s_rest; [kf|exact M1]. Qed.
Lemma s_next c' ch : kp (read_next G c' ch).
Proof. pose proof s_send. unfold read_next. kf. Qed.
Lemma s_server l : True -> (forall c' msgs, kp (publishMessages G c' msgs)) ->
  (forall c', exists f, Close G c' = bind (opr (OCasClosed c')) f /\ forall r : bool, @Frame.kpp SI more _ (fun l => r = true -> True) (f r)) -> (forall k c', kp (g_do G k c')) ->
  (forall x, kp (exch_call G x)) -> (forall f c', g_ondisconnect G = Some f -> kp (f c')) -> ok (S := SI) l (server_step G) (fun _ l' => True).
Proof.
  intros _ H1 _ H2' H3 H4. pose proof (Close_kp srules s_gates) as HC. apply s_any; [|auto].
  unfold server_step, publish, act_call. apply (kp_bind srules); [kf|]. intros x. apply (kp_bind srules); [kf|]. intros _.
  destruct x; [kf| |kf|kf]. destruct (g_ondisconnect G) as [f|] eqn:E; [|kf]. pose proof (fun c => H4 f c eq_refl) as H5. kf.
Qed.
(** ** The reader of [c]. *)
Lemma s_payload typ b : kp (HandlePayload G c typ b).
Proof. intros l. apply (HandlePayload_kpp srules s_gates); auto using s_ask, s_reply, s_message. Qed.
Lemma s_queue : kp (handleQueue G c).
Proof. intros l. apply (handleQueue_kpp srules s_gates); auto using s_ask, s_reply, s_message. Qed.
Lemma handleACK_in typ b l : In b l.2 -> ok (S := SI) l (handleACK G c typ b) (fun _ _ => True).
Proof.
  intros Hl. pose proof (write_kp srules s_gates) as HW. pose proof (fun c0 e0 => unwait_kp s_gates c0 e0 (or_introl Logic.I)) as HU. pose proof (fun c0 => wait_kp s_gates c0 Logic.I) as HWt. pose proof s_queue as HQ.
  unfold handleACK. destruct b as [|a rest]; [apply s_any; [kf|auto]|].
  destruct (Ascii.eqb a ackBinary); [apply s_any; [kf|auto]|]. destruct (Ascii.eqb_spec a ackIDBinary) as [->|]; [|apply s_any; [kf|auto]].
  cbn [bind opr ok ls_rule SI irule]. split; [intros _; exact Hl|]. intros _ _. apply s_any; [kf|auto].
Qed.
Lemma reader_in l : ok (S := SI) l (reader_step G c) (fun _ _ => True).
Proof.
  unfold reader_step. pose proof (fun c0 e0 => unwait_kp s_gates c0 e0 (or_introl Logic.I)) as HU. pose proof s_payload as HP.
  cbn [bind opr ok ls_rule SI irule]. intros [e|[typ b]]; [apply s_any; [kf|auto]|]. cbn [keep]. rewrite Nat.eqb_refl. destruct (is_empty b); [exact Logic.I|].
  cbn [bind opr ok ls_rule SI irule]. intros [|]; cbn [negb]; [apply s_any; [kf|auto]|]. apply handleACK_in. left. reflexivity.
Qed.

(** ** The invariant. *)
Definition good (w : world) : Prop :=
  c_id (conn_of w c) = own_id G c \/ In (String ackIDBinary (c_id (conn_of w c))) (map snd (c_got (conn_of w c))).
Record Inv (w : world) (Ls : gmap tid lab) : Prop := MkI {
  iv_read : forall (t : tid) l b, Ls !! t = Some l -> In b l.2 -> In b (map snd (c_got (conn_of w c)));
  iv_made : forall (t : tid) l, Ls !! t = Some l -> l.1 = true -> is_Some (w_conns w !! c) /\ good w;
  iv_up : LUpgraded c None ∈ w_log w -> is_Some (w_conns w !! c) /\ good w;
  iv_in : incl (c_in (conn_of w c)) (c_got (conn_of w c));
  iv_id : c_id (conn_of w c) = "" \/ good w }.
Record calm (w w' : world) : Prop := MkCalm {
  cm_some : is_Some (w_conns w !! c) -> is_Some (w_conns w' !! c);
  cm_log : LUpgraded c None ∈ w_log w' -> LUpgraded c None ∈ w_log w;
  cm_got : incl (c_got (conn_of w c)) (c_got (conn_of w' c));
  cm_in : incl (c_in (conn_of w c)) (c_got (conn_of w c)) -> incl (c_in (conn_of w' c)) (c_got (conn_of w' c));
  cm_id : c_id (conn_of w' c) = c_id (conn_of w c) }.
Lemma good_calm w w' : calm w w' -> good w -> good w'.
Proof.
  intros [C1 C2 C3 C4 C5] [H|H]; unfold good; rewrite C5; [auto|right]. apply in_map_iff in H as (x & E & H). rewrite <- E. apply in_map, C3, H.
Qed.
Lemma inv_calm w w' Ls : Inv w Ls -> calm w w' -> Inv w' Ls.
Proof.
  intros [I1 I2 I3 I4 I5] C. pose proof (good_calm _ _ C) as Hg. destruct C as [C1 C2 C3 C4 C5].
  assert (Hm : forall b, In b (map snd (c_got (conn_of w c))) -> In b (map snd (c_got (conn_of w' c)))) by (intros b H; apply in_map_iff in H as (x & <- & H); apply in_map, C3, H).
  constructor; eauto.
  - intros t l H H1. destruct (I2 t l H H1). auto.
  - intros H. destruct (I3 (C2 H)). auto.
  - rewrite C5. destruct I5; auto.
Qed.
Lemma calm_refl w : calm w w.
Proof. constructor; auto. apply incl_refl. Qed.
Lemma conn_of_upd c0 f w c' : conn_of (upd_conn c0 f w) c' = if decide (c' = c0) then f (conn_of w c0) else conn_of w c'.
Proof. unfold conn_of, upd_conn. cbn. case_decide as E; [subst; rewrite lookup_insert|rewrite lookup_insert_ne by congruence]; reflexivity. Qed.
Lemma some_upd c0 f w : is_Some (w_conns w !! c) -> is_Some (w_conns (upd_conn c0 f w) !! c).
Proof. intros H. unfold upd_conn. cbn. apply lookup_insert_is_Some'. auto. Qed.
Lemma calm_conn c0 f w : (c0 = c -> c_got (f (conn_of w c)) = c_got (conn_of w c) /\ incl (c_in (f (conn_of w c))) (c_in (conn_of w c)) /\ c_id (f (conn_of w c)) = c_id (conn_of w c)) -> calm w (upd_conn c0 f w).
Proof.
  intros H. destruct (decide (c0 = c)) as [->|Hne].
  - destruct (H eq_refl) as (H1 & H2 & H3). constructor; try apply some_upd; auto; rewrite conn_of_upd, decide_True by reflexivity; rewrite ?H1; auto; [apply incl_refl|]. intros Hi x Hx. apply Hi, H2, Hx.
  - constructor; try apply some_upd; auto; rewrite conn_of_upd, decide_False by congruence; auto. apply incl_refl.
Qed.
Lemma calm_same w w' : w_conns w' = w_conns w -> w_log w' = w_log w -> calm w w'.
Proof. intros H1 H2. assert (Hc : conn_of w' c = conn_of w c) by (unfold conn_of; rewrite H1; reflexivity). constructor; rewrite ?Hc, ?H1, ?H2; auto. apply incl_refl. Qed.
Lemma calm_trans a b d : w_conns b = w_conns a -> w_log b = w_log a -> calm b d -> calm a d.
Proof. intros H H2 [C1 C2 C3 C4 C5]. assert (Hc : conn_of b c = conn_of a c) by (unfold conn_of; rewrite H; reflexivity). rewrite !Hc in *. rewrite H in C1. rewrite H2 in C2. constructor; auto. Qed.
Lemma calm_log w e : e <> LUpgraded c None -> calm w (w <| w_log ::= cons e |>).
Proof. intros H. constructor; auto; [|apply incl_refl]. cbn. intros Hi. apply elem_of_cons in Hi as [E|Hi]; congruence. Qed.
Ltac cc := apply calm_conn; intros _; cbn; auto using incl_refl; fail.
Lemma neutral_calm t w o w' r : neutral o = true -> ostep t w o = Goes w' r -> calm w w'.
Proof.
  intros Hb H. destruct o; try discriminate Hb; cbn [ostep] in H;
    repeat match goal with
    | H : match ?x with _ => _ end = Goes _ _ |- _ => destruct x eqn:?; try discriminate H
    end; try discriminate H; injection H as <- <-;
    first [apply calm_refl | (apply calm_same; reflexivity) | cc | (eapply calm_trans; [reflexivity..|]; cc) | idtac].
  all: try (apply calm_conn; intros _; match goal with |- context [match ?x with _ => _ end] => destruct x end; cbn; auto using incl_refl; fail).
  - eapply (calm_trans _ (w <| w_procs ::= <[w_next w:=proc0]> |> <| w_next ::= S |>)); [reflexivity..|]. cc.
  - eapply (calm_trans _ (upd_srv (fun s => s <| b_msgs := msgs |>) w)); [reflexivity..|]. apply calm_log. discriminate.
  - apply calm_log. intros ->. discriminate Hb.
Qed.
Lemma env_calm w e : calm w (env_step e w).
Proof.
  destruct e; cbn [env_step]; repeat match goal with |- context [match ?x with _ => _ end] => destruct x eqn:? end;
    first [apply calm_refl | (apply calm_same; reflexivity) | cc | idtac].
  destruct (decide (c0 = c)) as [->|Hne]; [|apply calm_conn; congruence].
  constructor; try apply some_upd; auto; rewrite conn_of_upd, decide_True by reflexivity; cbn; [apply incl_appl, incl_refl| |reflexivity].
  intros H. apply incl_app; [apply incl_appl, H|apply incl_appr, incl_refl].
Qed.
Lemma inv_label w (Ls : gmap tid lab) (t : tid) l' : Inv w Ls -> (forall b, In b l'.2 -> In b (map snd (c_got (conn_of w c)))) -> (l'.1 = true -> is_Some (w_conns w !! c) /\ good w) -> Inv w (<[t := l']> Ls).
Proof.
  intros [I1 I2 I3 I4 I5] Hf Hm. constructor; auto.
  - intros t1 l1 b H. apply lookup_insert_Some in H as [[<- <-]|[_ H]]; eauto.
  - intros t1 l1 H. apply lookup_insert_Some in H as [[<- <-]|[_ H]]; eauto.
Qed.
Lemma ident_op t w Ls l o (P : res o -> lab -> Prop) : Inv w Ls -> Ls !! t = Some l -> irule l o P ->
  match ostep t w o with
  | Goes w' r => exists l', Inv w' (<[t := l']> Ls) /\ P r l'
  | _ => True
  end.
Proof.
  intros HI Ht HP. destruct (ostep t w o) as [w' r| |why] eqn:E; auto.
  assert (Hsame : forall w1, calm w w1 -> Inv w1 (<[t := l]> Ls)) by (intros w1 C; rewrite insert_id by exact Ht; eapply inv_calm; eassumption).
  destruct (neutral o) eqn:En.
  { exists l. split; [apply Hsame; eapply neutral_calm; eassumption|]. destruct o; try discriminate En; try apply HP. destruct e; try apply HP. destruct err; [apply HP|discriminate En]. }
  destruct o; try discriminate En; cbn [ostep] in E; cbn [irule] in HP.
  - (* OSetId *) injection E as <- <-. destruct HP as [HR HP]. exists l. split; [|exact HP].
    destruct (decide (c0 = c)) as [->|Hne]; [|apply Hsame, calm_conn; congruence]. rewrite insert_id by exact Ht. destruct HI as [I1 I2 I3 I4 I5].
    assert (Hg : good (upd_conn c (fun k => k <| c_id := s |>) w)) by (right; rewrite conn_of_upd, decide_True by reflexivity; cbn; eauto).
    constructor; auto; [| | |rewrite conn_of_upd, decide_True by reflexivity; exact I4].
    + intros t1 l1 b H1 H2. rewrite conn_of_upd, decide_True by reflexivity. cbn. eauto.
    + intros t1 l1 H1 H2. split; [apply some_upd; eapply I2; eauto|exact Hg].
    + intros H. split; [apply some_upd, I3, H|exact Hg].
  - (* ORead *) destruct (c_sockclosed (conn_of w c0)); [injection E as <- <-; exists l; split; [apply Hsame, calm_refl|apply (HP (inl _))]|].
    destruct (c_in (conn_of w c0)) as [|[typ b] rest] eqn:Ei.
    + destruct (c_inend (conn_of w c0)); [|discriminate E]. injection E as <- <-. exists l. split; [apply Hsame, calm_refl|apply (HP (inl _))].
    + injection E as <- <-. exists (keep c0 (inr (typ, b)) l). split; [|apply HP].
      assert (Hc : calm w (upd_conn c0 (fun k => k <| c_in ::= @tl (mtype * string) |>) w)).
      { apply calm_conn. intros ->. cbn. split; [reflexivity|]. split; [|reflexivity]. intros x Hx. destruct (c_in (conn_of w c)); [exact Hx|right; exact Hx]. }
      cbn [keep]. destruct (Nat.eqb_spec c0 c) as [->|Hne]; [|apply Hsame, Hc].
      apply inv_label; [eapply inv_calm; eassumption| |].
      * intros b' Hb. rewrite conn_of_upd, decide_True by reflexivity. cbn. destruct HI as [I1 I2 I3 I4 I5].
        destruct Hb as [<-|Hb]; [|eapply I1; eauto]. apply (in_map snd _ (typ, b)), I4. rewrite Ei. left. reflexivity.
      * cbn. intros H1. destruct (iv_made _ _ HI _ _ Ht H1) as [H2 H3]. split; [apply some_upd, H2|eapply good_calm; eassumption].
  - (* ONewConn *) destruct (w_conns w !! c0) eqn:Ec; [discriminate E|].
    assert (Hk : exists k, w_conns w' = <[c0 := k]> (w_conns w) /\ c_id k = id /\ c_in k = [] /\ c_got k = []) by (destruct native_only; injection E as <- <-; eexists; (split; [reflexivity|]); auto).
    assert (Hl : w_log w' = w_log w) by (destruct native_only; injection E as <- <-; reflexivity).
    assert (Hr : r = tt) by (destruct r; reflexivity). rewrite Hr. clear r E Hr.
    destruct Hk as (k & Hcs & K1 & K2 & K3), HP as [HP0 HP]. eexists. split; [|exact HP].
    destruct (Nat.eqb_spec c0 c) as [->|Hne].
    + assert (Hcn : conn_of w' c = k) by (unfold conn_of; rewrite Hcs, lookup_insert; reflexivity).
      assert (Hold : c_got (conn_of w c) = []) by (unfold conn_of; rewrite Ec; reflexivity).
      assert (Hg : is_Some (w_conns w' !! c) /\ good w').
      { split; [rewrite Hcs, lookup_insert; eauto|]. left. rewrite Hcn, K1. auto. }
      destruct HI as [I1 I2 I3 I4 I5]. rewrite Hold in I1. apply inv_label; [|rewrite Hcn, K3; intros b Hb; exact (I1 t l b Ht Hb)|auto].
      constructor; auto; [rewrite Hcn, K3; exact I1|rewrite Hcn, K2, K3; apply incl_refl|right; apply Hg].
    + apply Hsame. assert (Hcn : conn_of w' c = conn_of w c) by (unfold conn_of; rewrite Hcs, lookup_insert_ne by congruence; reflexivity).
      constructor; rewrite ?Hcn, ?Hl; auto; [|apply incl_refl]. rewrite Hcs, lookup_insert_ne by congruence. auto.
  - (* OLog *) injection E as <- <-. destruct e; try discriminate En. destruct err; [discriminate En|]. cbn in HP. destruct HP as [HP1 HP]. exists l. split; [|exact HP].
    destruct (decide (c0 = c)) as [->|Hne]; [|apply Hsame, calm_log; congruence]. rewrite insert_id by exact Ht. pose proof (iv_made _ _ HI _ _ Ht (HP1 eq_refl)) as Hg. destruct HI as [I1 I2 I3 I4 I5]. constructor; auto.
Qed.
Lemma ident_code x l : ok (S := SI) l (code G x) after.
Proof.
  assert (Hd : x = TReaderLoop c \/ x <> TReaderLoop c) by (destruct x as [| |c'| | | | | | |]; try (right; discriminate); destruct (decide (c' = c)); [left|right]; congruence).
  destruct Hd as [->|Hne].
  - cbn [code]. eapply (ok_seq SI smono); [apply reader_in|]. intros [|] l' Hl; [exact Logic.I|].
    eapply (ok_seq SI smono); [apply (Close_kp srules s_gates)|]. intros r l'' _. exact Logic.I.
  - destruct (match x with TReaderLoop _ => true | _ => false end) eqn:Ex.
    + destruct x as [| |c'| | | | | | |]; try discriminate Ex. assert (Hc : c' <> c) by congruence. cbn [code].
      eapply (ok_seq SI smono).
      { apply (reader_step_kpp srules s_gates); auto using s_ask, s_reply, s_message, s_ack. }
      intros [|] l' _; [exact Logic.I|]. eapply (ok_seq SI smono); [apply (Close_kp srules s_gates)|]. intros r l'' _. exact Logic.I.
    + apply (code_other_kp srules s_gates); auto using s_ask, s_reply, s_message, s_ack, s_waitm, s_broadcast, s_srvask, s_server; try (intros; exact Logic.I).
      * cbn. auto.
      * intros c' l0 _ Hu Hf. apply s_upgrade; auto.
      * intros c' l0 _ Hd. apply s_dial; auto.
      * intros c' ch l0 _. apply s_next.
      * intros c' ->. discriminate.
Qed.
Lemma ident_respects : respects SI G Inv.
Proof.
  constructor.
  - intros t w Ls l o P HI Ht HP. pose proof (ident_op t w Ls l o P HI Ht HP) as H. destruct (ostep t w o); auto.
  - intros t w Ls l a HI Ht _ Ha. exists l. rewrite insert_id by exact Ht. split; [exact HI|].
    apply (impl_kp srules s_gates); auto using s_ask, s_reply, s_message, s_ack, s_waitm, s_broadcast, s_srvask; try (intros; exact Logic.I).
    destruct a; cbn; auto; destruct n; auto.
  - intros x l _. apply ident_code.
  - intros t w Ls l [I1 I2 I3 I4 I5] Ht _. constructor; auto.
    + intros t' l' b H. apply lookup_delete_Some in H as [_ H]. eauto.
    + intros t' l' H. apply lookup_delete_Some in H as [_ H]. eauto.
  - intros t w Ls x rest HI Hsp Ht. exists (false, []). split; [exact Logic.I|]. apply inv_label; [|intros b []|discriminate]. eapply inv_calm; [exact HI|apply calm_same; reflexivity].
  - intros t w Ls x HI Hs Ht. exists (false, []). split; [exact Logic.I|]. apply inv_label; [exact HI|intros b []|discriminate].
  - intros w Ls e HI _. eapply inv_calm; [exact HI|apply env_calm].
Qed.
End ident.

Lemma ident_start G c : exists l, ls_start (SI G c) TServer l /\ Inv G c world0 {[0 := l]}.
Proof.
  exists (false, []). split; [exact Logic.I|]. constructor; cbn; auto.
  - intros t l b H. apply lookup_singleton_Some in H as [_ <-]. intros [].
  - intros t l H. apply lookup_singleton_Some in H as [_ <-]. discriminate.
  - intros H. apply elem_of_nil in H as [].
  - apply incl_refl.
Qed.
Lemma good_told G c w : good G c w -> c_id (conn_of w c) = own_id G c \/ told c (c_id (conn_of w c)) w.
Proof. intros [H|H]; [auto|right]. apply in_map_iff in H as ((typ & b) & E & H). cbn in E. subst b. exists typ. exact H. Qed.
Lemma ident_main G c (A : user_app (fun _ => True) G) s : reachable G s ->
  (c_id (conn_of (s_w s) c) = "" \/ c_id (conn_of (s_w s) c) = own_id G c \/ told c (c_id (conn_of (s_w s) c)) (s_w s)) /\
  (LUpgraded c None ∈ w_log (s_w s) -> c_id (conn_of (s_w s) c) = own_id G c \/ told c (c_id (conn_of (s_w s) c)) (s_w s)).
Proof.
  intros Hr. destruct (reachable_holds (SI G c) (smono G c) G _ (ident_respects G c A) s (ident_start G c) Hr) as (_ & Ls & [_ _ H3 _ H5] & _).
  split; [destruct H5; auto using good_told|]. intros H. apply good_told, H3, H.
Qed.
