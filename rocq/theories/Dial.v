(** * Dial.v : Dial returns without an error only after the handshake (C29),
    in every interleaving. *)
From Coq Require Import ZArith Ascii.
From stdpp Require Import gmap strings list relations.
From RecordUpdate Require Import RecordUpdate.
From Verif Require Import Go Errors Message World Lang Code Sem ExecProofs Logic Spec_App Spec_View Spec_Ident Frame.

#[local] Arguments Write : simpl never.
#[local] Arguments write : simpl never.
#[local] Arguments Close : simpl never.
#[local] Arguments wait : simpl never.
#[local] Arguments unwait : simpl never.
#[local] Arguments handleQueue : simpl never.
#[local] Arguments Broadcast : simpl never.
#[local] Arguments handle_event : simpl never.
#[local] Arguments handle_reply_or_event : simpl never.
#[local] Arguments send : simpl never.

(** Ghost state of a goroutine: whether it has made [c], has taken the lock of
    its gate, has stored the ID of a frame "A", has logged the handshake after
    that, has stored a result in the gate, knows that the gate is open; and the
    contents of frames of [c] that arrived. *)
Record dlab : Type := DLab {
  d_made : bool; d_lock : bool; d_id : bool; d_shaken : bool; d_err : bool; d_open : bool; d_frames : list string }.
#[export] Instance etaDlab : Settable _ := settable! DLab <d_made; d_lock; d_id; d_shaken; d_err; d_open; d_frames>.
Definition lab0 : dlab := DLab false false false false false false [].
Definition starts (a : ascii) (b : string) : Prop := exists r, b = String a r.

Definition noup (x : tcode) : bool := match x with TUpgrade _ => false | _ => true end.

Section dial.
Context (G : cfg) (c : cid) (Hcl : g_client G c = true) (Hmix : onlyNative G c = false).
Definition hasM (l : dlab) : Prop := exists b, In b (d_frames l) /\ starts ackBinary b.
Definition add (b : string) (l : dlab) : dlab := l <| d_frames ::= cons b |>.
Definition drule (l : dlab) (o : op) : (res o -> dlab -> Prop) -> Prop :=
  match o as o return (res o -> dlab -> Prop) -> Prop with
  | ORead c' => fun P => forall r, P r (match r with inr (_, b) => if Nat.eqb c' c then add b l else l | inl _ => l end)
  | ONewConn c' _ n => fun P => (c' = c -> n = false) /\ P tt (if Nat.eqb c' c then l <| d_made := true |> <| d_lock := false |> else l)
  | OSetId c' i => fun P => (c' = c -> In (String ackIDBinary i) (d_frames l)) /\ P tt (if Nat.eqb c' c then l <| d_id := true |> else l)
  | OLog (LAcked c') => fun P => P tt (if Nat.eqb c' c && d_id l then l <| d_shaken := true |> else l)
  | OWSetErr c' e => fun P => (c' = c -> e = None -> d_shaken l = true) /\ P tt (if Nat.eqb c' c then l <| d_err := true |> else l)
  | OWSetReady c' => fun P => (c' = c -> d_err l = true) /\ P tt (if Nat.eqb c' c then l <| d_open := true |> else l)
  | OSpawn x => fun P => noup x = true /\ P tt l
  | OWReady c' => fun P => forall r : bool, P r (if Nat.eqb c' c && r then l <| d_open := true |> else l)
  | OWClose c' => fun P => (c' = c -> d_open l = true) /\ P tt l
  | OWRecv c' => fun P => P tt (if Nat.eqb c' c then l <| d_open := true |> else l)
  | OWCasLock c' => fun P => (c' = c -> hasM l \/ (d_made l = true /\ d_lock l = false)) /\
      (c' <> c -> forall r : bool, P r l) /\ (c' = c -> P true (l <| d_lock := true |>) /\ forall b, starts ackBinary b -> P false (add b l))
  | OWErr c' => fun P => forall r, P r (if Nat.eqb c' c && d_open l && match r with None => true | Some _ => false end then l <| d_shaken := true |> else l)
  | OGetId c' => fun P => forall i, P i (if Nat.eqb c' c && d_shaken l then add (String ackIDBinary i) l else l)
  | OLog (LDial c' None i) => fun P => (c' = c -> hasM l \/ (d_shaken l = true /\ In (String ackIDBinary i) (d_frames l))) /\ P tt l
  | _ => fun P => forall r, P r l
  end.
Record more (l l' : dlab) : Prop := More {
  m_frames : incl (d_frames l) (d_frames l'); m_made : d_made l = true -> d_made l' = true /\ d_lock l' = d_lock l; m_id : d_id l = true -> d_id l' = true;
  m_shaken : d_shaken l = true -> d_shaken l' = true; m_err : d_err l = true -> d_err l' = true; m_open : d_open l = true -> d_open l' = true }.
Definition starting (t : tcode) (l : dlab) : Prop :=
  match t with TUpgrade c' => c' <> c | TDial _ => d_made l = false | _ => True end.
Definition SD : lspec := {|
  ls_L := dlab; ls_rule := drule; ls_cpre := fun _ a => True; ls_cpost := fun l a r l' => more l l';
  ls_crash := fun _ => True; ls_start := starting; ls_fin := fun _ => True |}.
Lemma dmono : rule_mono SD.
Proof.
  intros l o P P' H. destruct o; try match goal with x : event |- _ => destruct x end; try match goal with x : option gerr |- _ => destruct x end; cbn in *; intros HP; repeat match goal with H : _ /\ _ |- _ => destruct H end; repeat split; auto.
  all: match goal with H2 : ?x = c -> _ /\ _, H3 : ?x = c |- _ => destruct (H2 H3); auto end.
Qed.
Lemma more_refl l : more l l.
Proof. constructor; auto. apply incl_refl. Qed.
Lemma more_trans a b d : more a b -> more b d -> more a d.
Proof. intros [] []. constructor; [eapply incl_tran; eassumption| |auto..].
  intros H. destruct (m_made0 H) as [H1 H2], (m_made1 H1) as [H3 H4]. split; congruence. Qed.
Lemma more_add b l : more l (add b l).
Proof. constructor; cbn; auto. apply incl_tl, incl_refl. Qed.
Lemma more_shaken l : more l (l <| d_shaken := true |>).
Proof. constructor; cbn; auto. apply incl_refl. Qed.
Lemma more_open l : more l (l <| d_open := true |>).
Proof. constructor; cbn; auto. apply incl_refl. Qed.
Lemma more_err l : more l (l <| d_err := true |>).
Proof. constructor; cbn; auto. apply incl_refl. Qed.
Lemma more_id l : more l (l <| d_id := true |>).
Proof. constructor; cbn; auto. apply incl_refl. Qed.
Lemma more_if (b : bool) l x y : more l x -> more l y -> more l (if b then x else y).
Proof. destruct b; auto. Qed.
Lemma more_read c' (r : gerr + mtype * string) l : more l (match r with inr (_, b) => if Nat.eqb c' c then add b l else l | inl _ => l end).
Proof. destruct r as [|[? ?]]; auto using more_if, more_refl, more_add. Qed.
#[local] Hint Resolve more_refl more_add more_shaken more_open more_err more_id more_if more_read : core.

(** The same without what is said about the lock. *)
Record weak (l l' : dlab) : Prop := Weak {
  k_frames : incl (d_frames l) (d_frames l'); k_id : d_id l = true -> d_id l' = true;
  k_shaken : d_shaken l = true -> d_shaken l' = true; k_err : d_err l = true -> d_err l' = true; k_open : d_open l = true -> d_open l' = true }.
Lemma more_weak l l' : more l l' -> weak l l'.
Proof. intros []. constructor; auto. Qed.
Lemma weak_trans a b d : weak a b -> weak b d -> weak a d.
Proof. intros [] []. constructor; [eapply incl_tran; eassumption|auto..]. Qed.
Lemma weak_more l l' : weak l l' -> d_made l = false -> more l l'.
Proof. intros [] E. constructor; auto. rewrite E. discriminate. Qed.
Ltac wk := constructor; cbn; auto; intros ? ?; cbn; auto.

Context (A : user_app (fun _ => True) G).
Notation any := (fun _ _ => True).
Notation notc := (fun _ c' => c' <> c).
Notation free := (fun c' => c' <> c).
Lemma drules : @rules G SD (fun _ => True) more any any any any any any notc any any any (fun _ _ _ _ => True) (fun _ _ => True).
Proof.
  constructor; cbn; unfold stable; auto using dmono; try (intros; eauto using more_trans; fail).
  - intros o l P Hp H. destruct o; cbn in *; try discriminate; auto; [destruct code; try discriminate; split; auto; reflexivity|]. destruct e; try discriminate; auto.
  - intros c0 s l P H r. apply H; [auto|]. destruct r; auto.
  - intros o n l P Ho _ H. destruct o; try discriminate Ho; cbn; auto.
Qed.
Notation kp := (@kp SD more _).
Notation kpp P := (@kpp SD more _ P).
Definition neutral (o : op) : bool :=
  match o with
  | OSpawn x => noup x
  | ONewConn _ _ _ | OSetId _ _ | OWSetErr _ _ | OWSetReady _ | OWClose _ | OWCasLock _ | OLog (LDial _ None _) => false
  | _ => true
  end.
Lemma d_free o : neutral o = true -> kp (opr o).
Proof.
  intros H l. destruct o; try discriminate; cbn; try (intros; auto; fail). destruct e; cbn; auto. destruct err; [auto|discriminate].
Qed.
Ltac kf := repeat first
  [ apply (kp_ret drules) | apply (kp_crash drules) | match goal with |- @Frame.kp _ _ _ (opr ?o) => exact (d_free o eq_refl) end | assumption
  | match goal with H : forall _, _ |- _ => apply H; fail end
  | match goal with |- @Frame.kp _ _ _ (Do _ _) => apply (kp_do drules); [reflexivity|intros] end
  | apply (kp_for_all drules); intros | apply (kp_bind drules); [|intros]
  | match goal with |- @Frame.kp _ _ _ ?p => match p with context [match ?x with _ => _ end] => destruct x eqn:? end end ].
Lemma free_wait c' : c' <> c -> kp (wait c').
Proof.
  intros Hc. assert (Hl : kp (opr (OWCasLock c'))) by (intros l; cbn; repeat split; auto; intros; congruence). unfold wait. kf.
Qed.
Lemma free_unwait c' e : c' <> c -> kp (unwait c' e).
Proof.
  intros Hc. assert (H1 : kp (opr (OWSetErr c' e))) by (intros l; cbn; split; [congruence|auto]). assert (H2 : kp (opr (OWSetReady c'))) by (intros l; cbn; split; [congruence|auto]).
  assert (H3 : kp (opr (OWClose c'))) by (intros l; cbn; split; [congruence|auto]). unfold unwait. kf.
Qed.
(** Opening the gate of [c], if it is with an error or after the handshake. *)
Lemma c_unwait e l : (e = None -> d_shaken l = true) -> ok (S := SD) l (unwait c e) (fun _ l' => more l l').
Proof.
  intros He. unfold unwait. cbn. rewrite !Nat.eqb_refl. intros [|]; cbn; rewrite ?Nat.eqb_refl; cbn; [auto|]. split; [auto|]. split; [auto|].
  assert (Hm : more l (l <| d_err := true |> <| d_open := true |>)) by (eapply more_trans; [apply more_err|apply more_open]).
  intros [|]; cbn; auto.
Qed.
Lemma not_c c' : c' <> c \/ g_client G c' = false -> c' <> c.
Proof. intros [H|H]; [exact H|]. intros ->. congruence. Qed.
Lemma d_gates : @gates G SD more any free.
Proof.
  constructor; intros.
  - apply free_wait. assumption.
  - apply free_unwait, not_c. assumption.
  - unfold proc_get. kf.
  - apply (kpp_kp drules). unfold proc_Done. kf.
  - unfold proc_Wait. kf.
  - apply (kq_any drules); [auto|]. unfold proc_Start. kf.
Qed.
Lemma d_ask c' x m nx : kp (ask G c' x m nx).
Proof. pose proof (Write_kp drules d_gates) as HW. unfold ask. kf. Qed.
Lemma d_send ch m : kp (send ch m).
Proof. unfold send. kf. Qed.
Lemma d_reply c' m : kpp (fun _ => True) (handle_event G c' m) -> kpp (fun _ => True) (handle_reply_or_event G c' m).
Proof.
  intros H. assert (H' : kp (handle_event G c' m)) by (intros l; apply H; exact Logic.I). pose proof d_send. apply (kpp_kp drules). unfold handle_reply_or_event. kf.
Qed.
Lemma d_message c' m : (forall m', kpp (fun _ => True) (handle_event G c' m')) -> kpp (fun _ => True) (handle_reply_or_event G c' m) ->
  (forall n m', True -> kpp (fun _ => True /\ True /\ True) (fireEvent G n m')) -> kpp (fun _ => True) (handleMessage G c' m).
Proof.
  intros He Hr Hf. assert (He' : forall m', kp (handle_event G c' m')) by (intros m' l; apply He; exact Logic.I).
  assert (Hr' : kp (handle_reply_or_event G c' m)) by (intros l; apply Hr; exact Logic.I).
  assert (Hf' : forall n m', kp (fireEvent G n m')) by (intros n m' l; apply Hf; auto).
  pose proof (Namespace_kp drules d_gates) as HN. pose proof d_send as HS.
  apply (kpp_kp drules). unfold handleMessage. destruct (m_isInvalid m); [kf|]. pose proof (exch_call_kp drules d_gates). kf.
Qed.
Lemma d_ack c' typ b : kpp (fun _ => True) (handleQueue G c') -> (forall s bin, kp (write G c' s bin)) -> c' <> c -> kp (wait c') -> (forall e, kp (unwait c' e)) ->
  kpp (fun _ => True) (handleACK G c' typ b).
Proof.
  intros H1 H2 Hc H3 H4 l0 _. revert l0. assert (H1' : kp (handleQueue G c')) by (intros l; apply H1; exact Logic.I).
  assert (Hi : forall i, kp (opr (OSetId c' i))) by (intros i l; cbn; split; [congruence|auto]).
  refine (_ : kp (handleACK G c' typ b)). unfold handleACK. kf.
Qed.
Lemma d_any {X} (p : prog X) l (Q : X -> dlab -> Prop) : kp p -> (forall r l', Q r l') -> ok (S := SD) l p Q.
Proof. intros H HQ. eapply (ok_mono SD dmono); [|apply H]. intros r l' _. auto. Qed.
Lemma d_waitm c' l : True -> (forall msgs, kp (publishMessages G c' msgs)) -> ok (S := SD) l (waitMessages G c') (fun r l' => if r : bool then True else True).
Proof. intros _ H. apply d_any; [unfold waitMessages, publish; kf|]. intros [|]; auto. Qed.
Lemma d_broadcast msgs : kp (broadcast msgs).
Proof. unfold broadcast. kf. Qed.
Lemma d_srvask x m : (forall e msgs, kp (Broadcast G e msgs)) -> kp (ServerAsk G x m).
Proof. intros HB. unfold ServerAsk. kf. Qed.
Lemma d_seq {X Y} l (p : prog X) (f : X -> prog Y) (Q : Y -> dlab -> Prop) : kp p -> (forall r l', more l l' -> ok (S := SD) l' (f r) Q) -> ok (S := SD) l (bind p f) Q.
Proof. intros Hp Hf. eapply (ok_seq SD dmono); [apply Hp|]. intros r l' H. apply Hf, H. Qed.
Lemma d_newconn c' : c' <> c -> kp (newConn G c').
Proof.
  intros Hc. assert (H : forall i n, kp (opr (ONewConn c' i n))) by (intros i n l; cbn; split; [congruence|]; apply Nat.eqb_neq in Hc; rewrite Hc; auto). unfold newConn. kf.
Qed.
Lemma d_upgrade c' l : c' <> c -> (forall e, kp (unwait c' e)) -> (forall f, g_onconnect G = Some f -> kp (f c')) -> ok (S := SD) l (Upgrade G c') (fun _ l' => more l l').
Proof.
  intros Hc H1 H2. revert l. refine (_ : kp (Upgrade G c')). pose proof (d_newconn c' Hc). unfold Upgrade. destruct (g_onconnect G) as [f|] eqn:E; [pose proof (H2 f eq_refl)|]; kf.
Qed.
(** Waiting at the gate of [c]. *)
Lemma c_wait_ok l : hasM l \/ (d_made l = true /\ d_lock l = false) -> ok (S := SD) l (wait c) (fun r l' => weak l l' /\ (r = None -> hasM l' \/ d_shaken l' = true)).
Proof.
  intros Hl. unfold wait. cbn. rewrite !Nat.eqb_refl. intros [|]; cbn.
  - intros r. rewrite Nat.eqb_refl. destruct r; cbn; (split; [wk|]); [discriminate|]. auto.
  - split; [auto|]. split; [congruence|]. intros _. split; cbn.
    + intros r. rewrite ?Nat.eqb_refl. destruct r; cbn; (split; [wk|]); [discriminate|]. auto.
    + intros b Hb r. split; [destruct (_ && _); wk|]. intros Hr. left. exists b. destruct (_ && _); cbn; auto.
Qed.
Lemma c_send l : d_made l = true -> d_lock l = false -> ok (S := SD) l (sendClientACK G c) (fun r l' => weak l l' /\ (r = None -> hasM l' \/ d_shaken l' = true)).
Proof.
  intros E1 E2. unfold sendClientACK. rewrite Hmix. pose proof (Close_kp drules d_gates) as HC.
  apply d_seq; [apply (write_kp drules d_gates)|]. intros [|] l2 M2; pose proof M2 as [_ MM _ _ _ _]; destruct (MM E1) as [M3 M4]; cbn [negb].
  - eapply (ok_seq SD dmono); [apply c_wait_ok; right; split; congruence|]. intros [e|] l3 [H3 H4].
    + apply d_seq; [apply HC|]. cbn. split; [|discriminate]. eauto using weak_trans, more_weak.
    + cbn. split; [|auto]. eauto using weak_trans, more_weak.
  - apply d_seq; [apply HC|]. cbn. split; [|discriminate]. eauto using weak_trans, more_weak.
Qed.
Lemma d_dial c' l : d_made l = false -> (c' <> c -> kp (sendClientACK G c')) -> ok (S := SD) l (Dial G c') (fun _ l' => more l l').
Proof.
  intros Em H1. destruct (decide (c' = c)) as [->|Hne].
  - unfold Dial, newConn. cbn. rewrite Nat.eqb_refl. split; [intros _; exact Hmix|]. split; [reflexivity|]. set (l1 := l <| d_made := true |> <| d_lock := false |>).
    assert (H0 : weak l l1) by wk. eapply (ok_seq SD dmono); [apply c_send; reflexivity|]. intros [e|] l3 [H2 H3]; [cbn; intros _; apply weak_more; eauto using weak_trans|].
    assert (H4 : weak l l3) by eauto using weak_trans. clear H0 H2.
    cbn. rewrite Nat.eqb_refl. intros i. split; [|apply weak_more; [|exact Em]; destruct (_ && _); [|exact H4]; eapply weak_trans; [exact H4|]; apply more_weak, more_add].
    intros _. destruct (H3 eq_refl) as [(b & Hb & Hs)|E].
    + left. exists b. destruct (_ && _); cbn; auto.
    + right. rewrite E. cbn. auto.
  - specialize (H1 Hne). pose proof (d_newconn c' Hne) as HN.
    assert (HL : forall i, kp (opr (OLog (LDial c' None i)))) by (intros i l0; cbn; split; [congruence|auto]). revert l Em. refine (_ : forall l, d_made l = false -> _).
    assert (HK : kp (Dial G c')) by (unfold Dial; kf). intros l _. apply HK.
Qed.
Lemma d_next c' ch : kp (read_next G c' ch).
Proof. pose proof d_send. unfold read_next. kf. Qed.
Lemma d_server l : True -> (forall c' msgs, kp (publishMessages G c' msgs)) ->
  (forall c', exists f, Close G c' = bind (opr (OCasClosed c')) f /\ forall r : bool, @Frame.kpp SD more _ (fun l => r = true -> True) (f r)) -> (forall k c', kp (g_do G k c')) ->
  (forall x, kp (exch_call G x)) -> (forall f c', g_ondisconnect G = Some f -> kp (f c')) -> ok (S := SD) l (server_step G) (fun _ l' => True).
Proof.
  intros _ H1 _ H2' H3 H4. pose proof (Close_kp drules d_gates) as HC. apply d_any; [|auto].
  unfold server_step, publish, act_call. apply (kp_bind drules); [kf|]. intros x. apply (kp_bind drules); [kf|]. intros _.
  destruct x; [kf| |kf|kf]. destruct (g_ondisconnect G) as [f|] eqn:E; [|kf]. pose proof (fun c => H4 f c eq_refl) as H5. kf.
Qed.
(** ** The reader of [c]. *)
Lemma d_payload typ b : kp (HandlePayload G c typ b).
Proof. intros l. apply (HandlePayload_kpp drules d_gates); auto using d_ask, d_reply, d_message. Qed.
Lemma d_queue : kp (handleQueue G c).
Proof. intros l. apply (handleQueue_kpp drules d_gates); auto using d_ask, d_reply, d_message. Qed.
Lemma handleACK_in typ b l : In b (d_frames l) -> ok (S := SD) l (handleACK G c typ b) (fun _ _ => True).
Proof.
  intros Hl. pose proof (write_kp drules d_gates) as HW. pose proof d_queue as HQ.
  unfold handleACK. destruct b as [|a rest]; [apply d_any; [kf|auto]|].
  destruct (Ascii.eqb_spec a ackBinary) as [->|].
  - eapply (ok_seq SD dmono); [apply c_wait_ok; left; exists (String ackBinary rest); split; [exact Hl|eexists; reflexivity]|]. intros [e|] l' _; apply d_any; auto; kf.
  - destruct (Ascii.eqb_spec a ackIDBinary) as [->|].
    + cbn. rewrite Nat.eqb_refl. split; [auto|]. cbn. intros _. set (l1 := _ <| d_shaken := true |>). eapply (ok_seq SD dmono); [apply c_unwait; reflexivity|]. cbn. auto.
    + destruct (Ascii.eqb a ackNotOKBinary); [|apply d_any; [kf|auto]].
      eapply (ok_seq SD dmono); [apply c_unwait; discriminate|]. cbn. auto.
Qed.
Lemma reader_in l : ok (S := SD) l (reader_step G c) (fun _ _ => True).
Proof.
  unfold reader_step. pose proof d_payload as HP. cbn [bind opr ok ls_rule SD drule]. rewrite Nat.eqb_refl.
  intros [e|[typ b]]; [eapply (ok_seq SD dmono); [apply c_unwait; discriminate|]; cbn; auto|]. destruct (is_empty b); [exact Logic.I|].
  cbn [bind opr ok ls_rule SD drule]. intros [|]; cbn [negb]; [apply d_any; [kf|auto]|]. apply handleACK_in. left. reflexivity.
Qed.

(** ** The invariant. *)
Definition got (w : world) : list string := map snd (c_got (conn_of w c)).
Definition gate (w : world) : waiter := c_wait (conn_of w c).
Definition kA (w : world) : Prop := In (String ackIDBinary (c_id (conn_of w c))) (got w).
Definition kS (w : world) : Prop := LAcked c ∈ w_log w /\ kA w.
Definition fine (w : world) : Prop := w_err (gate w) <> None \/ kS w.
Definition gotM (w : world) : Prop := exists b, In b (got w) /\ starts ackBinary b.
Record lfacts (w : world) (l : dlab) : Prop := LF {
  lf_read : incl (d_frames l) (got w);
  lf_some : d_made l || d_id l || d_shaken l || d_err l || d_open l = true -> is_Some (w_conns w !! c);
  lf_id : d_id l = true -> kA w;
  lf_shaken : d_shaken l = true -> kS w;
  lf_err : d_err l = true -> fine w;
  lf_open : d_open l = true -> w_ready (gate w) = true }.
Record Inv (w : world) (Ls : gmap tid dlab) : Prop := MkI {
  iv_label : forall (t : tid) l, Ls !! t = Some l -> lfacts w l;
  iv_spawn : forallb noup (w_spawn w) = true;
  iv_uniq : forall (t t' : tid) l l', Ls !! t = Some l -> Ls !! t' = Some l' -> d_made l = true -> d_made l' = true -> t = t';
  iv_in : incl (c_in (conn_of w c)) (c_got (conn_of w c));
  iv_lock : w_locked (gate w) = true -> gotM w \/ forall (t : tid) l, Ls !! t = Some l -> d_made l = true -> d_lock l = true;
  iv_ready : w_ready (gate w) = true -> fine w;
  iv_ch : w_chclosed (gate w) = true -> w_ready (gate w) = true;
  iv_log : forall l2 i l1, w_log w = l2 ++ LDial c None i :: l1 -> gotM w \/ (LAcked c ∈ l1 /\ In (String ackIDBinary i) (got w)) }.
Record calm (w w' : world) : Prop := MkCalm {
  cm_spawn : forallb noup (w_spawn w) = true -> forallb noup (w_spawn w') = true;
  cm_some : is_Some (w_conns w !! c) -> is_Some (w_conns w' !! c);
  cm_log : w_log w' = w_log w \/ exists e, w_log w' = e :: w_log w /\ forall i, e <> LDial c None i;
  cm_got : incl (c_got (conn_of w c)) (c_got (conn_of w' c));
  cm_in : incl (c_in (conn_of w c)) (c_got (conn_of w c)) -> incl (c_in (conn_of w' c)) (c_got (conn_of w' c));
  cm_id : c_id (conn_of w' c) = c_id (conn_of w c);
  cm_gate : w_err (gate w') = w_err (gate w) /\ w_ready (gate w') = w_ready (gate w) /\ w_chclosed (gate w') = w_chclosed (gate w) /\ (w_locked (gate w') = true -> w_locked (gate w) = true) }.
Lemma got_sub w w' : incl (c_got (conn_of w c)) (c_got (conn_of w' c)) -> incl (got w) (got w').
Proof. intros H b Hb. unfold got in *. apply in_map_iff in Hb as (x & <- & Hx). apply in_map, H, Hx. Qed.
Lemma kS_mono w w' : incl (got w) (got w') -> (LAcked c ∈ w_log w -> LAcked c ∈ w_log w') -> (kA w -> kA w') -> kS w -> kS w'.
Proof. intros H1 H2 H3 [? ?]. split; auto. Qed.
Lemma lf_mono w w' l : lfacts w l -> incl (got w) (got w') -> (is_Some (w_conns w !! c) -> is_Some (w_conns w' !! c)) -> (LAcked c ∈ w_log w -> LAcked c ∈ w_log w') -> (kA w -> kA w') ->
  (fine w -> fine w') -> (w_ready (gate w) = true -> w_ready (gate w') = true) -> lfacts w' l.
Proof.
  intros [L1 L2 L3 L4 L5 L6] H1 H2 H3 H4 H5 H6. constructor; auto; [eapply incl_tran; eassumption|]. intros H. destruct (L4 H). split; auto.
Qed.
Lemma gotM_mono w w' : incl (got w) (got w') -> gotM w -> gotM w'.
Proof. intros H (b & H1 & H2). exists b. auto. Qed.
Lemma inv_mono w w' Ls : Inv w Ls -> forallb noup (w_spawn w') = true -> incl (got w) (got w') -> (is_Some (w_conns w !! c) -> is_Some (w_conns w' !! c)) ->
  w_log w' = w_log w \/ (exists e, w_log w' = e :: w_log w /\ forall i, e <> LDial c None i) -> (kA w -> kA w') ->
  (fine w -> fine w') -> (w_ready (gate w) = true -> w_ready (gate w') = true) -> (w_ready (gate w') = true -> w_ready (gate w) = true \/ fine w') ->
  (w_chclosed (gate w') = true -> w_chclosed (gate w) = true \/ w_ready (gate w) = true) ->
  (w_locked (gate w') = true -> w_locked (gate w) = true) -> (incl (c_in (conn_of w' c)) (c_got (conn_of w' c))) -> Inv w' Ls.
Proof.
  intros [I1 Isp I2 I3 I4 I5 I6 I7] Hspw H1 H2 H3 H4 H5 H6 H7 H8 H9 H10.
  assert (H3' : LAcked c ∈ w_log w -> LAcked c ∈ w_log w') by (intros H; destruct H3 as [->|(e & -> & _)]; [exact H|right; exact H]).
  constructor; auto.
  - intros t l Hl. eapply lf_mono; eauto.
  - intros H. destruct (I4 (H9 H)); eauto using gotM_mono.
  - intros H. destruct (H7 H); auto.
  - intros H. destruct (H8 H); auto.
  - intros l2 i l1 E. assert (Hold : forall l2', w_log w = l2' ++ LDial c None i :: l1 -> gotM w' \/ (LAcked c ∈ l1 /\ In (String ackIDBinary i) (got w'))).
    { intros l2' E'. destruct (I7 _ _ _ E') as [H|[Ha Hb]]; [left; eauto using gotM_mono|right; auto]. }
    destruct H3 as [E3|(e & E3 & He)]; rewrite E3 in E; [eauto|]. destruct l2 as [|e' l2]; cbn in E; injection E as -> E; [destruct (He i eq_refl)|eauto].
Qed.
Lemma inv_calm w w' Ls : Inv w Ls -> calm w w' -> Inv w' Ls.
Proof.
  intros HI [C0 C1 C2 C3 C4 C5 (C6 & C7 & C8 & C9)]. pose proof (got_sub _ _ C3) as Hg.
  assert (HA : kA w -> kA w') by (unfold kA; rewrite C5; auto).
  assert (HL : LAcked c ∈ w_log w -> LAcked c ∈ w_log w') by (intros H; destruct C2 as [->|(e & -> & _)]; [exact H|right; exact H]).
  eapply inv_mono; eauto using iv_spawn; rewrite ?C7, ?C8; auto; [|apply C4, HI]. unfold fine. rewrite C6. intros [H|[H1 H2]]; [auto|right]. split; auto.
Qed.
Lemma calm_refl w : calm w w.
Proof. constructor; auto. apply incl_refl. Qed.
Lemma conn_of_upd c0 f w c' : conn_of (upd_conn c0 f w) c' = if decide (c' = c0) then f (conn_of w c0) else conn_of w c'.
Proof. unfold conn_of, upd_conn. cbn. case_decide as E; [subst; rewrite lookup_insert|rewrite lookup_insert_ne by congruence]; reflexivity. Qed.
Lemma some_upd c0 f w : is_Some (w_conns w !! c) -> is_Some (w_conns (upd_conn c0 f w) !! c).
Proof. intros H. unfold upd_conn. cbn. apply lookup_insert_is_Some'. auto. Qed.
Lemma calm_conn c0 f w : (c0 = c -> c_got (f (conn_of w c)) = c_got (conn_of w c) /\ incl (c_in (f (conn_of w c))) (c_in (conn_of w c)) /\ c_id (f (conn_of w c)) = c_id (conn_of w c) /\
  c_wait (f (conn_of w c)) = c_wait (conn_of w c)) -> calm w (upd_conn c0 f w).
Proof.
  intros H. destruct (decide (c0 = c)) as [->|Hne].
  - destruct (H eq_refl) as (H1 & H2 & H3 & H4). constructor; try apply some_upd; auto; unfold gate; rewrite conn_of_upd, decide_True by reflexivity; rewrite ?H1, ?H4; auto; [apply incl_refl|]. intros Hi x Hx. apply Hi, H2, Hx.
  - constructor; try apply some_upd; auto; unfold gate; rewrite conn_of_upd, decide_False by congruence; auto. apply incl_refl.
Qed.
Lemma calm_same w w' : w_spawn w' = w_spawn w -> w_conns w' = w_conns w -> w_log w' = w_log w -> calm w w'.
Proof. intros H0 H1 H2. assert (Hc : conn_of w' c = conn_of w c) by (unfold conn_of; rewrite H1; reflexivity). constructor; unfold gate; rewrite ?Hc, ?H0, ?H1, ?H2; auto. apply incl_refl. Qed.
Lemma calm_trans a b d : w_spawn b = w_spawn a -> w_conns b = w_conns a -> w_log b = w_log a -> calm b d -> calm a d.
Proof. intros Hs0 H H2 [C0 C1 C2 C3 C4 C5 C6]. assert (Hc : conn_of b c = conn_of a c) by (unfold conn_of; rewrite H; reflexivity). unfold gate in *. rewrite !Hc in *. rewrite H in C1. rewrite H2 in C2. rewrite Hs0 in C0. constructor; auto. Qed.
Lemma calm_log w e : (forall i, e <> LDial c None i) -> calm w (w <| w_log ::= cons e |>).
Proof. intros H. constructor; auto; [|apply incl_refl]. right. exists e. auto. Qed.
Ltac cc := apply calm_conn; intros _; cbn; auto using incl_refl; fail.
Definition quietop (o : op) : bool :=
  match o with
  | OLog (LAcked _) | ORead _ | OWReady _ | OWErr _ | OWRecv _ | OGetId _ => false
  | _ => neutral o
  end.
Lemma quiet_calm t w o w' r : quietop o = true -> ostep t w o = Goes w' r -> calm w w'.
Proof.
  intros Hb H. destruct o; try discriminate Hb; cbn [ostep] in H;
    repeat match goal with
    | H : match ?x with _ => _ end = Goes _ _ |- _ => destruct x eqn:?; try discriminate H
    end; try discriminate H; injection H as <- <-;
    first [apply calm_refl | (apply calm_same; reflexivity) | cc | (eapply calm_trans; [reflexivity..|]; cc) | idtac].
  all: try (apply calm_conn; intros _; match goal with |- context [match ?x with _ => _ end] => destruct x end; cbn; auto using incl_refl; fail).
  - destruct (decide (c0 = c)) as [->|Hne]; [|apply calm_conn; congruence].
    constructor; try apply some_upd; auto; unfold gate; rewrite conn_of_upd, decide_True by reflexivity; cbn; auto. apply incl_refl.
  - eapply (calm_trans _ (w <| w_procs ::= <[w_next w:=proc0]> |> <| w_next ::= S |>)); [reflexivity..|]. cc.
  - eapply (calm_trans _ (upd_srv (fun s => s <| b_msgs := msgs |>) w)); [reflexivity..|]. apply calm_log. discriminate.
  - constructor; auto; [|apply incl_refl]. cbn. rewrite forallb_app. intros ->. cbn. cbn in Hb. rewrite Hb. reflexivity.
  - apply calm_log. intros i ->. discriminate Hb.
Qed.
Lemma env_calm w e : calm w (env_step e w).
Proof.
  destruct e; cbn [env_step]; repeat match goal with |- context [match ?x with _ => _ end] => destruct x eqn:? end;
    first [apply calm_refl | (apply calm_same; reflexivity) | cc | idtac].
  destruct (decide (c0 = c)) as [->|Hne]; [|apply calm_conn; congruence].
  constructor; try apply some_upd; auto; unfold gate; rewrite conn_of_upd, decide_True by reflexivity; cbn; auto; [apply incl_appl, incl_refl|].
  intros H. apply incl_app; [apply incl_appl, H|apply incl_appr, incl_refl].
Qed.
Lemma inv_label w (Ls : gmap tid dlab) (t : tid) l l' : Inv w Ls -> Ls !! t = Some l -> lfacts w l' -> d_made l' = d_made l -> d_lock l' = d_lock l -> Inv w (<[t := l']> Ls).
Proof.
  intros [I1 Isp I2 I3 I4 I5 I6 I7] Ht Hf Em El. constructor; auto.
  - intros t1 l1 H. apply lookup_insert_Some in H as [[<- <-]|[_ H]]; eauto.
  - intros t1 t2 l1 l2 H1 H2 M1 M2. apply lookup_insert_Some in H1 as [[<- <-]|[_ H1]]; apply lookup_insert_Some in H2 as [[<- <-]|[_ H2]]; rewrite ?Em in *; eauto.
  - intros H. destruct (I4 H) as [|H']; [auto|right]. intros t1 l1 H1 M1. apply lookup_insert_Some in H1 as [[<- <-]|[_ H1]]; [rewrite El; rewrite Em in M1|]; eauto.
Qed.
Lemma inv_new w (Ls : gmap tid dlab) (t : tid) : Inv w Ls -> Inv w (<[t := lab0]> Ls).
Proof.
  intros [I1 Isp I2 I3 I4 I5 I6 I7]. constructor; auto.
  - intros t1 l1 H. apply lookup_insert_Some in H as [[<- <-]|[_ H]]; eauto. constructor; cbn; try discriminate. intros b [].
  - intros t1 t2 l1 l2 H1 H2 M1 M2. apply lookup_insert_Some in H1 as [[<- <-]|[_ H1]]; [discriminate|]. apply lookup_insert_Some in H2 as [[<- <-]|[_ H2]]; [discriminate|]. eauto.
  - intros H. destruct (I4 H) as [|H']; [auto|right]. intros t1 l1 H1 M1. apply lookup_insert_Some in H1 as [[<- <-]|[_ H1]]; [discriminate|eauto].
Qed.
Lemma lf_add w l b : lfacts w l -> In b (got w) -> lfacts w (add b l).
Proof. intros [L1 L2 L3 L4 L5 L6] Hb. constructor; auto. cbn. intros x [<-|Hx]; auto. Qed.
Lemma flag_some (a b d e f : bool) (P : Prop) : (a || b || d || e || f = true -> P) -> P -> forall a' b' d' e' f', a' || b' || d' || e' || f' = true -> P.
Proof. auto. Qed.
(** A change of the connection itself. *)
Lemma inv_upd f w Ls : Inv w Ls -> (let k := conn_of w c in
  c_got (f k) = c_got k /\ c_in (f k) = c_in k /\ (c_id (f k) = c_id k \/ In (String ackIDBinary (c_id (f k))) (got w)) /\
  ((w_err (c_wait (f k)) = w_err (c_wait k)) \/ w_err (c_wait (f k)) <> None \/ kS w) /\
  (w_ready (c_wait (f k)) = w_ready (c_wait k) \/ (w_ready (c_wait (f k)) = true /\ fine w /\ w_err (c_wait (f k)) = w_err (c_wait k) /\ c_id (f k) = c_id k)) /\
  (w_chclosed (c_wait (f k)) = w_chclosed (c_wait k) \/ w_ready (c_wait k) = true) /\ w_locked (c_wait (f k)) = w_locked (c_wait k)) -> Inv (upd_conn c f w) Ls.
Proof.
  cbn zeta. intros HI (F1 & F2 & F3 & F4 & F5 & F6 & F7).
  assert (Hc : conn_of (upd_conn c f w) c = f (conn_of w c)) by (rewrite conn_of_upd, decide_True by reflexivity; reflexivity).
  assert (Hg : got (upd_conn c f w) = got w) by (unfold got; rewrite Hc, F1; reflexivity).
  assert (HA : kA w -> kA (upd_conn c f w)) by (unfold kA; rewrite Hg, Hc; destruct F3 as [->|F3]; auto).
  assert (HS : kS w -> kS (upd_conn c f w)) by (intros [? ?]; split; auto).
  assert (HF : fine w -> fine (upd_conn c f w)).
  { intros [H|H]; [|right; auto]. unfold fine at 1, gate. rewrite Hc. destruct F4 as [E|[E|E]]; [left; rewrite E; exact H|left; exact E|right; auto]. }
  eapply inv_mono; [exact HI|apply HI|rewrite Hg; apply incl_refl|apply some_upd|left; reflexivity|exact HA|exact HF|..]; unfold gate; rewrite ?Hc.
  - destruct F5 as [->|[-> _]]; auto.
  - destruct F5 as [->|[_ [H _]]]; auto.
  - destruct F6 as [->|H]; auto.
  - rewrite F7. auto.
  - rewrite F1, F2. apply HI.
Qed.
Lemma some_ready w : w_ready (gate w) = true -> is_Some (w_conns w !! c).
Proof. unfold gate, conn_of. destruct (w_conns w !! c); cbn; [eauto|discriminate]. Qed.
Lemma some_now f w : is_Some (w_conns (upd_conn c f w) !! c).
Proof. unfold upd_conn. cbn. rewrite lookup_insert. eauto. Qed.
Lemma dial_op t w Ls l o (P : res o -> dlab -> Prop) : Inv w Ls -> Ls !! t = Some l -> drule l o P ->
  match ostep t w o with
  | Goes w' r => exists l', Inv w' (<[t := l']> Ls) /\ P r l'
  | _ => True
  end.
Proof.
  intros HI Ht HP. destruct (ostep t w o) as [w' r| |why] eqn:E; auto.
  assert (Hsame : forall w1, calm w w1 -> Inv w1 (<[t := l]> Ls)) by (intros w1 C; rewrite insert_id by exact Ht; eapply inv_calm; eassumption).
  assert (Hself : Inv w (<[t := l]> Ls)) by (apply Hsame, calm_refl).
  pose proof (iv_label _ _ HI _ _ Ht) as HL.
  assert (Hmore : forall l', lfacts w l' -> d_made l' = d_made l -> d_lock l' = d_lock l -> Inv w (<[t := l']> Ls)) by (intros l'; eapply inv_label; eassumption).
  destruct (quietop o) eqn:En.
  { exists l. split; [apply Hsame; eapply quiet_calm; eassumption|]. destruct o; try discriminate En; try apply HP; [destruct r; apply HP|]. destruct e; try discriminate En; try apply HP. destruct err; [apply HP|discriminate En]. }
  destruct o; try discriminate En; cbn [ostep] in E; cbn [drule] in HP.
  - (* OWReady *) injection E as <- <-. eexists. split; [|apply HP]. destruct (Nat.eqb_spec c0 c) as [->|Hne]; cbn; [|exact Hself].
    destruct (w_ready (c_wait (conn_of w c))) eqn:Er; [|exact Hself]. apply Hmore; auto. pose proof (some_ready _ Er) as Hs. destruct HL. constructor; auto.
  - (* OWErr *) injection E as <- <-. eexists. split; [|apply HP]. destruct (Nat.eqb_spec c0 c) as [->|Hne]; cbn; [|exact Hself].
    destruct (d_open l) eqn:Eo; cbn; [|exact Hself]. destruct (w_err (c_wait (conn_of w c))) eqn:Ee; [exact Hself|].
    assert (Hk : kS w) by (destruct (iv_ready _ _ HI (lf_open _ _ HL Eo)) as [H|H]; [destruct (H Ee)|exact H]).
    assert (Hs : is_Some (w_conns w !! c)) by (apply some_ready, (lf_open _ _ HL Eo)).
    apply Hmore; auto. destruct HL. constructor; auto.
  - (* OWSetErr *) injection E as <- <-. destruct HP as [HP0 HP]. eexists. split; [|exact HP].
    destruct (Nat.eqb_spec c0 c) as [->|Hne]; [|apply Hsame, calm_conn; congruence].
    set (f := fun k : conn => k <| c_wait ::= fun x => x <| w_err := e |> |>).
    assert (Hk : e <> None \/ kS w) by (destruct e; [left; discriminate|right; apply (lf_shaken _ _ HL); auto]).
    assert (HI' : Inv (upd_conn c f w) Ls) by (apply inv_upd; [exact HI|]; cbn zeta; repeat split; auto; cbn; destruct Hk; auto).
    assert (Hf : fine (upd_conn c f w)).
    { destruct Hk as [H|[H1 H2]]; [left; unfold gate; rewrite conn_of_upd, decide_True by reflexivity; exact H|right]. split; [exact H1|].
      unfold kA, got in *. rewrite conn_of_upd, decide_True by reflexivity. exact H2. }
    pose proof (iv_label _ _ HI' _ _ Ht) as [L1 L2 L3 L4 L5 L6]. eapply inv_label; [exact HI'|exact Ht| |reflexivity..]. constructor; auto. intros _. apply some_now.
  - (* OWSetReady *) injection E as <- <-. destruct HP as [HP0 HP]. eexists. split; [|exact HP].
    destruct (Nat.eqb_spec c0 c) as [->|Hne]; [|apply Hsame, calm_conn; congruence].
    set (f := fun k : conn => k <| c_wait ::= fun x => x <| w_ready := true |> |>). pose proof (lf_err _ _ HL (HP0 eq_refl)) as Hf.
    assert (HI' : Inv (upd_conn c f w) Ls) by (apply inv_upd; [exact HI|]; cbn zeta; repeat split; auto).
    pose proof (iv_label _ _ HI' _ _ Ht) as [L1 L2 L3 L4 L5 L6]. eapply inv_label; [exact HI'|exact Ht| |reflexivity..]. constructor; auto; [intros _; apply some_now|].
    intros _. unfold gate. rewrite conn_of_upd, decide_True by reflexivity. reflexivity.
  - (* OWCasLock *) destruct HP as (HP0 & HP1 & HP2). destruct (decide (c0 = c)) as [->|Hne].
    + destruct (HP2 eq_refl) as [HP3 HP4]. specialize (HP0 eq_refl). destruct (w_locked (c_wait (conn_of w c))) eqn:El; injection E as <- <-.
      * assert (Hm : gotM w).
        { destruct (iv_lock _ _ HI El) as [H|H]; [exact H|]. destruct HP0 as [(b & Hb & Hs)|[H1 H2]]; [exists b; split; [apply (lf_read _ _ HL), Hb|exact Hs]|].
          rewrite (H t l Ht H1) in H2. discriminate. }
        destruct Hm as (b & Hb & Hs). exists (add b l). split; [|apply HP4, Hs]. apply Hmore; auto using lf_add.
      * eexists. split; [|exact HP3]. set (f := fun k : conn => k <| c_wait ::= fun x => x <| w_locked := true |> |>).
        assert (Hc : conn_of (upd_conn c f w) c = f (conn_of w c)) by (rewrite conn_of_upd, decide_True by reflexivity; reflexivity).
        destruct HI as [I1 Isp I2 I3 I4 I5 I6 I7].
        assert (Hlf : forall l0, lfacts w l0 -> lfacts (upd_conn c f w) l0).
        { intros l0 H0. eapply lf_mono; [exact H0|..]; unfold got, kA, fine, kS, kA, got, gate; rewrite ?Hc; auto; [apply incl_refl|apply some_upd]. }
        constructor; auto; unfold gate, gotM, got in *; rewrite ?Hc; auto.
        -- intros t1 l1 H. apply lookup_insert_Some in H as [[<- <-]|[_ H]]; [|eauto]. specialize (Hlf _ HL) as [L1 L2 L3 L4 L5 L6]. constructor; auto.
        -- intros t1 t2 l1 l2 H1 H2 M1 M2. apply lookup_insert_Some in H1 as [[<- <-]|[_ H1]]; apply lookup_insert_Some in H2 as [[<- <-]|[_ H2]]; eauto.
        -- intros _. destruct HP0 as [(b & Hb & Hs)|[H1 H2]]; [left; exists b; split; [apply (lf_read _ _ HL), Hb|exact Hs]|right].
           intros t1 l1 H M1. apply lookup_insert_Some in H as [[<- <-]|[Hn H]]; [reflexivity|]. destruct (Hn (I2 _ _ _ _ Ht H H1 M1)).
        -- intros H. destruct (I5 H) as [H'|[H1 H2]]; [left|right; split]; unfold gate, kA, got; rewrite ?Hc; auto.
    + exists l. split; [|apply HP1, Hne]. destruct (w_locked (c_wait (conn_of w c0))); injection E as <- <-; [exact Hself|]. apply Hsame, calm_conn. congruence.
  - (* OWClose *) destruct HP as [HP0 HP]. exists l. destruct (w_chclosed (c_wait (conn_of w c0))) eqn:Ec; [discriminate E|]. injection E as <- <-. split; [|exact HP].
    destruct (decide (c0 = c)) as [->|Hne]; [|apply Hsame, calm_conn; congruence]. rewrite insert_id by exact Ht.
    pose proof (lf_open _ _ HL (HP0 eq_refl)) as Ho. apply inv_upd; [exact HI|]. cbn zeta. repeat split; auto.
  - (* OWRecv *) destruct (w_chclosed (c_wait (conn_of w c0))) eqn:Ec; [|discriminate E]. injection E as <- <-. eexists. split; [|exact HP].
    destruct (Nat.eqb_spec c0 c) as [->|Hne]; [|exact Hself]. pose proof (iv_ch _ _ HI Ec) as Hr. pose proof (some_ready _ Hr) as Hs.
    apply Hmore; auto. destruct HL. constructor; auto.
  - (* OGetId *) injection E as <- <-. eexists. split; [|apply HP]. destruct (Nat.eqb_spec c0 c) as [->|Hne]; cbn; [|exact Hself]. destruct (d_shaken l) eqn:Es; [|exact Hself].
    apply Hmore; auto. apply lf_add; [exact HL|]. apply (lf_shaken _ _ HL Es).
  - (* OSetId *) injection E as <- <-. destruct HP as [HR HP]. eexists. split; [|exact HP].
    destruct (Nat.eqb_spec c0 c) as [->|Hne]; [|apply Hsame, calm_conn; congruence].
    pose proof (lf_read _ _ HL _ (HR eq_refl)) as Hg.
    assert (HI' : Inv (upd_conn c (fun k => k <| c_id := s |>) w) Ls) by (apply inv_upd; [exact HI|]; cbn zeta; repeat split; auto).
    pose proof (iv_label _ _ HI' _ _ Ht) as [L1 L2 L3 L4 L5 L6]. eapply inv_label; [exact HI'|exact Ht| |reflexivity..]. constructor; auto; [intros _; apply some_now|].
    intros _. unfold kA, got in *. rewrite conn_of_upd, decide_True by reflexivity. exact Hg.
  - (* ORead *) destruct (c_sockclosed (conn_of w c0)); [injection E as <- <-; exists l; split; [apply Hself|apply (HP (inl _))]|].
    destruct (c_in (conn_of w c0)) as [|[typ b] rest] eqn:Ei.
    + destruct (c_inend (conn_of w c0)); [|discriminate E]. injection E as <- <-. exists l. split; [apply Hself|apply (HP (inl _))].
    + injection E as <- <-. eexists. split; [|apply (HP (inr (typ, b)))].
      assert (Hc : calm w (upd_conn c0 (fun k => k <| c_in ::= @tl (mtype * string) |>) w)).
      { apply calm_conn. intros ->. cbn. split; [reflexivity|]. split; [|auto]. intros x Hx. destruct (c_in (conn_of w c)); [exact Hx|right; exact Hx]. }
      destruct (Nat.eqb_spec c0 c) as [->|Hne]; [|apply Hsame, Hc]. pose proof (inv_calm _ _ _ HI Hc) as HI'.
      eapply inv_label; [exact HI'|exact Ht| |reflexivity..]. apply lf_add; [exact (iv_label _ _ HI' _ _ Ht)|].
      unfold got. rewrite conn_of_upd, decide_True by reflexivity. cbn. apply (in_map snd _ (typ, b)), (iv_in _ _ HI). rewrite Ei. left. reflexivity.
  - (* ONewConn *) destruct (w_conns w !! c0) eqn:Ec; [discriminate E|]. destruct HP as [HP0 HP].
    assert (Hk : exists k, w_conns w' = <[c0 := k]> (w_conns w) /\ (c0 = c -> k = conn0 <| c_id := id |>)).
    { destruct native_only; injection E as <- <-; eexists; (split; [reflexivity|]); [intros ->; discriminate (HP0 eq_refl)|reflexivity]. }
    assert (Hl : w_log w' = w_log w) by (destruct native_only; injection E as <- <-; reflexivity).
    assert (Hspw : w_spawn w' = w_spawn w) by (destruct native_only; injection E as <- <-; reflexivity).
    assert (Hr : r = tt) by (destruct r; reflexivity). rewrite Hr. clear r E Hr.
    destruct Hk as (k & Hcs & Hk). eexists. split; [|exact HP].
    destruct (Nat.eqb_spec c0 c) as [->|Hne].
    + specialize (Hk eq_refl). assert (Hcn : conn_of w' c = k) by (unfold conn_of; rewrite Hcs, lookup_insert; reflexivity).
      assert (Hold : conn_of w c = conn0) by (unfold conn_of; rewrite Ec; reflexivity).
      assert (Hgo : got w = []) by (unfold got; rewrite Hold; reflexivity). assert (Hg' : got w' = []) by (unfold got; rewrite Hcn, Hk; reflexivity).
      assert (Hw : gate w' = waiter0) by (unfold gate; rewrite Hcn, Hk; reflexivity).
      assert (Hno : forall (t1 : tid) l1, Ls !! t1 = Some l1 -> d_frames l1 = [] /\ d_made l1 = false /\ d_id l1 = false /\ d_shaken l1 = false /\ d_err l1 = false /\ d_open l1 = false).
      { intros t1 l1 H1. destruct (iv_label _ _ HI _ _ H1) as [L1 L2 _ _ _ _]. rewrite Hgo in L1.
        destruct (d_made l1 || d_id l1 || d_shaken l1 || d_err l1 || d_open l1) eqn:El; [destruct (L2 eq_refl) as [? Hx]; rewrite Ec in Hx; discriminate|].
        apply orb_false_iff in El as [El ?]. apply orb_false_iff in El as [El ?]. apply orb_false_iff in El as [El ?]. apply orb_false_iff in El as [? ?].
        repeat split; auto. destruct (d_frames l1) as [|b bs]; [reflexivity|]. destruct (L1 b); left; reflexivity. }
      constructor; rewrite ?Hw; try discriminate.
      * intros t1 l1 H. apply lookup_insert_Some in H as [[<- <-]|[_ H]].
        -- destruct (Hno _ _ Ht) as (N1 & N2 & N3 & N4 & N5 & N6). constructor; cbn; rewrite ?N1, ?N3, ?N4, ?N5, ?N6; try discriminate; [intros ? []|]. intros _. rewrite Hcs, lookup_insert. eauto.
        -- destruct (Hno _ _ H) as (N1 & N2 & N3 & N4 & N5 & N6). constructor; rewrite ?N1, ?N2, ?N3, ?N4, ?N5, ?N6; try discriminate. intros ? [].
      * rewrite Hspw. apply HI.
      * intros t1 t2 l1 l2 H1 H2 M1 M2. apply lookup_insert_Some in H1 as [[<- <-]|[_ H1]]; apply lookup_insert_Some in H2 as [[<- <-]|[_ H2]]; auto;
          exfalso; match goal with H : Ls !! _ = Some ?x, M : d_made ?x = true |- _ => destruct (Hno _ _ H) as (_ & N & _); congruence end.
      * rewrite Hcn, Hk. cbn. apply incl_refl.
      * rewrite Hl. intros l2 i l1 El. destruct (iv_log _ _ HI _ _ _ El) as [(b & Hb & _)|[_ Hb]]; rewrite Hgo in Hb; destruct Hb.
    + apply Hsame. assert (Hcn : conn_of w' c = conn_of w c) by (unfold conn_of; rewrite Hcs, lookup_insert_ne by congruence; reflexivity).
      constructor; unfold gate; rewrite ?Hcn, ?Hl, ?Hspw; auto; [|apply incl_refl]. rewrite Hcs, lookup_insert_ne by congruence. auto.
  - (* OSpawn *) destruct HP as [HP _]. cbn in En. congruence.
  - (* OLog *) injection E as <- <-. destruct e; try discriminate En.
    + cbn in HP. eexists. split; [|exact HP]. destruct (Nat.eqb_spec c0 c) as [->|Hne]; cbn; [|apply Hsame, calm_log; discriminate].
      destruct (d_id l) eqn:Ed; [|apply Hsame, calm_log; discriminate].
      assert (HI' : Inv (w <| w_log ::= cons (LAcked c) |>) Ls) by (eapply inv_calm; [exact HI|apply calm_log; discriminate]).
      pose proof (iv_label _ _ HI' _ _ Ht) as [L1 L2 L3 L4 L5 L6]. eapply inv_label; [exact HI'|exact Ht| |reflexivity..]. constructor; auto.
      * intros _. apply L2. cbn. rewrite Ed, orb_true_r. reflexivity.
      * intros _. split; [left|apply L3, Ed].
    + destruct err; [discriminate En|]. cbn in HP. destruct HP as [HP1 HP]. exists l. split; [|exact HP].
      destruct (decide (c0 = c)) as [->|Hne]; [|apply Hsame, calm_log; congruence]. rewrite insert_id by exact Ht. destruct HI as [I1 Isp I2 I3 I4 I5 I6 I7].
      constructor; auto.
      * intros t1 l1 H. eapply lf_mono; [exact (I1 _ _ H)|apply incl_refl|auto| |auto| |auto]; cbn; [intros; right; assumption|]. intros [H'|[H1 H2]]; [left; auto|right; split; [right; exact H1|exact H2]].
      * intros H. destruct (I5 H) as [H'|[H1 H2]]; [left; auto|right; split; [right; exact H1|exact H2]].
      * cbn. intros l2 i l1 El. destruct l2 as [|e' l2]; cbn in El; [|injection El as _ El; exact (I7 _ _ _ El)].
        injection El as <- <-. destruct (HP1 eq_refl) as [(b & Hb & Hs)|[Hs Hb]]; [left; exists b; split; [apply (lf_read _ _ HL), Hb|exact Hs]|right].
        split; [apply (lf_shaken _ _ HL Hs)|apply (lf_read _ _ HL), Hb].
Qed.
Lemma dial_code x l : starting x l -> ok (S := SD) l (code G x) after.
Proof.
  intros Hst. assert (Hd : x = TReaderLoop c \/ x <> TReaderLoop c) by (destruct x as [| |c'| | | | | | |]; try (right; discriminate); destruct (decide (c' = c)); [left|right]; congruence).
  destruct Hd as [->|Hne].
  - cbn [code]. eapply (ok_seq SD dmono); [apply reader_in|]. intros [|] l' Hl; [exact Logic.I|].
    eapply (ok_seq SD dmono); [apply (Close_kp drules d_gates)|]. intros r l'' _. exact Logic.I.
  - destruct (match x with TReaderLoop _ => true | _ => false end) eqn:Ex.
    + destruct x as [| |c'| | | | | | |]; try discriminate Ex. assert (Hc : c' <> c) by congruence. cbn [code].
      eapply (ok_seq SD dmono).
      { apply (reader_step_kpp drules d_gates); auto using d_ask, d_reply, d_message, d_ack. }
      intros [|] l' _; [exact Logic.I|]. eapply (ok_seq SD dmono); [apply (Close_kp drules d_gates)|]. intros r l'' _. exact Logic.I.
    + apply (code_other_kp drules d_gates); auto using d_ask, d_reply, d_message, d_ack, d_waitm, d_broadcast, d_srvask, d_server; try (intros; exact Logic.I).
      * cbn. auto.
      * intros c' l0 Hc Hu Hf. apply d_upgrade; auto.
      * intros c' l0 Hc Hd. apply d_dial; auto.
      * intros c' ch l0 _. apply d_next.
      * intros c' ->. discriminate.
Qed.
Lemma dial_respects : respects SD G Inv.
Proof.
  constructor.
  - intros t w Ls l o P HI Ht HP. pose proof (dial_op t w Ls l o P HI Ht HP) as H. destruct (ostep t w o); auto.
  - intros t w Ls l a HI Ht _ Ha. exists l. rewrite insert_id by exact Ht. split; [exact HI|].
    apply (impl_kp drules d_gates); auto using d_ask, d_reply, d_message, d_ack, d_waitm, d_broadcast, d_srvask; try (intros; exact Logic.I).
    destruct a; cbn; auto; destruct n; auto.
  - intros x l Hs. apply dial_code, Hs.
  - intros t w Ls l [I1 Isp I2 I3 I4 I5 I6 I7] Ht _. constructor; auto.
    + intros t' l' H. apply lookup_delete_Some in H as [_ H]. eauto.
    + intros t' t'' l' l'' H H'. apply lookup_delete_Some in H as [_ H]. apply lookup_delete_Some in H' as [_ H']. eauto.
    + intros H. destruct (I4 H) as [|H']; [auto|right]. intros t' l' H1. apply lookup_delete_Some in H1 as [_ H1]. eauto.
  - intros t w Ls x rest HI Hsp Ht. exists lab0. pose proof (iv_spawn _ _ HI) as Hn. rewrite Hsp in Hn. cbn in Hn. apply andb_true_iff in Hn as [Hx Hn].
    split; [destruct x; try exact Logic.I; try reflexivity; discriminate Hx|]. apply inv_new. eapply inv_calm; [exact HI|]. constructor; auto. apply incl_refl.
  - intros t w Ls x HI Hs Ht. exists lab0. split; [|apply inv_new, HI]. destruct x; cbn in *; try exact Logic.I; try discriminate Hs; [|reflexivity]. intros ->. rewrite Hcl in Hs. discriminate Hs.
  - intros w Ls e HI _. eapply inv_calm; [exact HI|apply env_calm].
Qed.
End dial.

Lemma dial_start c : exists l, ls_start (SD c) TServer l /\ Inv c world0 {[0 := l]}.
Proof.
  exists lab0. split; [exact Logic.I|]. constructor; cbn; try discriminate; auto.
  - intros t l H. apply lookup_singleton_Some in H as [_ <-]. constructor; cbn; try discriminate. intros b [].
  - intros t t' l l' H. apply lookup_singleton_Some in H as [_ <-]. discriminate.
  - apply incl_refl.
  - intros l2 i l1 H. destruct l2; discriminate H.
Qed.
Lemma dial_main G c (A : user_app (fun _ => True) G) s l2 i l1 : g_client G c = true -> onlyNative G c = false -> reachable G s ->
  w_log (s_w s) = l2 ++ LDial c None i :: l1 -> (LAcked c ∈ l1 /\ told c i (s_w s)) \/ exists typ r, In (typ, String "M" r) (c_got (conn_of (s_w s) c)).
Proof.
  intros Hc Hm Hr Hl. destruct (reachable_holds (SD c) (dmono c) G _ (dial_respects G c Hc Hm A) s (dial_start c) Hr) as (_ & Ls & [_ _ _ _ _ _ _ H] & _).
  destruct (H _ _ _ Hl) as [(b & Hb & r & ->)|[H1 H2]]; [right|left; split; [exact H1|]].
  - apply in_map_iff in Hb as ((typ & b) & E & Hb). cbn in E. subst b. exists typ, r. exact Hb.
  - apply in_map_iff in H2 as ((typ & b) & E & H2). cbn in E. subst b. exists typ. exact H2.
Qed.
