(** * Shake.v : the handshake of a connection is completed at most once while
    the connection is open (C56), in every interleaving. *)
From Coq Require Import ZArith Ascii.
From stdpp Require Import gmap strings list relations.
From RecordUpdate Require Import RecordUpdate.
From Verif Require Import Go Errors Message World Lang Code Sem ExecProofs Logic Spec_App Spec_View Spec_Order Frame.

#[local] Arguments Write : simpl never.
#[local] Arguments write : simpl never.
#[local] Arguments Close : simpl never.
#[local] Arguments wait : simpl never.
#[local] Arguments unwait : simpl never.
#[local] Arguments handleQueue : simpl never.
#[local] Arguments Broadcast : simpl never.
#[local] Arguments handle_event : simpl never.
#[local] Arguments handle_reply_or_event : simpl never.
#[local] Arguments send : simpl never.

(** Ghost state of a goroutine: whether it has closed [c], and its part.  [Oth]: not a reader
    of [c]; [Mk]: has made [c] and will start its reader; [Rd]: is the reader.  [Not]: it has
    seen that the handshake is not over; [Mid]: it is about to say that it is over. *)
Inductive seen : Type := Idk | Not | Mid.
Inductive part : Type := Oth | Mk | Rd (s : seen).
Notation lab := (bool * part)%type.

Section shake.
(** [id0]: the ID of [c] at some moment after its handshake, if one is given. *)
Context (G : cfg) (c : cid) (id0 : option string).
Definition srule (l : lab) (o : op) : (res o -> lab -> Prop) -> Prop :=
  match o as o return (res o -> lab -> Prop) -> Prop with
  | OIsAcked c' => fun P => (forall r, P r l) \/ (c' = c /\ (exists s, l.2 = Rd s /\ s <> Mid) /\ forall r : bool, P r (if r then l else (l.1, Rd Not)))
  | OSetAcked c' true => fun P => if Nat.eqb c' c then l.2 = Rd Mid /\ P tt (l.1, Rd Idk) else P tt l
  | OSetAcked c' false => fun P => (c' = c -> l.1 = true) /\ P tt l
  | OCasClosed c' => fun P => forall r : bool, P r (if r && Nat.eqb c' c then (true, l.2) else l)
  | OLog (LAcked c') => fun P => if Nat.eqb c' c then l.2 = Rd Not /\ P tt (l.1, Rd Mid) else P tt l
  | ONewConn c' _ native => fun P => if Nat.eqb c' c then l.2 = Oth /\ native = onlyNative G c /\ P tt (l.1, Mk) else P tt l
  | OSpawn (TReader c') => fun P => if Nat.eqb c' c then l.2 = Mk /\ P tt (l.1, Oth) else P tt l
  | OSpawn (TReaderLoop c') => fun P => c' <> c /\ P tt l
  | OSetId c' _ => fun P => (c' = c -> l.2 = Rd Not) /\ P tt l
  | _ => fun P => forall r, P r l
  end.
Definition sstart (t : tcode) (l : lab) : Prop :=
  match t with
  | TReader c' | TReaderLoop c' => if Nat.eqb c' c then exists s, l.2 = Rd s /\ s <> Mid else l.2 = Oth
  | _ => l.2 = Oth
  end.
Definition more (l l' : lab) : Prop := l'.2 = l.2 /\ (l.1 = true -> l'.1 = true).
Definition SS : lspec := {|
  ls_L := lab; ls_rule := srule; ls_cpre := fun _ a => True; ls_cpost := fun l a r l' => more l l';
  ls_crash := fun _ => True; ls_start := sstart; ls_fin := fun l => l.2 <> Rd Mid |}.
Lemma smono : rule_mono SS.
Proof.
  intros l o P P' H. destruct o; try match goal with x : tcode |- _ => destruct x | x : event |- _ => destruct x | x : bool |- _ => destruct x end; cbn in *; intros HP;
    repeat match goal with
    | H : _ /\ _ |- _ => destruct H | H : exists _, _ |- _ => destruct H | H : _ \/ _ |- _ => destruct H
    | H : context [if ?x then _ else _] |- _ => destruct x eqn:?
    end; subst; eauto 12; try contradiction; try (right; eauto 12; fail).
Qed.
Lemma more_refl l : more l l.
Proof. split; auto. Qed.
Lemma more_trans a b d : more a b -> more b d -> more a d.
Proof. intros [? ?] [? ?]. split; [congruence|auto]. Qed.

Context (A : user_app (fun _ => True) G).
Notation any := (fun _ _ => True).
Notation notc := (fun _ c' => c' <> c).
Lemma srules : @rules G SS (fun _ => True) more any any any notc any any notc any (fun l c' => c' = c -> l.1 = true) any (fun _ _ _ _ => True) (fun _ _ => True).
Proof.
  constructor; cbn; unfold stable; auto using smono, more_refl; try (intros; eauto using more_refl, more_trans; fail).
  - intros c0 l l' [_ H] H1 H2. auto.
  - intros o l P Hp H.
    destruct o; cbn in *; try discriminate; try (intros; apply H, more_refl); try (left; intros; apply H, more_refl);
    match goal with x : tcode |- _ => destruct x | x : event |- _ => destruct x | x : bool |- _ => destruct x end; try discriminate; cbn; intros; apply H, more_refl.
  - intros c0 s l P H r. apply H; [apply more_refl|]. destruct r; auto.
  - intros o n l P Ho _ H. destruct o; try discriminate Ho; cbn; intros; apply H, more_refl.
  - intros c0 l P H [|]; cbn; [|apply H; [apply more_refl|discriminate]]. destruct (Nat.eqb_spec c0 c); apply H; try apply more_refl; try (intros; cbn; congruence). split; auto.
Qed.
Notation kp := (@kp SS more _).
Notation kpp P := (@kpp SS more _ P).
Definition neutral (o : op) : bool :=
  match o with
  | OIsAcked _ | OSetAcked _ _ | OCasClosed _ | OLog (LAcked _) | ONewConn _ _ _ | OSpawn (TReader _) | OSpawn (TReaderLoop _) | OSetId _ _ => false
  | _ => true
  end.
Lemma s_free o : neutral o = true -> kp (opr o).
Proof. intros H l. cbn. unfold neutral in H. destruct o; try discriminate; cbn; intros; try apply more_refl;
  match goal with x : tcode |- _ => destruct x | x : event |- _ => destruct x | x : bool |- _ => destruct x end; try discriminate; cbn; intros; apply more_refl. Qed.
Ltac kf := repeat first
  [ apply (kp_ret srules) | apply (kp_crash srules) | match goal with |- @Frame.kp _ _ _ (opr ?o) => exact (s_free o eq_refl) end | assumption
  | match goal with H : forall _, _ |- _ => apply H; fail end
  | match goal with |- @Frame.kp _ _ _ (Do _ _) => apply (kp_do srules); [reflexivity|intros] end
  | apply (kp_for_all srules); intros | apply (kp_bind srules); [|intros]
  | match goal with |- @Frame.kp _ _ _ ?p => match p with context [match ?x with _ => _ end] => destruct x eqn:? end end ].
Lemma s_gates : @gates G SS more any (fun _ => True).
Proof.
  constructor; intros.
  - unfold wait. kf.
  - unfold unwait. kf.
  - unfold proc_get. kf.
  - apply (kpp_kp srules). unfold proc_Done. kf.
  - unfold proc_Wait. kf.
  - apply (kq_any srules); [auto|]. unfold proc_Start. kf.
Qed.
Lemma s_ask c' x m nx : kp (ask G c' x m nx).
Proof. pose proof (Write_kp srules s_gates) as HW. unfold ask. kf. Qed.
Lemma s_send ch m : kp (send ch m).
Proof. unfold send. kf. Qed.
Lemma s_reply c' m : kpp (fun _ => True) (handle_event G c' m) -> kpp (fun _ => True) (handle_reply_or_event G c' m).
Proof.
  intros H. assert (H' : kp (handle_event G c' m)) by (intros l; apply H; exact Logic.I). pose proof s_send. apply (kpp_kp srules). unfold handle_reply_or_event. kf.
Qed.
Lemma s_message c' m : (forall m', kpp (fun _ => True) (handle_event G c' m')) -> kpp (fun _ => True) (handle_reply_or_event G c' m) ->
  (forall n m', True -> kpp (fun _ => True /\ True /\ True) (fireEvent G n m')) -> kpp (fun _ => True) (handleMessage G c' m).
Proof.
  intros He Hr Hf. assert (He' : forall m', kp (handle_event G c' m')) by (intros m' l; apply He; exact Logic.I).
  assert (Hr' : kp (handle_reply_or_event G c' m)) by (intros l; apply Hr; exact Logic.I).
  assert (Hf' : forall n m', kp (fireEvent G n m')) by (intros n m' l; apply Hf; auto).
  pose proof (Namespace_kp srules s_gates) as HN. pose proof s_send as HS.
  apply (kpp_kp srules). unfold handleMessage. destruct (m_isInvalid m); [kf|]. pose proof (exch_call_kp srules s_gates). kf.
Qed.
Lemma s_ack c' typ b : kpp (fun _ => True) (handleQueue G c') -> (forall s bin, kp (write G c' s bin)) -> kp (wait c') -> (forall e, kp (unwait c' e)) ->
  kpp (fun _ => c' <> c) (handleACK G c' typ b).
Proof.
  intros H1 H2 H3 H4 l0 Hc. revert l0. assert (H1' : kp (handleQueue G c')) by (intros l; apply H1; exact Logic.I).
  assert (Ha : kp (opr (OLog (LAcked c')))) by (intros l; cbn; rewrite (proj2 (Nat.eqb_neq _ _) Hc); apply more_refl).
  assert (Hs : kp (opr (OSetAcked c' true))) by (intros l; cbn; rewrite (proj2 (Nat.eqb_neq _ _) Hc); apply more_refl).
  assert (Hi : forall i, kp (opr (OSetId c' i))) by (intros i l; cbn; split; [congruence|apply more_refl]).
  refine (_ : kp (handleACK G c' typ b)). unfold handleACK. kf.
Qed.
Lemma s_kp {X} (p : prog X) l (Q : X -> lab -> Prop) : kp p -> (forall r l', l'.2 = l.2 -> Q r l') -> ok (S := SS) l p Q.
Proof. intros H HQ. eapply (ok_mono SS smono); [|apply H]. intros r l' [H1 _]. auto. Qed.
Lemma s_waitm c' l : l.2 = Oth -> (forall msgs, kp (publishMessages G c' msgs)) -> ok (S := SS) l (waitMessages G c') (fun r l' => if r : bool then l'.2 = Oth else l'.2 <> Rd Mid).
Proof. intros Hl H. apply s_kp; [unfold waitMessages, publish; kf|]. intros [|] l' E; rewrite E; congruence. Qed.
Lemma s_broadcast msgs : kp (broadcast msgs).
Proof. unfold broadcast. kf. Qed.
Lemma s_srvask x m : (forall e msgs, kp (Broadcast G e msgs)) -> kp (ServerAsk G x m).
Proof. intros HB. unfold ServerAsk. kf. Qed.
(** Making the connection and starting its reader. *)
Lemma s_newconn {X} c' l (f : unit -> prog X) (Q : X -> lab -> Prop) : l.2 = Oth -> (forall l', l' = (l.1, if Nat.eqb c' c then Mk else Oth) -> ok (S := SS) l' (f tt) Q) ->
  ok (S := SS) l (bind (newConn G c') f) Q.
Proof.
  intros Hl H. unfold newConn. cbn. destruct (Nat.eqb c' c) eqn:E; [|apply H; destruct l; cbn in *; congruence]. apply Nat.eqb_eq in E as ->. split; [exact Hl|]. split; [reflexivity|]. apply H. reflexivity.
Qed.
Lemma s_spawn {X} c' l (f : unit -> prog X) (Q : X -> lab -> Prop) : l.2 = (if Nat.eqb c' c then Mk else Oth) -> ok (S := SS) (l.1, Oth) (f tt) Q ->
  ok (S := SS) l (bind (opr (OSpawn (TReader c'))) f) Q.
Proof. intros E H. cbn. destruct (Nat.eqb c' c); [split; [exact E|exact H]|]. destruct l; cbn in *. subst. exact H. Qed.
Lemma s_seq {X Y} l (p : prog X) (f : X -> prog Y) (Q : Y -> lab -> Prop) : kp p -> (forall r l', more l l' -> ok (S := SS) l' (f r) Q) -> ok (S := SS) l (bind p f) Q.
Proof. intros Hp Hf. eapply (ok_seq SS smono); [apply Hp|]. intros r l' H. apply Hf, H. Qed.
Lemma s_rest {X} l l' (p : prog X) : kp p -> more l l' -> ok (S := SS) l' p (fun _ l2 => more l l2).
Proof. intros H Hm. eapply (ok_mono SS smono); [|apply H]. intros r l2 H2. eapply more_trans; eassumption. Qed.
Lemma s_upgrade c' l : l.2 = Oth -> (forall e, kp (unwait c' e)) -> (forall f, g_onconnect G = Some f -> kp (f c')) -> ok (S := SS) l (Upgrade G c') (fun _ l' => more l l').
Proof.
  intros Hl H1 H2. unfold Upgrade. apply s_seq; [kf|]. intros [|] l1 M1; [apply s_rest; [kf|exact M1]|]. pose proof M1 as [E1 F1].
  apply s_newconn; [congruence|]. intros l2 ->. apply s_seq; [kf|]. intros _ l3 [E3 F3]. apply s_seq; [kf|]. intros _ l4 [E4 F4].
  apply s_spawn; [cbn in *; congruence|]. apply s_rest; [|cbn in *; split; cbn; auto].
  destruct (g_onconnect G) as [f|] eqn:E; [pose proof (H2 f eq_refl)|]; kf.
Qed.
Lemma s_dial c' l : l.2 = Oth -> kp (sendClientACK G c') -> ok (S := SS) l (Dial G c') (fun _ l' => more l l').
Proof.
  intros Hl H1. unfold Dial. apply s_newconn; [exact Hl|]. intros l2 ->. apply s_spawn; [reflexivity|]. apply s_rest; [kf|]. split; cbn; auto.
Qed.
Lemma s_next c' ch : kp (read_next G c' ch).
Proof. pose proof s_send. unfold read_next. kf. Qed.
Lemma s_server l : l.2 = Oth -> (forall c' msgs, kp (publishMessages G c' msgs)) ->
  (forall c', exists f, Close G c' = bind (opr (OCasClosed c')) f /\ forall r : bool, @Frame.kpp SS more _ (fun l => r = true -> c' = c -> l.1 = true) (f r)) -> (forall k c', kp (g_do G k c')) ->
  (forall x, kp (exch_call G x)) -> (forall f c', g_ondisconnect G = Some f -> kp (f c')) -> ok (S := SS) l (server_step G) (fun _ l' => l'.2 = Oth).
Proof.
  intros Hl H1 _ H2' H3 H4. pose proof (Close_kp srules s_gates) as HC. apply s_kp; [|intros r l' ->; exact Hl].
  unfold server_step, publish, act_call. apply (kp_bind srules); [kf|]. intros x. apply (kp_bind srules); [kf|]. intros _.
  destruct x; [kf| |kf|kf]. destruct (g_ondisconnect G) as [f|] eqn:E; [|kf]. pose proof (fun c => H4 f c eq_refl) as H5. kf.
Qed.
(** ** The reader of [c]. *)
Lemma s_payload typ b : kp (HandlePayload G c typ b).
Proof. intros l. apply (HandlePayload_kpp srules s_gates); auto using s_ask, s_reply, s_message. Qed.
Lemma s_queue : kp (handleQueue G c).
Proof. intros l. apply (handleQueue_kpp srules s_gates); auto using s_ask, s_reply, s_message. Qed.
Definition idle (l : lab) : Prop := exists s, l.2 = Rd s /\ s <> Mid.
Lemma idle_kp {X} (p : prog X) l : kp p -> idle l -> ok (S := SS) l p (fun _ l' => idle l').
Proof. intros Hp (s & H1 & H2). apply s_kp; [exact Hp|]. intros r l' E. exists s. split; [congruence|exact H2]. Qed.
Lemma handleACK_idle typ b l : l.2 = Rd Not -> ok (S := SS) l (handleACK G c typ b) (fun _ l' => idle l').
Proof.
  intros Hl. pose proof (write_kp srules s_gates) as HW. pose proof (fun c0 e0 => unwait_kp s_gates c0 e0 (or_introl Logic.I)) as HU. pose proof (fun c0 => wait_kp s_gates c0 Logic.I) as HWt. pose proof s_queue as HQ.
  assert (Hid : forall s b, s <> Mid -> idle (b, Rd s)) by (intros s b' H; exists s; auto).
  assert (Hid' : idle l) by (exists Not; split; [exact Hl|discriminate]).
  unfold handleACK. destruct b as [|a rest]; [apply idle_kp; [kf|auto]|].
  destruct (Ascii.eqb a ackBinary).
  - apply s_seq; [apply HWt|]. intros [e|] l1 [E1 _]; [apply idle_kp; [kf|exists Not; split; [congruence|discriminate]]|].
    cbn [bind opr ok ls_rule SS srule]. rewrite Nat.eqb_refl. split; [congruence|]. cbn [bind opr ok ls_rule SS srule]. rewrite ?Nat.eqb_refl. split; [reflexivity|]. cbn [fst snd].
    apply idle_kp; [kf|apply Hid; discriminate].
  - destruct (Ascii.eqb a ackIDBinary).
    + cbn [bind opr ok ls_rule SS srule]. split; [intros _; exact Hl|]. rewrite Nat.eqb_refl. split; [congruence|]. cbn [bind opr ok ls_rule SS srule]. rewrite ?Nat.eqb_refl. split; [reflexivity|]. cbn [fst snd].
      apply idle_kp; [kf|apply Hid; discriminate].
    + apply idle_kp; [kf|exact Hid'].
Qed.
Lemma reader_idle l : idle l -> ok (S := SS) l (reader_step G c) (fun _ l' => idle l').
Proof.
  intros Hl. unfold reader_step. pose proof (fun c0 e0 => unwait_kp s_gates c0 e0 (or_introl Logic.I)) as HU. pose proof s_payload as HP.
  apply s_seq; [kf|]. intros r l1 [E1 _]. assert (Hl1 : idle l1) by (destruct Hl as (s & H1 & H2); exists s; split; [congruence|exact H2]).
  destruct r as [e|[typ b]]; [apply idle_kp; [kf|exact Hl1]|]. destruct (is_empty b); [exact Hl1|].
  cbn [bind opr ok ls_rule SS srule]. right. split; [reflexivity|]. split; [exact Hl1|].
  intros [|]; cbn [negb]; [|apply handleACK_idle; reflexivity]. apply idle_kp; [kf|exact Hl1].
Qed.

(** ** The invariant. *)
Notation closed w := (c_closed (conn_of w c)).
Notation once w := (shook_hands_once G c w).
Definition hs (w : world) : bool := onlyNative G c || match handshakes c w with 0 => false | _ => true end.
Definition holder (p : part) : bool := match p with Oth => false | _ => true end.
Definition starts (x : tcode) : bool := match x with TReader c' | TReaderLoop c' => Nat.eqb c' c | _ => false end.
Definition pending (w : world) : list tcode := List.filter starts (w_spawn w).
Definition ackd (w : world) : Prop := closed w = false -> hs w = true -> c_acked (conn_of w c) = true.
Definition fits (w : world) (p : part) : Prop :=
  match p with Oth | Rd Mid => True | Mk | Rd Idk => ackd w | Rd Not => closed w = false -> hs w = false end.
Record Inv (w : world) (Ls : gmap tid lab) : Prop := MkI {
  iv_cl : forall (t : tid) l, Ls !! t = Some l -> l.1 = true -> closed w = true;
  iv_one : forall (t t' : tid) l l', Ls !! t = Some l -> Ls !! t' = Some l' -> holder l.2 = true -> holder l'.2 = true -> t = t';
  iv_sp : pending w = [] \/ (pending w = [TReader c] /\ ackd w /\ is_Some (w_conns w !! c) /\ forall (t : tid) l, Ls !! t = Some l -> l.2 = Oth);
  iv_some : forall (t : tid) l, Ls !! t = Some l -> holder l.2 = true -> is_Some (w_conns w !! c);
  iv_none : w_conns w !! c = None -> handshakes c w = 0;
  iv_fit : forall (t : tid) l, Ls !! t = Some l -> fits w l.2;
  iv_once : closed w = false -> once w;
  iv_id : match id0 with Some i => closed w = false -> 0 < handshakes c w /\ c_id (conn_of w c) = i | None => True end }.
(** Steps that change nothing of this for the worse. *)
Record calm (w w' : world) : Prop := Calm {
  cm_some : is_Some (w_conns w !! c) -> is_Some (w_conns w' !! c);
  cm_hs : handshakes c w' = handshakes c w;
  cm_closed : closed w' = false -> closed w = false;
  cm_acked : closed w' = false -> c_acked (conn_of w c) = true -> c_acked (conn_of w' c) = true;
  cm_sp : pending w' = pending w;
  cm_id : c_id (conn_of w' c) = c_id (conn_of w c) }.
Lemma hs_eq w w' : handshakes c w' = handshakes c w -> hs w' = hs w.
Proof. intros H. unfold hs. rewrite H. reflexivity. Qed.
Lemma fits_calm w w' p : calm w w' -> fits w p -> fits w' p.
Proof.
  intros [C1 C2 C3 C4 C5 C6]. pose proof (hs_eq _ _ C2) as E. unfold fits, ackd. rewrite E. destruct p as [| |[]]; auto.
Qed.
Lemma inv_calm w w' Ls : Inv w Ls -> calm w w' -> Inv w' Ls.
Proof.
  intros [I1 I2 I3 I4 I5 I6 I7 I8] C. pose proof C as [C1 C2 C3 C4 C5 C6]. constructor; eauto using fits_calm.
  - intros t l H H1. destruct (closed w') eqn:D; [reflexivity|]. rewrite (I1 _ _ H H1) in C3. discriminate (C3 eq_refl).
  - rewrite C5. destruct I3 as [I3|(I3 & A1 & A2 & A3)]; [left; exact I3|right]. split; [exact I3|]. split; [exact (fits_calm w w' Mk C A1)|]. auto.
  - rewrite C2. intros Hn. apply I5. destruct (w_conns w !! c) eqn:D; [|reflexivity]. destruct (C1 ltac:(eauto)) as [x Hx]. congruence.
  - unfold shook_hands_once in *. rewrite C2. auto.
  - rewrite C2, C6. destruct id0; auto.
Qed.
Lemma calm_refl w : calm w w.
Proof. constructor; auto. Qed.
Lemma conn_of_upd c0 f w c' : conn_of (upd_conn c0 f w) c' = if decide (c' = c0) then f (conn_of w c0) else conn_of w c'.
Proof. unfold conn_of, upd_conn. cbn. case_decide as E; [subst; rewrite lookup_insert|rewrite lookup_insert_ne by congruence]; reflexivity. Qed.

Lemma some_upd c0 f w : is_Some (w_conns w !! c) -> is_Some (w_conns (upd_conn c0 f w) !! c).
Proof. intros H. unfold upd_conn. cbn. apply lookup_insert_is_Some'. auto. Qed.
Lemma calm_conn c0 f w :
  (c0 = c -> c_closed (f (conn_of w c)) = false -> c_closed (conn_of w c) = false) ->
  (c0 = c -> c_closed (f (conn_of w c)) = false -> c_acked (conn_of w c) = true -> c_acked (f (conn_of w c)) = true) ->
  (c0 = c -> c_id (f (conn_of w c)) = c_id (conn_of w c)) -> calm w (upd_conn c0 f w).
Proof.
  intros H1 H2 H3. constructor; try reflexivity; try apply some_upd.
  - rewrite conn_of_upd. case_decide as E; [subst c0|]; auto.
  - rewrite conn_of_upd. case_decide as E; [subst c0|]; auto.
  - rewrite conn_of_upd. case_decide as E; [subst c0|]; auto.
Qed.
Lemma calm_same w w' : w_conns w' = w_conns w -> w_log w' = w_log w -> w_spawn w' = w_spawn w -> calm w w'.
Proof.
  intros H1 H2 H3. assert (Hc : forall c, conn_of w' c = conn_of w c) by (intros; unfold conn_of; rewrite H1; reflexivity).
  constructor; try (rewrite ?Hc; auto; fail); try (unfold handshakes, pending; rewrite ?H1, ?H2, ?H3; auto; fail).
Qed.
Lemma calm_trans a b d : w_conns b = w_conns a -> w_log b = w_log a -> w_spawn b = w_spawn a -> calm b d -> calm a d.
Proof.
  intros H1 H2 H3 [C1 C2 C3 C4 C5 C6].
  assert (Hc : forall c, conn_of b c = conn_of a c) by (intros; unfold conn_of; rewrite H1; reflexivity).
  rewrite !Hc in *. constructor; auto.
  - rewrite H1 in C1. exact C1.
  - rewrite C2. unfold handshakes. rewrite H2. reflexivity.
  - rewrite C5. unfold pending. rewrite H3. reflexivity.
Qed.
Lemma handshakes_log w e : handshakes c (w <| w_log ::= cons e |>) = match e with LAcked c' => if Nat.eqb c' c then 1 else 0 | _ => 0 end + handshakes c w.
Proof. unfold handshakes. cbn. rewrite app_length. f_equal. destruct e; try reflexivity. destruct (Nat.eqb _ _); reflexivity. Qed.
Lemma calm_log w e : match e with LAcked c' => c' <> c | _ => True end -> calm w (w <| w_log ::= cons e |>).
Proof.
  intros H. constructor; auto.
  rewrite handshakes_log. destruct e; try reflexivity. rewrite (proj2 (Nat.eqb_neq _ _) H). reflexivity.
Qed.
Lemma calm_spawn w x : starts x = false -> calm w (w <| w_spawn ::= fun l => l ++ [x] |>).
Proof.
  intros H. constructor; auto; try reflexivity.
  unfold pending. cbn. rewrite List.filter_app. cbn. rewrite H, app_nil_r. reflexivity.
Qed.
Ltac cc := apply calm_conn; cbn; auto; fail.
Lemma neutral_calm t w o w' r : neutral o = true -> ostep t w o = Goes w' r -> calm w w'.
Proof.
  intros Hb H. destruct o; try discriminate Hb; cbn [ostep] in H;
    repeat match goal with
    | H : match ?x with _ => _ end = Goes _ _ |- _ => destruct x eqn:?; try discriminate H
    end; try discriminate H; injection H as <- <-;
    first [apply calm_refl | (apply calm_same; reflexivity) | cc | (eapply calm_trans; [reflexivity..|]; cc) | idtac].
  all: try (apply calm_conn; match goal with |- context [match ?x with _ => _ end] => destruct x end; cbn; auto; fail).
  all: try (apply calm_spawn; match goal with |- starts ?x = false => destruct x; try discriminate Hb; reflexivity end).
  all: try (apply calm_log; match goal with |- match ?e with _ => _ end => destruct e; try discriminate Hb; exact Logic.I end).
  - eapply (calm_trans _ (w <| w_procs ::= <[w_next w:=proc0]> |> <| w_next ::= S |>)); [reflexivity..|]. cc.
  - eapply (calm_trans _ (upd_srv (fun s => s <| b_msgs := msgs |>) w)); [reflexivity..|]. apply calm_log. exact Logic.I.
Qed.
Lemma env_calm w e : calm w (env_step e w).
Proof.
  destruct e; cbn [env_step]; repeat match goal with |- context [match ?x with _ => _ end] => destruct x eqn:? end;
    first [apply calm_refl | (apply calm_same; reflexivity) | cc].
Qed.
Lemma neutral_rule l o P r : neutral o = true -> srule l o P -> P r l.
Proof. intros Hn. destruct o; try discriminate; cbn; auto; match goal with x : tcode |- _ => destruct x | x : event |- _ => destruct x | x : bool |- _ => destruct x end; try discriminate; cbn; auto. Qed.
(** A new label for a goroutine. *)
Lemma inv_label w (Ls : gmap tid lab) (t : tid) l l' : Inv w Ls -> Ls !! t = Some l -> holder l'.2 = holder l.2 -> fits w l'.2 -> (l'.1 = true -> closed w = true) -> Inv w (<[t := l']> Ls).
Proof.
  intros [I1 I2 I3 I4 I5 I6 I7 I8] Ht Hh Hf Hc. constructor; auto.
  - intros t1 l1 H. apply lookup_insert_Some in H as [[<- <-]|[_ H]]; eauto.
  - intros t1 t2 l1 l2 H1 H2. apply lookup_insert_Some in H1 as [[<- <-]|[_ H1]], H2 as [[<- <-]|[_ H2]]; rewrite ?Hh; eauto.
  - destruct I3 as [I3|(I3 & A1 & A2 & A3)]; [auto|right]. split; [exact I3|]. split; [exact A1|]. split; [exact A2|]. intros t1 l1 H.
    apply lookup_insert_Some in H as [[<- <-]|[_ H]]; [|eauto]. rewrite (A3 _ _ Ht) in Hh. destruct (l'.2); [reflexivity|discriminate..].
  - intros t1 l1 H. apply lookup_insert_Some in H as [[<- <-]|[_ H]]; [rewrite Hh|]; eauto.
  - intros t1 l1 H. apply lookup_insert_Some in H as [[<- <-]|[_ H]]; eauto.
Qed.
(** A step of the reader. *)
Lemma inv_lead w w' (Ls : gmap tid lab) (t : tid) b s s' : Inv w Ls -> Ls !! t = Some (b, Rd s) ->
  (is_Some (w_conns w !! c) -> is_Some (w_conns w' !! c)) -> pending w' = pending w -> closed w' = closed w -> ((closed w' = false -> 0 < handshakes c w -> c_id (conn_of w' c) = c_id (conn_of w c)) /\ handshakes c w <= handshakes c w') -> (closed w' = false -> once w') -> fits w' (Rd s') -> Inv w' (<[t := (b, Rd s')]> Ls).
Proof.
  intros [I1 I2 I3 I4 I5 I6 I7 I8] Ht L1 L2 L3 [L5 L6] L4 Hg.
  assert (Hoth : forall (t1 : tid) l1, Ls !! t1 = Some l1 -> t1 <> t -> l1.2 = Oth).
  { intros t1 [b1 p1] H1 Hne. destruct p1; [reflexivity|exfalso; apply Hne; eapply I2; eauto..]. }
  assert (Hs : is_Some (w_conns w' !! c)) by (apply L1; eapply I4; eauto).
  constructor; auto; rewrite ?L3.
  - intros t1 l1 H. apply lookup_insert_Some in H as [[<- <-]|[Hne H]]; [|eauto]. cbn. intros ->. eapply I1; [exact Ht|reflexivity].
  - intros t1 t2 l1 l2 H1 H2 Hh1 Hh2.
    apply lookup_insert_Some in H1 as [[<- <-]|[Hne1 H1]], H2 as [[<- <-]|[Hne2 H2]]; auto;
      [rewrite (Hoth _ _ H2 ltac:(congruence)) in Hh2; discriminate|rewrite (Hoth _ _ H1 ltac:(congruence)) in Hh1; discriminate..].
  - rewrite L2. destruct I3 as [I3|(I3 & A1 & A2 & A3)]; [auto|]. specialize (A3 _ _ Ht). discriminate.
  - intros Hn. rewrite Hn in Hs. destruct Hs; discriminate.
  - intros t1 l1 H. apply lookup_insert_Some in H as [[<- <-]|[Hne H]]; [exact Hg|]. rewrite (Hoth t1 l1) by congruence. exact Logic.I.
  - destruct id0; [|exact Logic.I]. intros Hc. destruct (I8 Hc) as [H1 H2]. split; [lia|]. rewrite L5; [assumption|congruence|exact H1].
Qed.
Lemma inv_new w (Ls : gmap tid lab) (t : tid) : Ls !! t = None -> Inv w Ls -> Inv w (<[t := (false, Oth)]> Ls).
Proof.
  intros Ht [I1 I2 I3 I4 I5 I6 I7 I8]. constructor; auto.
  - intros t1 l1 H. apply lookup_insert_Some in H as [[<- <-]|[_ H]]; [discriminate|eauto].
  - intros t1 t2 l1 l2 H1 H2 Hh1 Hh2. apply lookup_insert_Some in H1 as [[<- <-]|[_ H1]], H2 as [[<- <-]|[_ H2]]; try discriminate; eauto.
  - destruct I3 as [I3|(I3 & A1 & A2 & A3)]; [auto|right]. repeat (split; [assumption|]). intros t1 l1 H. apply lookup_insert_Some in H as [[<- <-]|[_ H]]; eauto.
  - intros t1 l1 H Hh. apply lookup_insert_Some in H as [[<- <-]|[_ H]]; [discriminate|eauto].
  - intros t1 l1 H. apply lookup_insert_Some in H as [[<- <-]|[_ H]]; [exact Logic.I|eauto].
Qed.
Lemma shake_op t w Ls l o (P : res o -> lab -> Prop) : Inv w Ls -> Ls !! t = Some l -> srule l o P ->
  match ostep t w o with
  | Goes w' r => exists l', Inv w' (<[t := l']> Ls) /\ P r l'
  | _ => True
  end.
Proof.
  intros HI Ht HP. destruct (ostep t w o) as [w' r| |why] eqn:E; auto.
  destruct (neutral o) eqn:En.
  { exists l. rewrite insert_id by exact Ht. split; [eapply inv_calm; [exact HI|eapply neutral_calm; eassumption]|eapply neutral_rule; eassumption]. }
  assert (Hfit : fits w l.2) by (eapply (iv_fit _ _ HI); eassumption).
  assert (Hcl : l.1 = true -> closed w = true) by (eapply (iv_cl _ _ HI); eassumption).
  assert (Hsame : forall w1, calm w w1 -> Inv w1 (<[t := l]> Ls)) by (intros w1 C; rewrite insert_id by exact Ht; eapply inv_calm; eassumption).
  destruct l as [b p]. cbn [fst snd] in *.
  destruct o; try discriminate En; cbn [ostep] in E; cbn [srule fst snd] in HP.
  - (* OIsAcked *) injection E as <- <-. destruct HP as [HP|(-> & (s & -> & Hs) & HP)]; [exists (b, p); split; [apply Hsame, calm_refl|apply HP]|].
    eexists. split; [|apply HP]. destruct (c_acked (conn_of w c)) eqn:Ea; [apply Hsame, calm_refl|].
    eapply inv_label; [exact HI|exact Ht|reflexivity| |exact Hcl]. cbn. intros Hc. destruct s; cbn in Hfit; [|auto|congruence].
    destruct (hs w) eqn:Eh; [|reflexivity]. unfold ackd in Hfit. rewrite Ea in Hfit. discriminate (Hfit Hc Eh).
  - (* OSetAcked *) destruct b0; injection E as <- <-.
    + destruct (Nat.eqb_spec c0 c) as [->|Hne].
      * destruct HP as [-> HP]. eexists. split; [|exact HP].
        eapply inv_lead; [exact HI|exact Ht|apply some_upd|reflexivity| | | |]; rewrite ?conn_of_upd, ?decide_True by reflexivity; [reflexivity|split; [intros _ _; reflexivity|apply le_n]|exact (iv_once _ _ HI)|].
        intros _ _. rewrite conn_of_upd, decide_True by reflexivity. reflexivity.
      * exists (b, p). split; [|exact HP]. apply Hsame, calm_conn; congruence.
    + destruct HP as [Hc HP]. exists (b, p). split; [|exact HP]. apply Hsame, calm_conn; cbn; [auto| |auto]. intros -> H. rewrite (Hcl (Hc eq_refl)) in H. discriminate.
  - (* OCasClosed *) destruct (c_closed (conn_of w c0)) eqn:Ec; injection E as <- <-; eexists; (split; [|apply HP]); [apply Hsame, calm_refl|].
    assert (Hcm : calm w (upd_conn c0 (fun k => k <| c_closed := true |>) w)) by (apply calm_conn; [congruence|discriminate|reflexivity]).
    destruct (Nat.eqb_spec c0 c) as [->|Hne]; [|apply Hsame, Hcm]. cbn [andb]. eapply inv_label; [eapply inv_calm; [exact HI|exact Hcm]|exact Ht|reflexivity|eapply fits_calm; eassumption|].
    intros _. rewrite conn_of_upd, decide_True by reflexivity. reflexivity.
  - (* OSetId *) injection E as <- <-. destruct HP as [HR HP]. exists (b, p). split; [|exact HP].
    destruct (decide (c0 = c)) as [->|Hne]; [|apply Hsame, calm_conn; congruence]. rewrite (HR eq_refl) in *.
    eapply inv_lead; [exact HI|exact Ht|apply some_upd|reflexivity| | | |]; rewrite ?conn_of_upd, ?decide_True by reflexivity; [reflexivity| |exact (iv_once _ _ HI)|].
    + split; [|apply le_n]. intros Hc Hs. cbn in Hc. specialize (Hfit Hc). unfold hs in Hfit. apply orb_false_iff in Hfit as [_ H2]. destruct (handshakes c w); [lia|discriminate].
    + intros Hc. rewrite conn_of_upd, decide_True in Hc by reflexivity. exact (Hfit Hc).
  - (* ONewConn *) destruct (w_conns w !! c0) eqn:Ec; [discriminate E|].
    assert (Hk : exists k, w_conns w' = <[c0 := k]> (w_conns w) /\ c_closed k = false /\ c_acked k = native_only) by (destruct native_only; injection E as <- <-; eexists; (split; [reflexivity|]); split; reflexivity).
    assert (Hl : w_log w' = w_log w /\ w_spawn w' = w_spawn w) by (destruct native_only; injection E as <- <-; split; reflexivity).
    assert (Hr : r = tt) by (destruct r; reflexivity). rewrite Hr. clear r E Hr.
    destruct Hk as (k & Hcs & K1 & K2), Hl as [Hl1 Hl2].
    assert (Hh : handshakes c w' = handshakes c w) by (unfold handshakes; rewrite Hl1; reflexivity).
    assert (Hp : pending w' = pending w) by (unfold pending; rewrite Hl2; reflexivity).
    destruct (Nat.eqb_spec c0 c) as [->|Hne].
    + destruct HP as (-> & -> & HP). exists (b, Mk). split; [|exact HP].
      pose proof HI as [I1 I2 I3 I4 I5 I6 I7 I8]. specialize (I5 Ec).
      assert (Hoth : forall (t1 : tid) l1, Ls !! t1 = Some l1 -> l1.2 = Oth).
      { intros t1 [b1 p1] H1. destruct p1; [reflexivity|destruct (I4 _ _ H1 eq_refl); congruence..]. }
      assert (Hcn : conn_of w' c = k) by (unfold conn_of; rewrite Hcs, lookup_insert; reflexivity).
      assert (Hold : closed w = false) by (unfold conn_of; rewrite Ec; reflexivity).
      assert (Hs : is_Some (w_conns w' !! c)) by (rewrite Hcs, lookup_insert; eauto).
      constructor; auto.
      * intros t1 l1 H H1. exfalso. apply lookup_insert_Some in H as [[<- <-]|[_ H]]; [rewrite (Hcl H1) in Hold|rewrite (I1 _ _ H H1) in Hold]; discriminate.
      * intros t1 t2 l1 l2 H1 H2 Hh1 Hh2.
        apply lookup_insert_Some in H1 as [[<- <-]|[Hne1 H1]], H2 as [[<- <-]|[Hne2 H2]]; auto;
          [rewrite (Hoth _ _ H2) in Hh2; discriminate|rewrite (Hoth _ _ H1) in Hh1; discriminate..].
      * left. rewrite Hp. destruct I3 as [I3|(_ & _ & [x Hx] & _)]; [exact I3|congruence].
      * rewrite Hh. auto.
      * intros t1 l1 H. apply lookup_insert_Some in H as [[<- <-]|[_ H]]; [|rewrite (Hoth _ _ H); exact Logic.I]. cbn. unfold ackd, hs. rewrite Hh, I5, orb_false_r, Hcn, K2. auto.
      * intros _. unfold shook_hands_once. rewrite Hh, I5. lia.
      * destruct id0; [|exact Logic.I]. destruct (I8 Hold). lia.
    + exists (b, p). split; [|exact HP]. apply Hsame. assert (Hcn : conn_of w' c = conn_of w c) by (unfold conn_of; rewrite Hcs, lookup_insert_ne by congruence; reflexivity).
      constructor; rewrite ?Hcn; auto. rewrite Hcs, lookup_insert_ne by congruence. auto.
  - (* OSpawn *) injection E as <- <-. destruct code; try discriminate En; cbn in HP.
    + destruct (Nat.eqb_spec c0 c) as [->|Hne].
      * destruct HP as [-> HP]. exists (b, Oth). split; [|exact HP]. pose proof HI as [I1 I2 I3 I4 I5 I6 I7 I8].
        assert (Hoth : forall (t1 : tid) l1, Ls !! t1 = Some l1 -> t1 <> t -> l1.2 = Oth).
        { intros t1 [b1 p1] H1 Hn. destruct p1; [reflexivity|exfalso; apply Hn; eapply I2; eauto..]. }
        constructor; auto.
        -- intros t1 l1 H. apply lookup_insert_Some in H as [[<- <-]|[Hn H]]; [exact Hcl|eapply I1, H].
        -- intros t1 t2 l1 l2 H1 H2 Hh1 Hh2. apply lookup_insert_Some in H1 as [[<- <-]|[Hne1 H1]]; [discriminate|]. rewrite (Hoth _ _ H1 ltac:(congruence)) in Hh1. discriminate.
        -- right. destruct I3 as [I3|(I3 & _ & _ & A3)]; [|specialize (A3 _ _ Ht); discriminate]. split; [|split; [exact Hfit|]].
           ++ unfold pending in *. cbn. rewrite List.filter_app, I3. cbn. rewrite Nat.eqb_refl. reflexivity.
           ++ split; [eapply (I4 t); [exact Ht|reflexivity]|]. intros t1 l1 H. apply lookup_insert_Some in H as [[<- <-]|[Hn H]]; [reflexivity|]. apply (Hoth _ _ H). congruence.
        -- intros t1 l1 H Hh. apply lookup_insert_Some in H as [[<- <-]|[Hn H]]; [discriminate|]. eapply I4; eauto.
        -- intros t1 l1 H. apply lookup_insert_Some in H as [[<- <-]|[Hn H]]; [exact Logic.I|]. rewrite (Hoth _ _ H ltac:(congruence)). exact Logic.I.
      * exists (b, p). split; [|exact HP]. apply Hsame, calm_spawn. cbn. apply Nat.eqb_neq, Hne.
    + destruct HP as [Hne HP]. exists (b, p). split; [|exact HP]. apply Hsame, calm_spawn. cbn. apply Nat.eqb_neq, Hne.
  - (* OLog *) injection E as <- <-. destruct e; try discriminate En; cbn in HP.
    destruct (Nat.eqb_spec c0 c) as [->|Hne].
    + destruct HP as [-> HP]. eexists. split; [|exact HP]. eapply inv_lead; [exact HI|exact Ht|auto|reflexivity|reflexivity|split; [intros _ _; reflexivity|rewrite handshakes_log; lia]| |exact Logic.I].
      intros Hc. specialize (Hfit Hc). unfold hs in Hfit. apply orb_false_iff in Hfit as [H1 H2]. unfold shook_hands_once. rewrite H1, handshakes_log, Nat.eqb_refl.
      destruct (handshakes c w); [lia|discriminate].
    + exists (b, p). split; [|exact HP]. apply Hsame, calm_log, Hne.
Qed.
Lemma shake_code x l : sstart x l -> ok (S := SS) l (code G x) after.
Proof.
  intros Hs. assert (Hd : x = TReaderLoop c \/ x <> TReaderLoop c) by (destruct x as [| |c'| | | | | | |]; try (right; discriminate); destruct (decide (c' = c)); [left|right]; congruence).
  destruct Hd as [->|Hne].
  - cbn in Hs. rewrite Nat.eqb_refl in Hs. cbn [code]. eapply (ok_seq SS smono); [apply reader_idle, Hs|]. intros r l' Hl. destruct r.
    + cbn. rewrite Nat.eqb_refl. exact Hl.
    + apply s_seq; [apply (Close_kp srules s_gates)|]. intros r l'' [E _]. cbn. destruct Hl as (s & H1 & H2). rewrite E, H1. congruence.
  - destruct (match x with TReaderLoop _ => true | _ => false end) eqn:Ex.
    + destruct x as [| |c'| | | | | | |]; try discriminate Ex. cbn in Hs. assert (Hc : c' <> c) by congruence. rewrite (proj2 (Nat.eqb_neq _ _) Hc) in Hs. cbn [code].
      eapply (ok_seq SS smono).
      { apply (reader_step_kpp srules s_gates); auto using s_ask, s_reply, s_message, s_ack. }
      intros r l' [E _]. destruct r; [cbn; rewrite (proj2 (Nat.eqb_neq _ _) Hc); congruence|].
      apply s_seq; [apply (Close_kp srules s_gates)|]. intros r l'' [E' _]. cbn. congruence.
    + apply (code_other_kp srules s_gates); auto using s_ask, s_reply, s_message, s_ack, s_waitm, s_broadcast, s_srvask, s_server, s_upgrade, s_dial; try (intros; exact Logic.I).
      * cbn. auto.
      * intros c' ch l0 _. apply s_next.
      * cbn. intros t0 l0 l' H _ [E _]. destruct t0; cbn in H; try congruence; destruct (Nat.eqb c0 c); try congruence; destruct H as (s & H1 & H2); congruence.
      * cbn. intros c' l0 l' H [E _]. destruct (Nat.eqb c' c); [|congruence]. destruct H as (s & H1 & H2). exists s. split; [congruence|exact H2].
      * intros c' ->. discriminate.
Qed.
Lemma shake_respects : respects SS G Inv.
Proof.
  constructor.
  - intros t w Ls l o P HI Ht HP. pose proof (shake_op t w Ls l o P HI Ht HP) as H. destruct (ostep t w o); auto.
  - intros t w Ls l a HI Ht _ Ha. exists l. rewrite insert_id by exact Ht. split; [exact HI|].
    apply (impl_kp srules s_gates); auto using s_ask, s_reply, s_message, s_ack, s_waitm, s_broadcast, s_srvask; try (intros; exact Logic.I).
    destruct a; cbn; auto; destruct n; auto.
  - apply shake_code.
  - intros t w Ls l [I1 I2 I3 I4 I5 I6 I7 I8] Ht _. constructor; auto.
    + intros t' l' H. apply lookup_delete_Some in H as [_ H]. eauto.
    + intros t1 t2 l1 l2 H1 H2. apply lookup_delete_Some in H1 as [_ H1], H2 as [_ H2]. eauto.
    + destruct I3 as [I3|(I3 & A1 & A2 & A3)]; [auto|right]. repeat (split; [assumption|]). intros t' l' H. apply lookup_delete_Some in H as [_ H]. eauto.
    + intros t' l' H. apply lookup_delete_Some in H as [_ H]. eauto.
    + intros t' l' H. apply lookup_delete_Some in H as [_ H]. eauto.
  - intros t w Ls x rest HI Hsp Ht. destruct (starts x) eqn:Ex.
    + pose proof HI as [I1 I2 I3 I4 I5 I6 I7 I8]. assert (Hp : pending w = x :: List.filter starts rest) by (unfold pending; rewrite Hsp; cbn; rewrite Ex; reflexivity).
      destruct I3 as [I3|(I3 & A1 & A2 & A3)]; [congruence|]. rewrite Hp in I3. injection I3 as -> Hr.
      exists (false, Rd Idk). split; [cbn; rewrite Nat.eqb_refl; exists Idk; split; [reflexivity|discriminate]|].
      constructor; auto.
      * intros t1 l1 H. apply lookup_insert_Some in H as [[<- <-]|[_ H]]; [discriminate|]. eapply I1, H.
      * intros t1 t2 l1 l2 H1 H2 Hh1 Hh2. apply lookup_insert_Some in H1 as [[<- <-]|[Hne1 H1]], H2 as [[<- <-]|[Hne2 H2]]; auto;
          [rewrite (A3 _ _ H2) in Hh2; discriminate|rewrite (A3 _ _ H1) in Hh1; discriminate..].
      * intros t1 l1 H. apply lookup_insert_Some in H as [[<- <-]|[_ H]]; [exact A1|]. rewrite (A3 _ _ H). exact Logic.I.
    + exists (false, Oth). split; [destruct x; cbn in *; try reflexivity; rewrite Ex; reflexivity|].
      apply inv_new; [exact Ht|]. eapply inv_calm; [exact HI|]. constructor; auto; try reflexivity.
      unfold pending. rewrite Hsp. cbn. rewrite Ex. reflexivity.
  - intros t w Ls x HI Hs Ht. exists (false, Oth). split; [destruct x; try discriminate Hs; reflexivity|]. apply inv_new; assumption.
  - intros w Ls e HI _. eapply inv_calm; [exact HI|apply env_calm].
Qed.
End shake.

Lemma shake_start G c : exists l, ls_start (SS G c) TServer l /\ Inv G c None world0 {[0 := l]}.
Proof.
  exists (false, Oth). split; [reflexivity|]. constructor.
  - intros t l H. apply lookup_singleton_Some in H as [_ <-]. discriminate.
  - intros t t' l l' H _ Hh. apply lookup_singleton_Some in H as [_ <-]. discriminate.
  - left. reflexivity.
  - intros t l H Hh. apply lookup_singleton_Some in H as [_ <-]. discriminate.
  - reflexivity.
  - intros t l H. apply lookup_singleton_Some in H as [_ <-]. exact Logic.I.
  - intros _. unfold shook_hands_once. cbn. lia.
  - exact Logic.I.
Qed.
Lemma shake_main G c (A : user_app (fun _ => True) G) s : reachable G s -> c_closed (conn_of (s_w s) c) = false -> shook_hands_once G c (s_w s).
Proof.
  intros Hr. destruct (reachable_holds (SS G c) (smono G c) G _ (shake_respects G c None A) s (shake_start G c) Hr) as (_ & Ls & HI & _). apply (iv_once _ _ _ _ _ HI).
Qed.
(** After the handshake the ID stays as it is while the connection is open. *)
Lemma id_stays G c (A : user_app (fun _ => True) G) s s' : reachable G s -> 0 < handshakes c (s_w s) -> steps G s s' ->
  c_closed (conn_of (s_w s') c) = false -> c_id (conn_of (s_w s') c) = c_id (conn_of (s_w s) c).
Proof.
  intros Hr Hh Hst Ho. set (i := c_id (conn_of (s_w s) c)).
  destruct (reachable_holds (SS G c) (smono G c) G _ (shake_respects G c None A) s (shake_start G c) Hr) as (Hc & Ls & HI & Hrest).
  assert (HH : holds (SS G c) (Inv G c (Some i)) s).
  { split; [exact Hc|]. exists Ls. split; [|exact Hrest]. destruct HI. constructor; auto. }
  destruct (steps_holds (SS G c) (smono G c) G _ (shake_respects G c (Some i) A) s s' HH Hst) as (_ & Ls' & HI' & _).
  apply (iv_id _ _ _ _ _ HI'), Ho.
Qed.
