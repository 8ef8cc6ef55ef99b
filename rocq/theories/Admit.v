(** * Admit.v : nobody is in a namespace or room without the consent of its
    callback (C57), in every interleaving. *)
From Coq Require Import ZArith.
From stdpp Require Import gmap strings list relations.
From RecordUpdate Require Import RecordUpdate.
From Verif Require Import Go Errors Message World Lang Code Sem ExecProofs Logic Spec_App Spec_Admit FrameW.

#[local] Arguments Write : simpl never.
#[local] Arguments write : simpl never.
#[local] Arguments Close : simpl never.
#[local] Arguments wait : simpl never.
#[local] Arguments unwait : simpl never.
#[local] Arguments handleQueue : simpl never.
#[local] Arguments Broadcast : simpl never.
#[local] Arguments handle_event : simpl never.
#[local] Arguments handle_reply_or_event : simpl never.
#[local] Arguments send : simpl never.

Section admit.
Context (G : cfg).
(** A goroutine knows some NSConns, which callbacks were started and which NSConns were found connected. *)
Definition lab : Type := list nsref * (list event * list nsref).
Definition sub (l l' : lab) : Prop := l.1 ⊆ l'.1 /\ l.2.1 ⊆ l'.2.1 /\ l.2.2 ⊆ l'.2.2.
(** The callback for [m] in [n], if there is one, was started, as [l] knows, and may agree. *)
Definition said (n : nsref) (m : message) (l : lab) : Prop :=
  match chosen G n (m_event m) with Some (key, h) => LFire n key m ∈ l.2.1 /\ agrees (h n m) | None => True end.
(** ... so [n] was let into [room]. *)
Definition inroom (l : lab) (n : nsref) (room : string) : Prop := exists m, m_event m = OnRoomJoin /\ m_namespace m = n_name n /\ m_room m = room /\ said n m l.
Definition sendable (c : cid) (b : string) (l : lab) : Prop := frame_ok (fun n => n ∈ l.2.2 /\ n_conn n = c) (fun n s => n_name n = s) (inroom l) b.
Definition krule (l : lab) (o : op) : (res o -> lab -> Prop) -> Prop :=
  match o as o return (res o -> lab -> Prop) -> Prop with
  | OGetNs c s => fun P => forall r, (forall n, r = Some n -> n_conn n = c /\ n_name n = s) -> P r (match r with Some n => (n :: l.1, (l.2.1, n :: l.2.2)) | None => l end)
  | ONsRange c => fun P => forall r, P r (map snd r ++ l.1, (l.2.1, map snd r ++ l.2.2))
  | ONewNs c s => fun P => forall n, n_conn n = c -> n_name n = s -> P n (n :: l.1, l.2)
  | OSetNs c s n => fun P => n ∈ l.1 /\ n_conn n = c /\ n_name n = s /\ is_Some (g_namespaces G c !! s) /\
      (exists m, m_event m = OnNamespaceConnect /\ m_namespace m = s /\ said n m l) /\ P tt l
  | OAddRoom n r => fun P => n ∈ l.1 /\ (exists m, m_event m = OnRoomJoin /\ m_namespace m = n_name n /\ m_room m = r /\ said n m l) /\ P tt l
  | ORoomLock n | ORoomUnlock n | ORoomRLock n | ORoomRUnlock n => fun P => n ∈ l.1 /\ P tt l
  | ODelRoom n _ => fun P => n ∈ l.1 /\ P tt l
  | OHasRoom n s => fun P => n ∈ l.1 /\ forall r evs, (r = true -> inroom (l.1, (evs ++ l.2.1, l.2.2)) n s) -> P r (l.1, (evs ++ l.2.1, l.2.2))
  | OSockWrite c _ b => fun P => sendable c b l /\ forall r, P r l
  | ORoomRange n => fun P => n ∈ l.1 /\ forall r, P r l
  | OLog (LFire n e m) => fun P => (inside m -> n ∈ l.2.2) /\ P tt (l.1, (LFire n e m :: l.2.1, l.2.2))
  | ONewConn c id native => fun P => native = onlyNative G c /\ P tt l
  | _ => fun P => forall r, P r l
  end.
Definition KS : lspec := {|
  ls_L := lab; ls_rule := krule; ls_cpre := fun _ a => True; ls_cpost := fun l a r l' => sub l l';
  ls_crash := fun _ => True; ls_start := fun _ _ => True; ls_fin := fun _ => True |}.
Lemma kmono : rule_mono KS.
Proof.
  intros l o P P' H. destruct o; try match goal with x : event |- _ => destruct x end; cbn in *; intros HP;
    repeat match goal with H : _ /\ _ |- _ => destruct H end; eauto 12.
Qed.
Lemma sub_refl l : sub l l.
Proof. repeat split; reflexivity. Qed.
Lemma sub_trans a b c : sub a b -> sub b c -> sub a c.
Proof. intros (? & ? & ?) (? & ? & ?). repeat split; etrans; eassumption. Qed.
Lemma sub_ns (l : lab) ns : sub l (ns ++ l.1, l.2).
Proof. split; cbn; [|split; reflexivity]. intros x Hx. apply elem_of_app. right. exact Hx. Qed.
Lemma sub_range (l : lab) ns : sub l (ns ++ l.1, (l.2.1, ns ++ l.2.2)).
Proof. repeat split; cbn; [|reflexivity|]; intros x Hx; apply elem_of_app; right; exact Hx. Qed.
Lemma sub_cons (l : lab) n : sub l (n :: l.1, l.2).
Proof. apply (sub_ns l [n]). Qed.
Lemma sub_fire (l : lab) e : sub l (l.1, (e :: l.2.1, l.2.2)).
Proof. split; cbn; [reflexivity|]. split; [|reflexivity]. intros x Hx. constructor. exact Hx. Qed.
Lemma sub_fires (l : lab) es : sub l (l.1, (es ++ l.2.1, l.2.2)).
Proof. split; cbn; [reflexivity|]. split; [|reflexivity]. intros x Hx. apply elem_of_app. right. exact Hx. Qed.
Lemma sub_found (l : lab) n : sub l (n :: l.1, (l.2.1, n :: l.2.2)).
Proof. repeat split; cbn; [intros x Hx; constructor; exact Hx|reflexivity|intros x Hx; constructor; exact Hx]. Qed.

Context (A : user_app (fun _ => True) G).
Notation any := (fun _ _ => True).
Notation vn := (fun (l : lab) n => n ∈ l.1).
Notation own := (fun n c => n_conn n = c).
Notation fd := (fun (l : lab) n e m => LFire n e m ∈ l.2.1).
Notation jd := (fun (l : lab) n => n ∈ l.2.2).
Lemma krules : @rules G KS (fun _ => True) sub vn any any any any own any any any (fun n s => n_name n = s) fd jd inroom.
Proof.
  constructor; cbn; unfold stable; auto using kmono, sub_refl; try (intros; eauto using sub_refl, sub_trans; fail).
  - intros n l l' [H _] Hn. apply H, Hn.
  - intros n e m l l' (_ & H & _) Hn. apply H, Hn.
  - intros n l l' (_ & _ & H) Hn. apply H, Hn.
  - intros n s l l' (_ & H & _) (m & H1 & H2 & H3 & H4). exists m. repeat (split; [assumption|]). revert H4. unfold said. destruct (chosen G n (m_event m)) as [[key h]|]; [|auto]. intros [H4 H5]. auto.
  - intros o l P Hp H.
    destruct o; cbn in *; try discriminate; eauto using sub_refl; try match goal with x : tcode |- _ => destruct x | x : event |- _ => destruct x end; try discriminate; cbn; eauto using sub_refl.
  - intros c s l P H r Hr. destruct r as [n|]; apply H; auto using sub_refl, sub_found. destruct (Hr n eq_refl). cbn. repeat split; [constructor|assumption|assumption|constructor].
  - intros c l P H r. apply H; [apply sub_range| |]; intros e He; cbn; apply elem_of_app; left; apply elem_of_list_fmap; eauto.
  - intros c s l P _ H n H1 H2. apply H; [apply sub_cons|]. cbn. repeat split; [constructor|assumption|assumption].
  - intros o n l P Ho Hn H. destruct o; try discriminate Ho; injection Ho as <-; cbn; (split; [exact Hn|]); intros; apply H; first [apply sub_refl|apply sub_fires].
  - intros n s l P Hn H. split; [exact Hn|]. intros r evs Hr. apply H; [apply sub_fires|exact Hr].
  - intros n r l P Hn (m & H1 & H2 & H3 & H4) H. split; [exact Hn|]. split; [|apply H, sub_refl]. exists m. auto.
  - intros c s n l P Hn Hc Hs Hg (m & H1 & H2 & H3) H. repeat (split; [assumption|]). split; [|apply H, sub_refl]. exists m. auto.
  - intros n e m l P _ _ Hj _ H. split; [exact Hj|]. apply H; [apply sub_fire|]. constructor.
Qed.
Notation kp := (@kp KS sub _).
Definition neutral (o : op) : bool :=
  match o with
  | OGetNs _ _ | ONsRange _ | ONewNs _ _ | OSetNs _ _ _ | OAddRoom _ _ | ORoomLock _ | ORoomUnlock _ | ORoomRLock _ | ORoomRUnlock _
  | ODelRoom _ _ | OHasRoom _ _ | ORoomRange _ | OSockWrite _ _ _ | OLog (LFire _ _ _) | ONewConn _ _ _ => false
  | _ => true
  end.
Lemma k_free o : neutral o = true -> kp (opr o).
Proof. intros H l. cbn. unfold neutral in H. destruct o; try discriminate; cbn; intros; try apply sub_refl;
  match goal with x : event |- _ => destruct x end; try discriminate; cbn; intros; apply sub_refl. Qed.
Ltac kf := repeat first
  [ apply (kp_ret krules) | apply (kp_crash krules) | match goal with |- @FrameW.kp _ _ _ (opr ?o) => exact (k_free o eq_refl) end | assumption
  | match goal with H : forall _, _ |- _ => apply H; fail end
  | apply (kp_for_all krules); intros | apply (kp_bind krules); [|intros]
  | match goal with |- @FrameW.kp _ _ _ ?p => match p with context [match ?x with _ => _ end] => destruct x eqn:? end end ].
Lemma k_gates : @gates G KS sub (fun _ _ => True) (fun _ => True).
Proof.
  constructor; intros.
  - unfold wait. kf.
  - unfold unwait. kf.
  - unfold proc_get. kf.
  - apply (kpp_kp krules). unfold proc_Done. kf.
  - unfold proc_Wait. kf.
  - apply (kq_any krules); [auto|]. unfold proc_Start. kf.
Qed.
Lemma k_ask c x m nx : kp (ask G c x m nx).
Proof. pose proof (Write_kp krules k_gates) as HW. unfold ask. kf. Qed.
Lemma k_send ch m : kp (send ch m).
Proof. unfold send. kf. Qed.
Notation kpp P := (@kpp KS sub _ P).
Lemma k_reply c m : kpp (fun _ => True) (handle_event G c m) -> kpp (fun _ => True) (handle_reply_or_event G c m).
Proof.
  intros H. unfold handle_reply_or_event. apply (kpp_bind krules); [intros ? ? ? ?; exact Logic.I|apply (kpp_kp krules), k_free; reflexivity|].
  intros [ch|]; [|exact H]. apply (kpp_kp krules). pose proof k_send as HS. kf.
Qed.
Lemma k_message c m : kpp (fun _ => True) (handle_event G c m) -> kpp (fun _ => True) (handle_reply_or_event G c m) ->
  (forall n m', n_conn n = c -> kpp (fun l => n ∈ l.1 /\ n ∈ l.2.2 /\ True) (fireEvent G n m')) -> kpp (fun _ => True) (handleMessage G c m).
Proof.
  intros He Hr Hf. unfold handleMessage. destruct (m_isInvalid m); [apply (kpp_ret krules)|].
  assert (Hst : @stable KS sub (fun _ => True)) by (intros l l' _ _; exact Logic.I).
  assert (Hs : kpp (fun _ => True) (bind (opr (OSWaitGet (m_wait m))) (fun w => match w with Some ch => bind (send ch m) (fun _ => Ret None) | None => handle_reply_or_event G c m end))).
  { apply (kpp_bind krules); [exact Hst|apply (kpp_kp krules), k_free; reflexivity|]. intros [ch|]; [|exact Hr]. apply (kpp_kp krules). pose proof k_send as HS. kf. }
  destruct (m_isNative m && onlyNative G c).
  - eapply (kpp_bindq krules); [exact Hst|apply (Namespace_kq krules k_gates), Hst|]. intros [n|]; cbn beta iota; [|apply (kpp_crash krules)].
    intros l (_ & Hl & Hn & _ & Hj). apply (Hf n m Hn l). auto.
  - destruct (IsWait (IsClient G c) m); [|apply He]. destruct (IsClient G c); [exact Hr|].
    destruct (g_exch G) as [ex|]; [|exact Hs]. destruct (m_fromStackExchange m); [|exact Hs].
    apply (kpp_kp krules). kf.
Qed.
Lemma k_ack c typ b : kpp (fun _ => True) (handleQueue G c) -> (forall s bin, shake s -> kp (write G c s bin)) -> kp (wait c) -> (forall e, kp (unwait c e)) ->
  kpp (fun _ => True) (handleACK G c typ b).
Proof.
  intros H1 H2 H3 H4. assert (H1' : kp (handleQueue G c)) by (intros l; apply H1; exact Logic.I).
  assert (H5 : forall s, kp (write G c (String ackIDBinary s) false)) by (intros s; apply H2; cbn; auto).
  assert (H6 : forall s, kp (write G c (String ackNotOKBinary s) false)) by (intros s; apply H2; cbn; auto).
  clear H2. apply (kpp_kp krules). unfold handleACK. kf.
Qed.
Lemma k_waitm c l : (forall msgs, kp (publishMessages G c msgs)) -> ok (S := KS) l (waitMessages G c) (fun r l' => if r : bool then True else True).
Proof.
  intros H. apply (ok_mono KS kmono l (waitMessages G c) (fun _ l' => sub l l')); [intros [|] ? _; exact Logic.I|]. revert l. change (kp (waitMessages G c)). unfold waitMessages, publish. kf. Qed.
Lemma k_broadcast msgs : kp (broadcast msgs).
Proof. unfold broadcast. kf. Qed.
Lemma k_srvask x m : (forall e msgs, kp (Broadcast G e msgs)) -> kp (ServerAsk G x m).
Proof. intros HB. unfold ServerAsk. kf. Qed.
Lemma k_newconn c : kp (newConn G c).
Proof. intros l. unfold newConn. cbn. split; [reflexivity|apply sub_refl]. Qed.
Lemma k_upgrade c : (forall e, kp (unwait c e)) -> (forall f, g_onconnect G = Some f -> kp (f c)) -> kp (Upgrade G c).
Proof.
  intros H1 H2. pose proof (k_newconn c) as HN. unfold Upgrade. destruct (g_onconnect G) as [f|] eqn:E; [pose proof (H2 f eq_refl)|]; kf.
Qed.
Lemma k_dial c : kp (sendClientACK G c) -> kp (Dial G c).
Proof. intros H. pose proof (k_newconn c) as HN. unfold Dial. kf. Qed.
Lemma k_next c ch : kp (read_next G c ch).
Proof. pose proof k_send as HS. unfold read_next. kf. Qed.
Lemma k_server l : (forall c msgs, kp (publishMessages G c msgs)) ->
  (forall c, exists f, Close G c = bind (opr (OCasClosed c)) f /\ forall r : bool, @FrameW.kpp KS sub _ (fun _ => r = true -> True) (f r)) -> (forall k c, kp (g_do G k c)) ->
  (forall x, kp (exch_call G x)) -> (forall f c, g_ondisconnect G = Some f -> kp (f c)) -> ok (S := KS) l (server_step G) (fun _ l' => True).
Proof.
  intros H1 H2 H2' H3 H4. apply (ok_mono KS kmono l (server_step G) (fun _ l' => sub l l')); [intros; exact Logic.I|]. revert l. change (kp (server_step G)).
  assert (HC : forall c, kp (Close G c)) by (intros c; destruct (H2 c) as (f & -> & Hf); assert (Hf' : forall r, kp (f r)) by (intros r l; apply (Hf r); auto); kf).
  unfold server_step, publish, act_call. apply (kp_bind krules); [kf|]. intros x. apply (kp_bind krules); [kf|]. intros _.
  destruct x; [kf| |kf|kf]. destruct (g_ondisconnect G) as [f|] eqn:E; [|kf]. pose proof (fun c => H4 f c eq_refl) as H5. kf.
Qed.

(** ** The invariant. *)
Definition good (w : world) (n : nsref) : Prop := exists o, w_nss w !! n_id n = Some o /\ o_ref o = n.
Definition native (c : cid) (ns : string) (n : nsref) : Prop := onlyNative G c = true /\ ns = "" /\ n_conn n = c /\ n_name n = ns.
Definition joined (log : list event) (n : nsref) : Prop := admitted G log (n_conn n) (n_name n) n \/ native (n_conn n) (n_name n) n.
(** Events of the application were handled in NSConns that had been let in. *)
Definition timely (log : list event) : Prop := forall l2 n e m l1, log = l2 ++ LFire n e m :: l1 -> inside m -> joined l1 n.
(** What goes out was allowed. *)
Definition sent (log : list event) (c : cid) (b : string) : Prop := frame_ok (fun n => joined log n /\ n_conn n = c) (fun n s => n_name n = s) (let_in G log) b.
Record Inv (w : world) (Ls : gmap tid lab) : Prop := MkI {
  iv_lab : forall (t : tid) l, Ls !! t = Some l -> (forall n, n ∈ l.1 -> good w n) /\ l.2.1 ⊆ w_log w /\ forall n, n ∈ l.2.2 -> joined (w_log w) n;
  iv_conn : forall c ns n, c_nss (conn_of w c) !! ns = Some n -> good w n /\ (admitted G (w_log w) c ns n \/ native c ns n);
  iv_rooms : forall id o, w_nss w !! id = Some o -> id < w_next w /\ n_id (o_ref o) = id /\ forall r, r ∈ o_rooms o -> let_in G (w_log w) (o_ref o) r;
  iv_log : timely (w_log w);
  iv_out : forall c typ b, (typ, b) ∈ c_out (conn_of w c) -> sent (w_log w) c b }.
Lemma permitted_log log log' n m : log ⊆ log' -> permitted G log n m -> permitted G log' n m.
Proof. intros Hl. unfold permitted. destruct (chosen G n (m_event m)) as [[key h]|]; [|auto]. intros [H1 H2]. auto. Qed.
Lemma admitted_log log log' c ns n : log ⊆ log' -> admitted G log c ns n -> admitted G log' c ns n.
Proof. intros Hl (H1 & H2 & H3 & m & H4 & H5 & H6). repeat (split; [assumption|]). exists m. eauto using permitted_log. Qed.
Lemma joined_log log log' n : log ⊆ log' -> joined log n -> joined log' n.
Proof. intros Hl [H|H]; [left; eapply admitted_log; eassumption|right; exact H]. Qed.
Definition later (log log' : list event) : Prop := log ⊆ log' /\ (timely log -> timely log').
#[local] Instance later_refl : Reflexive later.
Proof. intros log. split; [reflexivity|auto]. Qed.
#[local] Instance later_trans : Transitive later.
Proof. intros a b c [H1 H2] [H3 H4]. split; [etrans; eassumption|auto]. Qed.
Lemma timely_cons e log : (forall n k m, e = LFire n k m -> inside m -> joined log n) -> timely log -> timely (e :: log).
Proof.
  intros H1 H2 l2 n k m l1 E Hm. destruct l2 as [|e' l2]; injection E as -> E; [subst; eapply H1; eauto|]. subst. eapply H2; [reflexivity|exact Hm].
Qed.
Lemma later_cons e log : match e with LFire _ _ _ => False | _ => True end -> later log (e :: log).
Proof.
  intros He. split; [intros y Hy; constructor; exact Hy|]. apply timely_cons. intros n k m ->. destruct He.
Qed.
Lemma let_in_log log log' n r : log ⊆ log' -> let_in G log n r -> let_in G log' n r.
Proof. intros Hl (m & H4 & H5 & H6 & H7). exists m. eauto using permitted_log. Qed.

Lemma sent_log log log' c b : log ⊆ log' -> sent log c b -> sent log' c b.
Proof. intros Hl. apply frame_ok_mono; [intros n [H1 H2]; split; [eapply joined_log; eassumption|exact H2]|intros n s; apply let_in_log, Hl]. Qed.

(** Operations that only shrink memberships. *)
Record calm (w w' : world) : Prop := Calm {
  cm_conn : forall c ns n, c_nss (conn_of w' c) !! ns = Some n -> c_nss (conn_of w c) !! ns = Some n;
  cm_nss : forall id o', w_nss w' !! id = Some o' -> exists o, w_nss w !! id = Some o /\ o_ref o' = o_ref o /\ o_rooms o' ⊆ o_rooms o;
  cm_good : forall id o, w_nss w !! id = Some o -> exists o', w_nss w' !! id = Some o' /\ o_ref o' = o_ref o;
  cm_next : w_next w <= w_next w';
  cm_later : later (w_log w) (w_log w');
  cm_out : forall c, c_out (conn_of w' c) = c_out (conn_of w c) }.
Lemma cm_log w w' : calm w w' -> w_log w ⊆ w_log w'.
Proof. intros C. apply (cm_later _ _ C). Qed.
Lemma calm_refl w : calm w w.
Proof. constructor; eauto. reflexivity. Qed.
Lemma conn_of_upd c f w c' : conn_of (upd_conn c f w) c' = if decide (c' = c) then f (conn_of w c) else conn_of w c'.
Proof. unfold conn_of, upd_conn. cbn. case_decide as E; [subst; rewrite lookup_insert|rewrite lookup_insert_ne by congruence]; reflexivity. Qed.
Lemma calm_conn c f w : (forall ns n, c_nss (f (conn_of w c)) !! ns = Some n -> c_nss (conn_of w c) !! ns = Some n) -> c_out (f (conn_of w c)) = c_out (conn_of w c) -> calm w (upd_conn c f w).
Proof.
  intros H1 H2. constructor; cbn; eauto; [|reflexivity|].
  - intros c' ns n. rewrite conn_of_upd. case_decide as E; [subst|]; auto.
  - intros c'. rewrite conn_of_upd. case_decide as E; [subst; exact H2|reflexivity].
Qed.
Lemma calm_then w w1 w' : calm w w1 -> w_conns w' = w_conns w1 -> w_nss w' = w_nss w1 -> w_next w1 <= w_next w' -> later (w_log w1) (w_log w') -> calm w w'.
Proof.
  intros [C1 C2 C3 C4 C5 C6] H1 H2 H3 H4. constructor; rewrite ?H2; auto; [|lia|etrans; eassumption|].
  - intros c ns n. unfold conn_of in *. rewrite H1. apply C1.
  - intros c. rewrite <- C6. unfold conn_of. rewrite H1. reflexivity.
Qed.
Lemma calm_same w w' : w_conns w' = w_conns w -> w_nss w' = w_nss w -> w_next w <= w_next w' -> later (w_log w) (w_log w') -> calm w w'.
Proof. apply calm_then, calm_refl. Qed.
Lemma neutral_calm t w o w' r : neutral o = true -> ostep t w o = Goes w' r -> calm w w'.
Proof.
  intros Hb H. destruct o; try discriminate Hb; cbn [ostep] in H;
    repeat match goal with
    | H : match ?x with _ => _ end = Goes _ _ |- _ => destruct x eqn:?; try discriminate H
    end; try discriminate H; injection H as <- <-;
    first [apply calm_refl | (apply calm_same; try reflexivity; cbn; first [lia|apply later_cons; exact Logic.I])
      | (apply calm_conn; cbn; auto; fail)
      | (eapply calm_then; [|reflexivity|reflexivity|cbn; lia|cbn; reflexivity]; apply calm_conn; cbn; auto; fail) | idtac].
  - apply calm_conn; [|reflexivity]. cbn. intros ns n H. apply lookup_delete_Some in H as [_ H]. exact H.
  - apply (calm_then w (upd_conn c (fun k => k <| c_procs ::= <[name := w_next w]> |>) w)); [apply calm_conn; cbn; auto|reflexivity|reflexivity|cbn; lia|reflexivity].
  - apply calm_conn; destruct typ; cbn; auto.
  - apply calm_conn; destruct typ; cbn; auto.
  - apply calm_same; try reflexivity. cbn. apply later_cons. destruct e; try discriminate Hb; exact Logic.I.
Qed.
Lemma env_calm w e : calm w (env_step e w).
Proof.
  destruct e; cbn [env_step]; repeat match goal with |- context [match ?x with _ => _ end] => destruct x eqn:? end;
    first [apply calm_refl | (apply calm_same; try reflexivity; cbn; lia) | (apply calm_conn; cbn; auto; fail)].
Qed.
Lemma neutral_rule l o P r : neutral o = true -> krule l o P -> P r l.
Proof. intros Hn. destruct o; try discriminate; cbn; auto. destruct e; try discriminate; auto. Qed.
Lemma good_calm w w' n : calm w w' -> good w n -> good w' n.
Proof. intros C (o & H1 & H2). destruct (cm_good _ _ C _ _ H1) as (o' & H3 & H4). exists o'. split; [exact H3|congruence]. Qed.
Lemma inv_calm w w' Ls : Inv w Ls -> calm w w' -> Inv w' Ls.
Proof.
  intros [I1 I2 I3 I4 I5] C. constructor.
  - intros t l H. destruct (I1 t l H) as (H1 & H2 & H3). split; [eauto using good_calm|]. split; [etrans; [exact H2|apply (cm_log _ _ C)]|]. intros n Hn. eapply joined_log; [apply (cm_log _ _ C)|auto].
  - intros c ns n H. apply (cm_conn _ _ C) in H. destruct (I2 c ns n H) as [H1 H2]. split; [eapply good_calm; eassumption|].
    destruct H2 as [H2|H2]; [left; eapply admitted_log; [apply (cm_log _ _ C)|exact H2]|right; exact H2].
  - intros id o' H. destruct (cm_nss _ _ C _ _ H) as (o & H1 & H2 & H3). destruct (I3 id o H1) as (H4 & H5 & H6).
    pose proof (cm_next _ _ C). split; [lia|]. rewrite H2. split; [exact H5|]. intros r Hr. eapply let_in_log; [apply (cm_log _ _ C)|]. apply H6, H3, Hr.
  - apply (cm_later _ _ C), I4.
  - intros c typ b. rewrite (cm_out _ _ C). intros H. eapply sent_log; [apply (cm_log _ _ C)|eauto].
Qed.
Lemma inv_labels w (Ls : gmap tid lab) (t : tid) l : Inv w Ls -> (forall n, n ∈ l.1 -> good w n) -> l.2.1 ⊆ w_log w -> (forall n, n ∈ l.2.2 -> joined (w_log w) n) -> Inv w (<[t := l]> Ls).
Proof.
  intros [I1 I2 I3 I4 I5] H H' H''. constructor; auto. intros t' l' Ht. apply lookup_insert_Some in Ht as [[<- <-]|[_ Ht]]; eauto.
Qed.
Lemma ns_of_good w n o : w_nss w !! n_id n = Some o -> ns_of w n = o.
Proof. intros H. unfold ns_of. rewrite H. reflexivity. Qed.
Lemma calm_ns w n f : good w n -> o_ref (f (ns_of w n)) = o_ref (ns_of w n) -> o_rooms (f (ns_of w n)) ⊆ o_rooms (ns_of w n) -> calm w (upd_ns n f w).
Proof.
  intros (o & H1 & H2) Hf Hs. rewrite (ns_of_good _ _ _ H1) in Hf, Hs. constructor; unfold upd_ns; cbn; auto; try reflexivity; rewrite (ns_of_good _ _ _ H1).
  - intros id o' H. apply lookup_insert_Some in H as [[<- <-]|[Hne H]]; eauto.
  - intros id o' H. destruct (decide (n_id n = id)) as [<-|D]; [rewrite lookup_insert|rewrite lookup_insert_ne by exact D; eauto].
    exists (f o). split; [reflexivity|]. congruence.
Qed.
Lemma inv_grow w (Ls : gmap tid lab) w' : Inv w Ls -> w_log w' = w_log w -> (forall c, c_out (conn_of w' c) = c_out (conn_of w c) \/ c_out (conn_of w' c) = []) -> (forall n, good w n -> good w' n) ->
  (forall c ns n, c_nss (conn_of w' c) !! ns = Some n -> good w' n /\ (admitted G (w_log w') c ns n \/ native c ns n)) ->
  (forall id o, w_nss w' !! id = Some o -> id < w_next w' /\ n_id (o_ref o) = id /\ forall r, r ∈ o_rooms o -> let_in G (w_log w') (o_ref o) r) -> Inv w' Ls.
Proof.
  intros [I1 I2 I3 I4 I5] Hl Ho Hg H2 H3. constructor; auto; [|rewrite Hl; exact I4|intros c typ b Hb; rewrite Hl; destruct (Ho c) as [E|E]; rewrite E in Hb; [eauto|apply elem_of_nil in Hb; destruct Hb]]. intros t l H. destruct (I1 t l H) as (H4 & H5 & H6). rewrite Hl. auto.
Qed.
Lemma good_fresh w Ls k : Inv w Ls -> forall n, good w n -> good (w <| w_nss ::= <[w_next w := k]> |> <| w_next ::= S |>) n.
Proof.
  intros HI n (o & H1 & H2). exists o. cbn. rewrite lookup_insert_ne; [auto|]. destruct (iv_rooms _ _ HI _ _ H1) as [H _]. lia.
Qed.
Lemma admit_op t w Ls l o (P : res o -> lab -> Prop) : Inv w Ls -> Ls !! t = Some l -> krule l o P ->
  match ostep t w o with
  | Goes w' r => exists l', Inv w' (<[t := l']> Ls) /\ P r l'
  | _ => True
  end.
Proof.
  intros HI Ht HP. destruct (ostep t w o) as [w' r| |why] eqn:E; auto.
  destruct (neutral o) eqn:En.
  { exists l. rewrite insert_id by exact Ht. split; [eapply inv_calm; [exact HI|eapply neutral_calm; eassumption]|eapply neutral_rule; eassumption]. }
  destruct (iv_lab _ _ HI t l Ht) as (Hgood & Hlog & Hjoin).
  assert (Hcalm : calm w w' -> Inv w' (<[t := l]> Ls)) by (intros C; rewrite insert_id by exact Ht; eapply inv_calm; eassumption).
  assert (Hsaid : forall n m, said n m l -> permitted G (w_log w) n m).
  { intros n m. unfold said, permitted. destruct (chosen G n (m_event m)) as [[key h]|]; [|auto]. intros [H1 H2]. auto. }
  destruct o; try discriminate En; cbn [ostep] in E.
  - (* OGetNs *) injection E as <- <-. destruct (c_nss (conn_of w c) !! name) as [n|] eqn:E.
    + destruct (iv_conn _ _ HI _ _ _ E) as [H1 H2]. exists (n :: l.1, (l.2.1, n :: l.2.2)). split.
      * apply inv_labels; [exact HI| |exact Hlog|].
        2:{ cbn. intros n' Hn. apply elem_of_cons in Hn as [->|Hn]; [|auto]. unfold joined. destruct H2 as [H2|H2]; [left|right]; [pose proof H2 as (-> & -> & _)|pose proof H2 as (_ & _ & -> & ->)]; exact H2. }
        cbn. intros n' Hn. apply elem_of_cons in Hn as [->|Hn]; auto.
      * apply HP. intros n' [= <-]. destruct H2 as [(H2 & H3 & _)|(_ & _ & H2 & H3)]; auto.
    + exists l. rewrite insert_id by exact Ht. split; [exact HI|]. apply (HP None). discriminate.
  - (* OSetNs *) injection E as <- <-. destruct HP as (Hn & Hc & Hs & Hg & (m & H1 & H2 & H3) & HP). exists l. rewrite insert_id by exact Ht. split; [|exact HP].
    eapply inv_grow; [exact HI|reflexivity|intros c'; left; rewrite conn_of_upd; case_decide; [subst|]; reflexivity|auto| |exact (iv_rooms _ _ HI)].
    intros c' ns n'. rewrite conn_of_upd. case_decide as D; [subst c'|apply (iv_conn _ _ HI)]. cbn. intros H. apply lookup_insert_Some in H as [[<- <-]|[_ H]]; [|apply (iv_conn _ _ HI), H].
    split; [apply Hgood, Hn|]. left. repeat (split; [assumption|]). exists m. auto.
  - (* ONsRange *) injection E as <- <-. eexists. split; [|apply HP].
    assert (C : calm w (pop_seed w)) by (apply calm_same; reflexivity). apply inv_labels; [eapply inv_calm; eassumption| |exact Hlog|].
    2:{ cbn. intros n Hn. apply elem_of_app in Hn as [Hn|Hn]; [|auto]. apply elem_of_list_fmap in Hn as ([ns n'] & -> & Hn). rewrite permute_perm in Hn. apply elem_of_map_to_list in Hn.
        destruct (iv_conn _ _ HI _ _ _ Hn) as [_ H2]. unfold joined. cbn. destruct H2 as [H2|H2]; [left|right]; [pose proof H2 as (-> & -> & _)|pose proof H2 as (_ & _ & -> & ->)]; exact H2. }
    cbn. intros n Hn. apply elem_of_app in Hn as [Hn|Hn]; [|eauto using good_calm]. apply elem_of_list_fmap in Hn as ([ns n'] & -> & Hn).
    rewrite permute_perm in Hn. apply elem_of_map_to_list in Hn. eapply good_calm; [exact C|]. apply (iv_conn _ _ HI _ _ _ Hn).
  - (* ONewNs *) injection E as <- <-. exists (NsRef c name (w_next w) :: l.1, l.2). split; [|apply HP; reflexivity].
    set (n := NsRef c name (w_next w)). set (w1 := w <| w_nss ::= _ |> <| w_next ::= S |>).
    assert (HG : forall n', good w n' -> good w1 n') by (eapply good_fresh, HI).
    assert (HI' : Inv w1 Ls).
    { eapply inv_grow; [exact HI|reflexivity|left; reflexivity|exact HG| |].
      - intros c' ns n' H. change (conn_of w1 c') with (conn_of w c') in H. destruct (iv_conn _ _ HI _ _ _ H) as [H1 H2]. split; [apply HG, H1|exact H2].
      - intros id o H. unfold w1 in H. cbn in H. apply lookup_insert_Some in H as [[<- <-]|[_ H]].
        + split; [cbn; lia|]. split; [reflexivity|]. cbn. intros r Hr. apply elem_of_empty in Hr. destruct Hr.
        + destruct (iv_rooms _ _ HI _ _ H) as (H1 & H2 & H3). split; [cbn; lia|]. auto. }
    apply inv_labels; [exact HI'| |exact Hlog|exact Hjoin]. cbn. intros n' Hn. apply elem_of_cons in Hn as [->|Hn]; [|auto].
    exists (nsobj0 n). unfold w1. cbn. rewrite lookup_insert. auto.
  - (* ORoomLock *) destruct HP as [Hn HP]. destruct (rw_can_lock _); [|discriminate E]. injection E as <- <-. exists l. split; [|exact HP]. apply Hcalm, calm_ns; [auto|reflexivity|reflexivity].
  - destruct HP as [Hn HP]. destruct (rw_holds _ _); [|discriminate E]. injection E as <- <-. exists l. split; [|exact HP]. apply Hcalm, calm_ns; [auto|reflexivity|reflexivity].
  - destruct HP as [Hn HP]. destruct (rw_can_rlock _); [|discriminate E]. injection E as <- <-. exists l. split; [|exact HP]. apply Hcalm, calm_ns; [auto|reflexivity|reflexivity].
  - destruct HP as [Hn HP]. destruct (rw_reads _ _); [|discriminate E]. injection E as <- <-. exists l. split; [|exact HP]. apply Hcalm, calm_ns; [auto|reflexivity|reflexivity].
  - (* OHasRoom *) destruct HP as [Hn HP]. injection E as <- <-. destruct (Hgood n Hn) as (o & Ho & Hor). rewrite (ns_of_good _ _ _ Ho).
    destruct (bool_decide (r0 ∈ o_rooms o)) eqn:Er.
    + apply bool_decide_eq_true in Er. destruct (iv_rooms _ _ HI _ _ Ho) as (_ & _ & H). destruct (H r0 Er) as (m & H1 & H2 & H3 & H4). rewrite Hor in H2, H4.
      unfold permitted in H4. set (evs := match chosen G n (m_event m) with Some (key, _) => [LFire n key m] | None => [] end).
      exists (l.1, (evs ++ l.2.1, l.2.2)). split.
      * apply inv_labels; [exact HI|exact Hgood| |exact Hjoin]. cbn. intros y Hy. apply elem_of_app in Hy as [Hy|Hy]; [|auto]. unfold evs in Hy. destruct (chosen G n (m_event m)) as [[key h]|]; [|apply elem_of_nil in Hy; destruct Hy].
        apply elem_of_list_singleton in Hy as ->. apply H4.
      * apply HP. intros _. exists m. repeat (split; [assumption|]). unfold said, evs. destruct (chosen G n (m_event m)) as [[key h]|]; [|exact Logic.I]. split; [left|apply H4].
    + exists (l.1, ([] ++ l.2.1, l.2.2)). split; [|apply HP; discriminate]. apply inv_labels; auto.
  - (* OAddRoom *) destruct HP as (Hn & (m & H1 & H2 & H3 & H4) & HP). injection E as <- <-. exists l. rewrite insert_id by exact Ht. split; [|exact HP].
    destruct (Hgood n Hn) as (o & Ho & Hr).
    assert (HG : forall n', good w n' -> good (upd_ns n (fun k => k <| o_rooms ::= fun s => {[r0]} ∪ s |>) w) n').
    { intros n' (o' & Ho' & Hr'). unfold good, upd_ns. cbn. rewrite (ns_of_good _ _ _ Ho).
      destruct (decide (n_id n = n_id n')) as [D|D]; [rewrite D, lookup_insert|rewrite lookup_insert_ne by exact D; eauto].
      eexists. split; [reflexivity|]. cbn. rewrite D, Ho' in Ho. injection Ho as ->. exact Hr'. }
    eapply inv_grow; [exact HI|reflexivity|left; reflexivity|exact HG| |].
    + intros c' ns n' H. destruct (iv_conn _ _ HI c' ns n' H) as [H5 H6]. split; [apply HG, H5|exact H6].
    + intros id o' H. unfold upd_ns in H. cbn in H. rewrite (ns_of_good _ _ _ Ho) in H. apply lookup_insert_Some in H as [[<- <-]|[_ H]]; [|apply (iv_rooms _ _ HI), H].
      destruct (iv_rooms _ _ HI _ _ Ho) as (H5 & H6 & H7). split; [exact H5|]. split; [exact H6|]. cbn. intros r Hrr. apply elem_of_union in Hrr as [Hrr|Hrr]; [|apply H7, Hrr].
      apply elem_of_singleton in Hrr as ->. rewrite Hr. exists m. auto.
  - (* ODelRoom *) destruct HP as [Hn HP]. injection E as <- <-. exists l. split; [|exact HP]. apply Hcalm, calm_ns; [auto|reflexivity|]. cbn. set_solver.
  - (* ORoomRange *) destruct HP as [Hn HP]. injection E as <- <-. exists l. split; [|apply HP]. apply Hcalm, calm_same; reflexivity.
  - (* OSockWrite *) destruct HP as [Hs HP]. exists l. rewrite insert_id by exact Ht. split; [|apply HP].
    destruct (c_sockclosed (conn_of w c)); [injection E as <- <-; exact HI|]. destruct (c_wfail (conn_of w c)); injection E as <- <-; [exact HI|].
    destruct HI as [I1 I2 I3 I4 I5]. constructor; [exact I1| |exact I3|exact I4|].
    + intros c' ns n. rewrite conn_of_upd. case_decide as D; [subst c'|]; apply I2.
    + intros c' typ' b'. rewrite conn_of_upd. case_decide as D; [subst c'|apply I5]. cbn. intros H. apply elem_of_app in H as [H|H]; [apply (I5 c typ' b' H)|].
      apply elem_of_list_singleton in H. injection H as -> ->. revert Hs. apply frame_ok_mono.
      * intros n [H1 H2]. auto.
      * intros n s (m & H1 & H2 & H3 & H4). exists m. auto.
  - (* ONewConn *) destruct HP as [Hnat HP]. destruct (w_conns w !! c) eqn:Ec; [discriminate E|].
    exists l. destruct native_only; injection E as <- <-; (split; [|exact HP]); rewrite insert_id by exact Ht.
    + match goal with |- Inv ?w' _ => set (w1 := w') end.
      assert (HG : forall n', good w n' -> good w1 n') by (eapply good_fresh, HI).
      eapply inv_grow; [exact HI|reflexivity|intros c'; unfold w1, conn_of; cbn; destruct (decide (c = c')) as [<-|D]; [right; rewrite lookup_insert; reflexivity|left; rewrite lookup_insert_ne by exact D; reflexivity]|exact HG| |].
      * intros c' ns n' H. unfold w1, conn_of in H. cbn in H. destruct (decide (c = c')) as [<-|D].
        -- rewrite lookup_insert in H. cbn in H. apply lookup_singleton_Some in H as [<- <-]. split; [|right; split; [congruence|auto]].
           exists (nsobj0 (NsRef c "" (w_next w))). unfold w1. cbn. rewrite lookup_insert. auto.
        -- rewrite lookup_insert_ne in H by exact D. destruct (iv_conn _ _ HI c' ns n' H) as [H1 H2]. split; [apply HG, H1|exact H2].
      * intros id' o H. unfold w1 in H. cbn in H. apply lookup_insert_Some in H as [[<- <-]|[_ H]].
        -- split; [cbn; lia|]. split; [reflexivity|]. cbn. intros r Hr. apply elem_of_empty in Hr. destruct Hr.
        -- destruct (iv_rooms _ _ HI _ _ H) as (H1 & H2 & H3). split; [cbn; lia|]. auto.
    + eapply inv_calm; [exact HI|]. constructor; cbn; eauto; try reflexivity.
      2:{ intros c'. unfold conn_of. cbn. destruct (decide (c = c')) as [<-|D]; [rewrite lookup_insert, Ec|rewrite lookup_insert_ne by exact D]; reflexivity. }
      intros c' ns n. unfold conn_of. cbn.
      destruct (decide (c = c')) as [<-|D]; [rewrite lookup_insert|rewrite lookup_insert_ne by exact D; auto]. cbn. rewrite lookup_empty. discriminate.
  - (* OLog *) destruct e; try discriminate En. injection E as <- <-. eexists. split; [|apply HP].
    apply inv_labels.
    + destruct HI as [I1 I2 I3 I4 I5]. assert (Hs : w_log w ⊆ LFire n key m :: w_log w) by (intros y Hy; constructor; exact Hy). constructor; cbn.
      * intros t' l' H. destruct (I1 t' l' H) as (H1 & H2 & H3). split; [exact H1|]. split; [etrans; eassumption|]. intros n' Hn. eapply joined_log; [exact Hs|auto].
      * intros c' ns n' H. destruct (I2 c' ns n' H) as [H1 H2]. split; [exact H1|]. destruct H2 as [H2|H2]; [left; eapply admitted_log; [exact Hs|exact H2]|right; exact H2].
      * intros id o H. destruct (I3 id o H) as (H1 & H2 & H3). split; [exact H1|]. split; [exact H2|]. intros r Hr. eapply let_in_log; [exact Hs|auto].
      * apply timely_cons; [|exact I4]. intros n' k' m' [= <- <- <-] Hm. apply Hjoin, HP, Hm.
      * intros c' typ b Hb. eapply sent_log; [exact Hs|eauto].
    + cbn. intros n' Hn. apply Hgood, Hn.
    + cbn. intros y Hy. apply elem_of_cons in Hy as [->|Hy]; constructor. apply Hlog, Hy.
    + cbn. intros n' Hn. eapply joined_log; [intros y Hy; constructor; exact Hy|apply Hjoin, Hn].
Qed.
Lemma valid_good w n : valid_ns w n = true -> good w n.
Proof.
  unfold valid_ns, good. intros H. apply andb_true_iff in H as [_ H]. destruct (w_nss w !! n_id n) as [o|]; [|discriminate]. exists o. split; [reflexivity|].
  unfold nsref_eqb in H. rewrite !andb_true_iff in H. destruct H as [[H1 H2] H3]. apply Nat.eqb_eq in H1, H3. apply String.eqb_eq in H2.
  destruct (o_ref o), n. cbn in *. congruence.
Qed.
Lemma admit_respects : respects KS G Inv.
Proof.
  constructor.
  - intros t w Ls l o P HI Ht HP. pose proof (admit_op t w Ls l o P HI Ht HP) as H. destruct (ostep t w o); auto.
  - intros t w Ls l a HI Ht Hv Ha.
    set (ns := match a with ARoom (Some n) _ | ARooms (Some n) | AJoinRoom (Some n) _ _ | ALeaveAll (Some n) _ | ARoomLeave n _ _ => [n] | _ => [] end).
    exists (ns ++ l.1, l.2). destruct (iv_lab _ _ HI t l Ht) as (Hgood & Hlog & Hjoin). split.
    + apply inv_labels; [exact HI| |exact Hlog|exact Hjoin]. cbn. intros n Hn. apply elem_of_app in Hn as [Hn|Hn]; [|auto]. apply valid_good.
      unfold ns in Hn. destruct a; try (apply elem_of_nil in Hn; destruct Hn);
        try match goal with n : option nsref |- _ => destruct n; [|apply elem_of_nil in Hn; destruct Hn] end; apply elem_of_list_singleton in Hn as ->; exact Hv.
    + eapply (ok_mono KS kmono) with (Q := fun _ l' => sub (ns ++ l.1, l.2) l'); [intros r l' H; eapply sub_trans; [apply sub_ns|exact H]|].
      apply (impl_kp krules k_gates); auto using k_ask, k_reply, k_message, k_ack, k_waitm, k_broadcast, k_srvask; try (intros; exact Logic.I).
      unfold ns. destruct a; cbn; auto; try (destruct n; auto; cbn; constructor).
  - intros t l Hs. apply (code_kp krules k_gates); auto using k_ask, k_reply, k_message, k_ack, k_waitm, k_broadcast, k_srvask, k_server; try (intros; exact Logic.I).
    + cbn. auto.
    + intros. apply k_upgrade; auto.
    + intros. apply k_dial; auto.
    + intros. apply k_next.
  - intros t w Ls l [I1 I2 I3 I4 I5] Ht _. constructor; auto. intros t' l' H. apply lookup_delete_Some in H as [_ H]. eauto.
  - intros t w Ls c rest HI Hsp Ht. exists ([], ([], [])). split; [exact Logic.I|]. apply inv_labels; [|intros c' H; cbn in H; apply elem_of_nil in H; destruct H|cbn; apply list_subseteq_nil|intros c' H; cbn in H; apply elem_of_nil in H; destruct H].
    eapply inv_calm; [exact HI|]. apply calm_same; reflexivity.
  - intros t w Ls c HI Hs Ht. exists ([], ([], [])). split; [exact Logic.I|]. apply inv_labels; [exact HI|intros c' H; cbn in H; apply elem_of_nil in H; destruct H|cbn; apply list_subseteq_nil|intros c' H; cbn in H; apply elem_of_nil in H; destruct H].
  - intros w Ls e HI _. eapply inv_calm; [exact HI|apply env_calm].
Qed.
Lemma admit_start : exists l, ls_start KS TServer l /\ Inv world0 {[0 := l]}.
Proof.
  exists ([], ([], [])). split; [exact Logic.I|]. constructor.
  - intros t l H. apply lookup_singleton_Some in H as [_ <-]. cbn. split; [intros n H; apply elem_of_nil in H; destruct H|]. split; [apply list_subseteq_nil|]. intros n H; apply elem_of_nil in H; destruct H.
  - intros c ns n. unfold conn_of, world0. cbn. rewrite lookup_empty. cbn. rewrite lookup_empty. discriminate.
  - intros id o. unfold world0. cbn. rewrite lookup_empty. discriminate.
  - intros l2 n e m l1 E. cbn in E. destruct l2; discriminate E.
  - intros c typ b. unfold conn_of, world0. cbn. rewrite lookup_empty. cbn. intros H. apply elem_of_nil in H. destruct H.
Qed.
Lemma admit_reachable s : reachable G s -> exists Ls, Inv (s_w s) Ls.
Proof. intros Hr. destruct (reachable_holds KS kmono G Inv admit_respects s admit_start Hr) as (_ & Ls & HI & _). eauto. Qed.
End admit.
