(** * Order.v : ordinary messages are handled in the order of their arrival and
    at most once (C56), in every interleaving. *)
From Coq Require Import ZArith Ascii.
From stdpp Require Import gmap strings list relations.
From RecordUpdate Require Import RecordUpdate.
From Verif Require Import Go Errors Message World Lang Code Sem ExecProofs Logic Spec_App Spec_View Spec_Order Spec_Cross Frame.

#[local] Arguments Write : simpl never.
#[local] Arguments write : simpl never.
#[local] Arguments Close : simpl never.
#[local] Arguments wait : simpl never.
#[local] Arguments unwait : simpl never.
#[local] Arguments handleQueue : simpl never.
#[local] Arguments Broadcast : simpl never.
#[local] Arguments handle_event : simpl never.
#[local] Arguments handle_reply_or_event : simpl never.
#[local] Arguments send : simpl never.
#[local] Arguments is_handled : simpl never.
#[local] Arguments received : simpl never.

(** Ghost state of a goroutine.  [Oth]: not a reader of [c]; [Mk]: has made
    [c] and will start its reader; [Rd fl hk dup td]: is the reader.  [td] are the frames it read and may
    still run callbacks for; [fl]: it has to look at the queue; [hk]: it knows that the
    handshake is over; [dup]: [td] is a copy of the queue. *)
Inductive lab : Type := Oth | Mk | Rd (fl hk dup : bool) (td : list string).

Section order.
Context (G : cfg) (c : cid) (ty : mtype).
Notation rcv := (received G c ty).
Definition same_kind (typ : mtype) : bool := Bool.eqb (is_binary typ) (is_binary ty).
Lemma same_kind_eq typ : same_kind typ = true <-> typ = ty.
Proof. unfold same_kind. destruct typ, ty; cbn; split; congruence. Qed.
Definition todo_of (r : gerr + mtype * string) : list string :=
  match r with inr (typ, b) => if same_kind typ then [b] else [] | _ => [] end.
Definition snap (q : list string) (qs : list (mtype * list string)) : Prop :=
  (q = [] /\ forall e, e ∈ qs -> same_kind (fst e) = false) \/
  (q <> [] /\ exists a b, qs = a ++ (ty, q) :: b /\ forall e, e ∈ a ++ b -> same_kind (fst e) = false).
Definition nonnil (q : list string) : bool := match q with [] => false | _ => true end.
Definition know (l : lab) : lab := match l with Rd fl _ dup td => Rd fl true dup td | _ => l end.
Definition orule (l : lab) (o : op) : (res o -> lab -> Prop) -> Prop :=
  match o as o return (res o -> lab -> Prop) -> Prop with
  | ORead c' => fun P => match l with
      | Rd _ _ dup _ => if Nat.eqb c' c then dup = false /\ forall r, P r (Rd false false false (todo_of r)) else forall r, P r l
      | _ => forall r, P r l end
  | OIsAcked c' => fun P => forall r : bool, P r (if r && Nat.eqb c' c then know l else l)
  | OSetAcked c' true => fun P => (c' = c -> exists fl dup td, l = Rd fl true dup td) /\ P tt l
  | OLog (LAcked c') => fun P => if Nat.eqb c' c then match l with Rd fl hk dup td => P tt (Rd true true dup td) \/ P tt (Rd false true dup td) | _ => False end else P tt l
  | OLog (LFire n e m) => fun P => if is_handled c ty n m
      then exists dup pre b post, l = Rd false true dup (pre ++ b :: post) /\ m = rcv b /\ P tt (Rd false true dup post) else P tt l
  | OQPush c' typ b => fun P => if Nat.eqb c' c && same_kind typ
      then exists fl hk dup pre post, l = Rd fl hk dup (pre ++ b :: post) /\ P tt (Rd fl hk dup post) else P tt l
  | OQRange c' => fun P => (forall r, P r l) \/ (c' = c /\ exists td, l = Rd true true false td /\ forall q qs, snap q qs -> P qs (Rd false true (nonnil q) q))
  | OQDel c' typ => fun P => P tt l \/ (c' = c /\ typ = ty /\ exists fl hk dup td, l = Rd fl hk dup td /\ P tt (Rd fl hk false td))
  | ONewConn c' _ native => fun P => if Nat.eqb c' c then l = Oth /\ native = onlyNative G c /\ P tt Mk else P tt l
  | OSpawn (TReader c') => fun P => if Nat.eqb c' c then l = Mk /\ P tt Oth else P tt l
  | OSpawn (TReaderLoop c') => fun P => c' <> c /\ P tt l
  | OGetNs c' s => fun P => forall r, (forall n, r = Some n -> n_conn n = c') -> P r l
  | ONewNs c' s => fun P => forall n, n_conn n = c' -> P n l
  | OSetNs c' s n => fun P => n_conn n = c' /\ P tt l
  | _ => fun P => forall r, P r l
  end.
Definition ostart (t : tcode) (l : lab) : Prop :=
  match t with
  | TReader c' | TReaderLoop c' => if Nat.eqb c' c then exists fl hk td, l = Rd fl hk false td else l = Oth
  | _ => l = Oth
  end.
Definition more (l l' : lab) : Prop :=
  match l, l' with
  | Oth, Oth | Mk, Mk => True
  | Rd fl hk dup td, Rd fl' hk' dup' td' => fl' = fl /\ dup' = dup /\ td' = td /\ (hk = true -> hk' = true)
  | _, _ => False
  end.
Definition OS : lspec := {|
  ls_L := lab; ls_rule := orule; ls_cpre := fun _ a => not_fed c a; ls_cpost := fun l a r l' => more l l';
  ls_crash := fun _ => True; ls_start := ostart; ls_fin := fun _ => True |}.
Lemma omono : rule_mono OS.
Proof.
  intros l o P P' H. destruct o; try match goal with x : tcode |- _ => destruct x | x : event |- _ => destruct x | x : bool |- _ => destruct x end; cbn in *; intros HP;
    repeat match goal with
    | H : _ /\ _ |- _ => destruct H | H : exists _, _ |- _ => destruct H | H : _ \/ _ |- _ => destruct H
    | H : context [if ?x then _ else _] |- _ => destruct x eqn:? | H : context [match ?x with _ => _ end] |- _ => is_var x; destruct x
    end; subst; eauto 12; try contradiction; try (right; eauto 12; fail).
Qed.
Lemma more_refl l : more l l.
Proof. destruct l; cbn; auto. Qed.
Lemma more_trans a b d : more a b -> more b d -> more a d.
Proof. destruct a, b, d; cbn; try tauto. intros (-> & -> & -> & ?) (-> & -> & -> & ?). repeat split; auto. Qed.
Lemma more_know l : more l (know l).
Proof. destruct l; cbn; auto. Qed.
Lemma more_oth l : more Oth l -> l = Oth.
Proof. destruct l; cbn; tauto. Qed.

Context (A : user_app (not_fed c) G).
Notation any := (fun _ _ => True).
Notation notc := (fun _ c' => c' <> c).
Lemma is_handled_ne n m : n_conn n <> c -> is_handled c ty n m = false.
Proof. intros H. unfold is_handled. rewrite (proj2 (Nat.eqb_neq _ _) H). reflexivity. Qed.
Lemma is_handled_local n m : ~ from_remote m -> is_handled c ty n m = false.
Proof.
  intros H. destruct (is_handled c ty n m) eqn:E; [|reflexivity]. exfalso. apply H. unfold is_handled in E. rewrite !andb_true_iff in E. destruct E as [[[_ E1] E2] _].
  unfold from_remote. split; [destruct (m_isLocal m); [discriminate E2|reflexivity]|]. intros (_ & _ & [E|E]); unfold ordinary in E1; rewrite E in E1; discriminate E1.
Qed.
Lemma orules : @rules G OS (not_fed c) more any any notc notc any (fun n c' => n_conn n = c') notc any any any (fun _ _ _ _ => True) (fun _ _ => True).
Proof.
  constructor; cbn; unfold stable; auto using omono, more_refl; try (intros; eauto using more_refl, more_trans; fail).
  - intros o l P Hp H.
    destruct o; cbn in *; try discriminate; try (intros; apply H, more_refl); try (left; intros; apply H, more_refl);
    match goal with x : tcode |- _ => destruct x | x : event |- _ => destruct x | x : bool |- _ => destruct x end; try discriminate; cbn; intros; apply H, more_refl.
  - intros c0 s l P H r Hr. apply H; [apply more_refl|]. destruct r; auto.
  - intros o n l P Ho _ H. destruct o; try discriminate Ho; cbn; intros; apply H, more_refl.
  - intros n e m l P _ _ _ Hm H. destruct (is_handled c ty n m) eqn:E; [|apply H; [apply more_refl|exact I]]. exfalso.
    assert (Hr : from_remote m \/ ~ from_remote m) by (unfold from_remote; destruct (m_isLocal m); [right; intros [? _]; discriminate|];
      destruct (decide (m_wait m = "" /\ m_isForced m = false /\ (m_event m = OnRoomLeave \/ m_event m = OnRoomLeft))); [right; tauto|left; auto]).
    destruct Hr as [Hr|Hr]; [|rewrite is_handled_local in E by exact Hr; discriminate]. destruct (Hm Hr) as (c' & Hc & Hn).
    rewrite is_handled_ne in E by congruence. discriminate.
  - intros c0 l P H [|]; cbn; [destruct (Nat.eqb c0 c)|]; apply H; auto using more_refl, more_know.
  - intros c0 l P Hc H. rewrite (proj2 (Nat.eqb_neq _ _) Hc). destruct l; intros; apply H; auto using more_refl.
Qed.
Notation kp := (@kp OS more _).
Notation kpp P := (@kpp OS more _ P).
Definition neutral (o : op) : bool :=
  match o with
  | ORead _ | OIsAcked _ | OSetAcked _ true | OLog (LAcked _) | OGetNs _ _ | ONewNs _ _ | OSetNs _ _ _ | OLog (LFire _ _ _) | ONewConn _ _ _
  | OQPush _ _ _ | OQRange _ | OQDel _ _ | OSpawn (TReader _) | OSpawn (TReaderLoop _) => false
  | _ => true
  end.
Lemma o_free o : neutral o = true -> kp (opr o).
Proof. intros H l. cbn. unfold neutral in H. destruct o; try discriminate; cbn; intros; try apply more_refl;
  match goal with x : tcode |- _ => destruct x | x : event |- _ => destruct x | x : bool |- _ => destruct x end; try discriminate; cbn; intros; apply more_refl. Qed.
Ltac kf := repeat first
  [ apply (kp_ret orules) | apply (kp_crash orules) | match goal with |- @Frame.kp _ _ _ (opr ?o) => exact (o_free o eq_refl) end | assumption
  | match goal with H : forall _, _ |- _ => apply H; fail end
  | apply (kp_for_all orules); intros | apply (kp_bind orules); [|intros]
  | match goal with |- @Frame.kp _ _ _ ?p => match p with context [match ?x with _ => _ end] => destruct x eqn:? end end ].
Lemma o_gates : @gates G OS more any (fun _ => True).
Proof.
  constructor; intros.
  - unfold wait. kf.
  - unfold unwait. kf.
  - unfold proc_get. kf.
  - apply (kpp_kp orules). unfold proc_Done. kf.
  - unfold proc_Wait. kf.
  - apply (kq_any orules); [auto|]. unfold proc_Start. kf.
Qed.
Lemma o_ask c' x m nx : kp (ask G c' x m nx).
Proof. pose proof (Write_kp orules o_gates) as HW. unfold ask. kf. Qed.
Lemma o_send ch m : kp (send ch m).
Proof. unfold send. kf. Qed.
Lemma o_reply c' m : kpp (fun _ => c' <> c) (handle_event G c' m) -> kpp (fun _ => c' <> c) (handle_reply_or_event G c' m).
Proof.
  intros H l Hl. unfold handle_reply_or_event. cbn. intros [ch'|]; [|apply H, Hl].
  eapply (ok_seq OS omono); [apply o_send|]. intros; assumption.
Qed.
Lemma o_message c' m : (forall m', kpp (fun _ => c' <> c) (handle_event G c' m')) -> kpp (fun _ => c' <> c) (handle_reply_or_event G c' m) ->
  (forall n m', n_conn n = c' -> kpp (fun _ => True /\ True /\ c' <> c) (fireEvent G n m')) -> kpp (fun _ => c' <> c) (handleMessage G c' m).
Proof.
  intros He Hr Hf l0 Hc. revert l0. assert (He' : forall m', kp (handle_event G c' m')) by (intros m' l; apply He; exact Hc).
  assert (Hr' : kp (handle_reply_or_event G c' m)) by (intros l; apply Hr; exact Hc).
  refine (_ : kp (handleMessage G c' m)).
  assert (Hs : kp (bind (opr (OSWaitGet (m_wait m))) (fun w => match w with Some ch => bind (send ch m) (fun _ => Ret None) | None => handle_reply_or_event G c' m end))).
  { pose proof o_send as HS. kf. }
  unfold handleMessage. destruct (m_isInvalid m); [kf|]. destruct (m_isNative m && onlyNative G c').
  - apply (kp_kpp orules (fun _ => True)); [auto|]. eapply (kpp_bindq orules); [apply (stable_true orules)|apply (Namespace_kq orules o_gates), (stable_true orules)|].
    intros [n|]; cbn beta iota; [|apply (kpp_crash orules)]. intros l (_ & _ & Hn & _). apply (Hf n m Hn). auto.
  - kf.
Qed.
Lemma o_ack c' typ b : kpp (fun _ => c' <> c) (handleQueue G c') -> (forall s bin, kp (write G c' s bin)) -> kp (wait c') -> (forall e, kp (unwait c' e)) ->
  kpp (fun _ => c' <> c) (handleACK G c' typ b).
Proof.
  intros H1 H2 H3 H4 l0 Hc. revert l0. assert (H1' : kp (handleQueue G c')) by (intros l; apply H1; exact Hc).
  assert (Ha : kp (opr (OLog (LAcked c')))) by (intros l; cbn; rewrite (proj2 (Nat.eqb_neq _ _) Hc); apply more_refl).
  assert (Hs : kp (opr (OSetAcked c' true))) by (intros l; cbn; split; [congruence|apply more_refl]).
  assert (Hp : kp (opr (OQPush c' typ b))) by (intros l; cbn; rewrite (proj2 (Nat.eqb_neq _ _) Hc); apply more_refl).
  refine (_ : kp (handleACK G c' typ b)). unfold handleACK. kf.
Qed.
Lemma o_waitm c' l : l = Oth -> (forall msgs, kp (publishMessages G c' msgs)) -> ok (S := OS) l (waitMessages G c') (fun r l' => if r : bool then l' = Oth else True).
Proof.
  intros -> H. apply (ok_mono OS omono Oth (waitMessages G c') (fun _ l' => more Oth l')); [intros [|] ? H1; [apply more_oth, H1|exact Logic.I]|].
  generalize Oth. change (kp (waitMessages G c')). unfold waitMessages, publish. kf. Qed.
Lemma o_broadcast msgs : kp (broadcast msgs).
Proof. unfold broadcast. kf. Qed.
Lemma o_srvask x m : (forall e msgs, kp (Broadcast G e msgs)) -> kp (ServerAsk G x m).
Proof. intros HB. unfold ServerAsk. kf. Qed.
(** Making the connection and starting its reader. *)
Lemma o_newconn {X} c' (f : unit -> prog X) : (forall l, l = (if Nat.eqb c' c then Mk else Oth) -> ok (S := OS) l (f tt) (fun _ l' => l' = Oth)) ->
  ok (S := OS) Oth (bind (newConn G c') f) (fun _ l' => l' = Oth).
Proof.
  intros H. unfold newConn. cbn. destruct (Nat.eqb c' c) eqn:E; [|apply H; reflexivity]. apply Nat.eqb_eq in E as ->. split; [reflexivity|]. split; [reflexivity|]. apply H. reflexivity.
Qed.
Lemma o_spawn {X} c' l (f : unit -> prog X) : l = (if Nat.eqb c' c then Mk else Oth) -> ok (S := OS) Oth (f tt) (fun _ l' => l' = Oth) ->
  ok (S := OS) l (bind (opr (OSpawn (TReader c'))) f) (fun _ l' => l' = Oth).
Proof. intros -> H. cbn. destruct (Nat.eqb c' c); [split; [reflexivity|]|]; exact H. Qed.
Lemma o_kp {X Y} l (p : prog X) (f : X -> prog Y) (Q : Y -> lab -> Prop) : l <> Oth \/ l = Oth -> (forall fl hk dup td, l <> Rd fl hk dup td) -> kp p -> (forall r, ok (S := OS) l (f r) Q) -> ok (S := OS) l (bind p f) Q.
Proof.
  intros _ Hl Hp Hf. eapply (ok_seq OS omono); [apply Hp|]. intros r l' H. replace l' with l; [apply Hf|].
  destruct l, l'; cbn in H; try tauto. exfalso. eapply Hl. reflexivity.
Qed.
Lemma kp_oth {X} (p : prog X) : kp p -> ok (S := OS) Oth p (fun _ l' => l' = Oth).
Proof. intros H. eapply (ok_mono OS omono); [|apply H]. intros r l' H'. apply more_oth, H'. Qed.
Lemma o_upgrade c' : (forall e, kp (unwait c' e)) -> (forall f, g_onconnect G = Some f -> kp (f c')) -> ok (S := OS) Oth (Upgrade G c') (fun _ l' => more Oth l').
Proof.
  intros H1 H2. apply (ok_mono OS omono Oth (Upgrade G c') (fun _ l' => l' = Oth)); [intros r l' ->; exact Logic.I|].
  unfold Upgrade. apply o_kp; [auto|discriminate|kf|]. intros [|]; [apply kp_oth; kf|]. apply o_newconn. intros l Hl.
  assert (Hr : forall fl hk dup td, l <> Rd fl hk dup td) by (intros; subst; destruct (Nat.eqb c' c); discriminate).
  apply o_kp; [tauto || (destruct l; auto; left; discriminate)|exact Hr|kf|]. intros _.
  apply o_kp; [tauto || (destruct l; auto; left; discriminate)|exact Hr|kf|]. intros _.
  apply o_spawn; [exact Hl|]. apply kp_oth. destruct (g_onconnect G) as [f|] eqn:E; [pose proof (H2 f eq_refl)|]; kf.
Qed.
Lemma o_dial c' : kp (sendClientACK G c') -> ok (S := OS) Oth (Dial G c') (fun _ l' => more Oth l').
Proof.
  intros H1. apply (ok_mono OS omono Oth (Dial G c') (fun _ l' => l' = Oth)); [intros r l' ->; exact Logic.I|].
  unfold Dial. apply o_newconn. intros l Hl. apply o_spawn; [exact Hl|]. apply kp_oth. kf.
Qed.
Lemma o_next c' ch : ok (S := OS) Oth (read_next G c' ch) (fun _ l' => more Oth l').
Proof. unfold read_next. cbn. intros [e|[typ b]]; apply o_send. Qed.
Lemma o_server l : l = Oth -> (forall c' msgs, kp (publishMessages G c' msgs)) ->
  (forall c', exists f, Close G c' = bind (opr (OCasClosed c')) f /\ forall r : bool, @Frame.kpp OS more _ (fun _ => r = true -> True) (f r)) -> (forall k c', kp (g_do G k c')) ->
  (forall x, kp (exch_call G x)) -> (forall f c', g_ondisconnect G = Some f -> kp (f c')) -> ok (S := OS) l (server_step G) (fun _ l' => l' = Oth).
Proof.
  intros -> H1 H2 H2' H3 H4. apply kp_oth.
  assert (HC : forall c, kp (Close G c)) by (intros c'; destruct (H2 c') as (f & -> & Hf); assert (Hf' : forall r, kp (f r)) by (intros r l; apply (Hf r); auto); kf).
  unfold server_step, publish, act_call. apply (kp_bind orules); [kf|]. intros x. apply (kp_bind orules); [kf|]. intros _.
  destruct x; [kf| |kf|kf]. destruct (g_ondisconnect G) as [f|] eqn:E; [|kf]. pose proof (fun c => H4 f c eq_refl) as H5. kf.
Qed.

(** ** The reader of [c]. *)
Lemma rcv_binary typ b : m_setBinary (received G c typ b) = is_binary typ.
Proof. unfold received, DeserializeMessage. destruct (isServerConnID _); destruct typ; reflexivity. Qed.
Lemma rcv_local typ b : m_isLocal (received G c typ b) = false.
Proof. unfold received, DeserializeMessage. destruct (isServerConnID _); reflexivity. Qed.
Lemma user_kp {X} (p : prog X) : user_code (not_fed c) p -> kp p.
Proof. apply (kp_user orules). Qed.
Lemma fire_log n m (Q : option gerr -> lab -> Prop) l :
  (forall e (p : prog (option gerr)), kp p -> ok (S := OS) l (opr (OLog (LFire n e m)) ;;; p)%prog Q) -> (Q None l) -> ok (S := OS) l (fireEvent G n m) Q.
Proof.
  intros H H0. unfold fireEvent, ns_events. destruct (g_namespaces G (n_conn n) !! n_name n) as [evs|] eqn:E; cbn; [|unfold id; rewrite !lookup_empty; exact H0].
  unfold id. destruct (evs !! m_event m) as [h|] eqn:E1; [|destruct (evs !! OnAnyEvent) as [h|] eqn:E2; [|exact H0]];
    (apply H; apply user_kp; eapply (ua_callbacks _ _ A); eassumption).
Qed.
(** Callbacks for the events of the protocols. *)
Lemma fire_protocol n m : ordinary m = false -> kp (fireEvent G n m).
Proof.
  intros H l. apply fire_log; [|apply more_refl]. intros e p Hp. cbn. unfold is_handled. rewrite H, andb_false_r. cbn. apply Hp.
Qed.
Lemma o_getns c' s : kp (Namespace c' s).
Proof. apply (Namespace_kp orules o_gates). Qed.
Ltac kg := repeat first
  [ apply (kp_ret orules) | apply (kp_crash orules) | match goal with |- @Frame.kp _ _ _ (opr ?o) => exact (o_free o eq_refl) end | assumption
  | apply o_getns | apply (Write_kp orules o_gates) | apply (writeEmptyReply_kp orules o_gates) | apply (notifyNamespaceDisconnect_kp orules o_gates) | apply (exch_call_kp orules o_gates)
  | match goal with |- @Frame.kp _ _ _ (Do _ _) => apply (kp_do orules); [reflexivity|intros] end
  | (apply fire_protocol; cbn; reflexivity) | (apply fire_protocol; assumption)
  | match goal with H : forall _, _ |- _ => apply H; fail end
  | apply (kp_for_all orules); intros | apply (kp_bind orules); [|intros]
  | match goal with |- @Frame.kp _ _ _ ?p => match p with context [match ?x with _ => _ end] => destruct x eqn:? end end ].
Lemma kp_newns {X} c' s (f : nsref -> prog X) : (forall n, n_conn n = c' -> kp (f n)) -> kp (bind (opr (ONewNs c' s)) f).
Proof. intros H l. cbn. intros n Hn. apply H, Hn. Qed.
Lemma kp_setns c' s n : n_conn n = c' -> kp (opr (OSetNs c' s n)).
Proof. intros H l. cbn. split; [exact H|apply more_refl]. Qed.
Lemma o_replyConnect c' m : ordinary m = false -> kp (replyConnect G c' m).
Proof.
  intros H. unfold replyConnect, notifyNamespaceConnected. destruct (_ || _); [kg|]. apply (kp_bind orules); [kg|]. intros [n|]; [kg|].
  destruct (g_namespaces G c' !! m_namespace m); [|kg]. apply kp_newns. intros n Hn. pose proof (kp_setns c' (m_namespace m) n Hn) as Hs. kg.
Qed.
Lemma o_force n b : kp (forceLeaveAll G n b).
Proof. unfold forceLeaveAll. kg. Qed.
Lemma o_replyDisconnect c' m : ordinary m = false -> kp (replyDisconnect G c' m).
Proof. intros H. pose proof o_force as HF. unfold replyDisconnect. kg. Qed.
Lemma o_replyRoomJoin n m : ordinary m = false -> kp (replyRoomJoin G n m).
Proof. intros H. unfold replyRoomJoin. kg. Qed.
Lemma o_replyRoomLeave n m : ordinary m = false -> kp (replyRoomLeave G n m).
Proof. intros H. assert (HR : forall n s, kp (Room n s)) by (intros n0 s0; unfold Room; kg). unfold replyRoomLeave. kg. Qed.
Lemma o_try c' m : kp (tryNamespace G c' m).
Proof. apply (kp_kpp orules (fun _ => True)); [auto|]. eapply (kq_kpp orules), (tryNamespace_kq orules o_gates), (stable_true orules). Qed.

(** [m] may be handled now, and [post] has to be kept for later. *)
Definition can (l : lab) (dup : bool) (post : list string) (m : message) : Prop :=
  m_isLocal m = false /\ exists td, l = Rd false true dup td /\ suffix post td /\
  (m_setBinary m = is_binary ty -> exists pre b, td = pre ++ b :: post /\ m = rcv b).
Definition ends (l : lab) (dup : bool) (post : list string) : Prop := exists td, l = Rd false true dup td /\ suffix post td.
Lemma can_ends l dup post m : can l dup post m -> ends l dup post.
Proof. intros (_ & td & H1 & H2 & _). exists td. auto. Qed.
Lemma ends_more l l' dup post : ends l dup post -> more l l' -> ends l' dup post.
Proof. intros (td & -> & H2) H. destruct l'; try contradiction. cbn in H. destruct H as (-> & -> & -> & H). rewrite (H eq_refl). exists td. auto. Qed.
Lemma can_more l l' dup post m : can l dup post m -> more l l' -> can l' dup post m.
Proof. intros (H0 & td & -> & H2 & H3) H. destruct l'; try contradiction. cbn in H. destruct H as (-> & -> & -> & H). rewrite (H eq_refl). split; [exact H0|]. exists td. auto. Qed.
Lemma kp_ends {X} (p : prog X) l dup post : kp p -> ends l dup post -> ok (S := OS) l p (fun _ l' => ends l' dup post).
Proof. intros Hp H. eapply (ok_mono OS omono); [|apply Hp]. intros r l' H'. eapply ends_more; eassumption. Qed.
Lemma fire_ends n m l dup post : can l dup post m -> ok (S := OS) l (fireEvent G n m) (fun _ l' => ends l' dup post).
Proof.
  intros Hc. apply fire_log; [|eapply can_ends, Hc]. intros e p Hp. cbn.
  destruct (is_handled c ty n m) eqn:E; [|apply kp_ends; [exact Hp|eapply can_ends, Hc]].
  destruct Hc as (H0 & td & -> & Hs & H). unfold is_handled in E. rewrite !andb_true_iff in E. destruct E as [_ E]. apply Bool.eqb_prop in E.
  destruct (H E) as (pre & b & -> & ->). exists dup, pre, b, post. split; [reflexivity|]. split; [reflexivity|].
  apply kp_ends; [exact Hp|]. exists post. split; reflexivity.
Qed.
Lemma seq_more {X Y} l dup post m (p : prog X) (f : X -> prog Y) (Q : Y -> lab -> Prop) : can l dup post m -> kp p ->
  (forall r l', can l' dup post m -> ok (S := OS) l' (f r) Q) -> ok (S := OS) l (bind p f) Q.
Proof. intros Hc Hp Hf. eapply (ok_seq OS omono); [apply Hp|]. intros r l' H. apply Hf. eapply can_more; eassumption. Qed.
Lemma set_local_false m : m_isLocal m = false -> set_isLocal false m = m.
Proof. intros H. destruct m. cbn in *. subst. reflexivity. Qed.
Lemma event_ends m l dup post : can l dup post m -> ok (S := OS) l (handle_event G c m) (fun _ l' => ends l' dup post).
Proof.
  intros Hc. unfold handle_event.
  assert (Hor : forall e, m_event m = e -> e ∈ protocol_events -> ordinary m = false).
  { intros e He Hin. unfold ordinary. rewrite He. apply negb_false_iff, existsb_exists. exists e. split; [apply elem_of_list_In, Hin|apply String.eqb_refl]. }
  destruct (String.eqb_spec (m_event m) OnNamespaceConnect) as [E|_].
  { apply kp_ends; [|eapply can_ends, Hc]. pose proof (fun c' => o_replyConnect c' m (Hor _ E ltac:(repeat constructor))). kg. }
  destruct (String.eqb_spec (m_event m) OnNamespaceDisconnect) as [E|_].
  { apply kp_ends; [|eapply can_ends, Hc]. pose proof (fun c' => o_replyDisconnect c' m (Hor _ E ltac:(repeat constructor))). kg. }
  destruct (String.eqb_spec (m_event m) OnRoomJoin) as [E|_].
  { apply kp_ends; [|eapply can_ends, Hc]. pose proof (fun n => o_replyRoomJoin n m (Hor _ E ltac:(repeat constructor))). pose proof o_try. kg. }
  destruct (String.eqb_spec (m_event m) OnRoomLeave) as [E|_].
  { apply kp_ends; [|eapply can_ends, Hc]. pose proof (fun n => o_replyRoomLeave n m (Hor _ E ltac:(repeat constructor))). pose proof o_try. kg. }
  eapply seq_more; [exact Hc|apply o_try|]. clear l Hc. intros [n|] l Hc; [|apply kp_ends; [kg|eapply can_ends, Hc]].
  rewrite set_local_false by apply Hc. eapply (ok_seq OS omono); [apply fire_ends, Hc|]. intros [e|] l' H; apply kp_ends; auto; kg.
Qed.
Lemma reply_ends m l dup post : can l dup post m -> ok (S := OS) l (handle_reply_or_event G c m) (fun _ l' => ends l' dup post).
Proof.
  intros Hc. unfold handle_reply_or_event. eapply seq_more; [exact Hc|kg|]. clear l Hc. intros [ch|] l Hc; [|apply event_ends, Hc].
  apply kp_ends; [|eapply can_ends, Hc]. pose proof o_send. kg.
Qed.
Lemma message_ends m l dup post : can l dup post m -> ok (S := OS) l (handleMessage G c m) (fun _ l' => ends l' dup post).
Proof.
  intros Hc. unfold handleMessage.
  assert (Hk : forall (p : prog (option gerr)), kp p -> ok (S := OS) l p (fun _ l' => ends l' dup post)) by (intros p Hp; apply kp_ends; [exact Hp|eapply can_ends, Hc]).
  destruct (m_isInvalid m); [apply Hk; kg|]. destruct (m_isNative m && onlyNative G c).
  - eapply seq_more; [exact Hc|apply o_getns|]. clear l Hc Hk. intros [n|] l Hc; [apply fire_ends, Hc|]. apply kp_ends; [kg|eapply can_ends, Hc].
  - assert (Hs : ok (S := OS) l (bind (opr (OSWaitGet (m_wait m))) (fun w => match w with Some ch => bind (send ch m) (fun _ => Ret None) | None => handle_reply_or_event G c m end)) (fun _ l' => ends l' dup post)).
    { eapply seq_more; [exact Hc|kg|]. clear l Hc Hk. intros [ch|] l Hc; [|apply reply_ends, Hc]. apply kp_ends; [|eapply can_ends, Hc]. pose proof o_send. kg. }
    destruct (IsWait _ m); [|apply event_ends, Hc]. destruct (IsClient G c); [apply reply_ends, Hc|]. destruct (g_exch G) as [x|]; [|exact Hs].
    destruct (m_fromStackExchange m); [|exact Hs]. apply Hk. kg.
Qed.
(** A frame of kind [typ]: [todo typ b] is what it adds to the list. *)
Lemma payload_ends typ b l dup td post : l = Rd false true dup td -> suffix post td -> (typ = ty -> suffix (b :: post) td) ->
  ok (S := OS) l (HandlePayload G c typ b) (fun _ l' => ends l' dup post).
Proof.
  intros -> H1 H2. unfold HandlePayload. apply message_ends. change (deserialize G c typ b) with (received G c typ b). split; [apply rcv_local|]. exists td. split; [reflexivity|]. split; [exact H1|].
  rewrite rcv_binary. intros E. assert (typ = ty) as -> by (destruct typ, ty; cbn in E; congruence). destruct (H2 eq_refl) as [pre ->]. exists pre, b. split; reflexivity.
Qed.
Lemma queue_other typ q l dup post : same_kind typ = false -> ends l dup post ->
  ok (S := OS) l (for_all q (fun b => HandlePayload G c typ b ;;; Ret tt)%prog) (fun _ l' => ends l' dup post).
Proof.
  intros Ht. revert l. induction q as [|b q IH]; intros l Hl; cbn [for_all]; [exact Hl|].
  eapply (ok_seq OS omono _ _ _ (fun _ l' => ends l' dup post)); [|intros ? l'; apply IH].
  destruct Hl as (td & -> & Hs). eapply (ok_seq OS omono); [eapply payload_ends; [reflexivity|exact Hs|]|].
  - intros ->. rewrite (proj2 (same_kind_eq ty) eq_refl) in Ht. discriminate.
  - intros r l' H. exact H.
Qed.
Lemma suffix_tail {X} (b : X) q td : suffix (b :: q) td -> suffix q td.
Proof. intros [k ->]. exists (k ++ [b]). rewrite <- app_assoc. reflexivity. Qed.
Lemma queue_same q l dup : ends l dup q ->
  ok (S := OS) l (for_all q (fun b => HandlePayload G c ty b ;;; Ret tt)%prog) (fun _ l' => ends l' dup []).
Proof.
  revert l. induction q as [|b q IH]; intros l Hl; cbn [for_all]; [exact Hl|].
  eapply (ok_seq OS omono _ _ _ (fun _ l' => ends l' dup q)); [|intros ? l'; apply IH].
  destruct Hl as (td & -> & Hs). eapply (ok_seq OS omono); [eapply payload_ends; [reflexivity|eapply suffix_tail, Hs|intros _; exact Hs]|].
  intros r l' H. exact H.
Qed.
Notation qbody := (fun e : mtype * list string => let '(typ, q) := e in
    (for_all q (fun b => HandlePayload G c typ b ;;; Ret tt) ;;; opr (OQDel c typ))%prog).
Lemma queues_other qs l dup post : (forall e, e ∈ qs -> same_kind (fst e) = false) -> ends l dup post ->
  ok (S := OS) l (for_all qs qbody) (fun _ l' => ends l' dup post).
Proof.
  revert l. induction qs as [|[typ q] qs IH]; intros l Hq Hl; cbn [for_all]; [exact Hl|].
  eapply (ok_seq OS omono _ _ _ (fun _ l' => ends l' dup post)); [|intros ? l' H; apply IH; [|exact H]; intros e He; apply Hq; constructor; exact He].
  eapply (ok_seq OS omono); [apply queue_other; [apply (Hq (typ, q)); constructor|exact Hl]|]. intros ? l' H. cbn. left. exact H.
Qed.
Lemma handleQueue_ends td : ok (S := OS) (Rd true true false td) (handleQueue G c) (fun _ l' => exists td', l' = Rd false true false td').
Proof.
  unfold handleQueue. cbn [bind opr ok ls_rule OS orule]. right. split; [reflexivity|]. exists td. split; [reflexivity|]. intros q qs [[-> Hq]|(Hne & a & b & -> & Hq)].
  - eapply (ok_mono OS omono); [|apply (queues_other qs _ false []); [exact Hq|exists []; split; reflexivity]].
    intros ? l' (td' & -> & _). eauto.
  - assert (nonnil q = true) as -> by (destruct q; [contradiction|reflexivity]).
    assert (Hgo : forall l, ends l true q -> ok (S := OS) l (for_all (a ++ (ty, q) :: b) qbody) (fun _ l' => exists td', l' = Rd false true false td')).
    { clear Hne. induction a as [|[typ qa] a IH]; intros l Hl.
      - cbn [app for_all]. eapply (ok_seq OS omono _ _ _ (fun _ l' => ends l' false [])).
        + eapply (ok_seq OS omono); [apply queue_same, Hl|]. intros ? l' (td' & -> & Hs). cbn. right. split; [reflexivity|]. split; [reflexivity|].
          exists false, true, true, td'. split; [reflexivity|]. exists td'. auto.
        + intros ? l' H. eapply (ok_mono OS omono); [|apply (queues_other b _ false []); [exact Hq|exact H]]. intros ? l'' (td' & -> & _). eauto.
      - cbn [app for_all]. eapply (ok_seq OS omono _ _ _ (fun _ l' => ends l' true q)).
        + eapply (ok_seq OS omono); [apply queue_other; [apply (Hq (typ, qa)); constructor|exact Hl]|]. intros ? l' H. cbn. left. exact H.
        + intros ? l' H. apply IH; [|exact H]. intros e He. apply Hq. cbn. constructor. exact He. }
    apply Hgo. exists q. split; reflexivity.
Qed.
(** A label of the reader between two frames. *)
Definition idle (l : lab) : Prop := exists fl hk td, l = Rd fl hk false td.
Lemma idle_more l l' : idle l -> more l l' -> idle l'.
Proof. intros (fl & hk & td & ->) H. destruct l'; try contradiction. cbn in H. destruct H as (-> & -> & -> & _). exists fl, hk0, td. reflexivity. Qed.
Lemma idle_kp {X} (p : prog X) l : kp p -> idle l -> ok (S := OS) l p (fun _ l' => idle l').
Proof. intros Hp Hl. eapply (ok_mono OS omono); [|apply Hp]. intros r l' H. eapply idle_more; eassumption. Qed.
Lemma o_write s bin : kp (write G c s bin).
Proof. apply (write_kp orules o_gates). Qed.
Lemma handleACK_idle typ b hk td : (typ = ty -> suffix [b] td) -> ok (S := OS) (Rd false hk false td) (handleACK G c typ b) (fun _ l' => idle l').
Proof.
  intros Htd. pose proof o_write as HW. pose proof (fun c0 e0 => unwait_kp o_gates c0 e0 (or_introl Logic.I)) as HU. pose proof (fun c0 => wait_kp o_gates c0 Logic.I) as HWt.
  assert (Hid : forall fl hk td, idle (Rd fl hk false td)) by (intros fl' hk' td'; exists fl', hk', td'; reflexivity).
  unfold handleACK. destruct b as [|a rest]; [apply idle_kp; [kg|auto]|].
  destruct (Ascii.eqb a ackBinary).
  - eapply (ok_seq OS omono); [apply idle_kp; [apply HWt|apply Hid]|]. intros [e|] l Hl; [apply idle_kp; [kg|exact Hl]|].
    destruct Hl as (fl & hk' & td' & ->). cbn [bind opr ok ls_rule OS orule]. rewrite Nat.eqb_refl. left. cbn [bind opr ok ls_rule OS orule]. split; [eauto|].
    cbn [bind opr ok ls_rule OS orule]. eapply (ok_seq OS omono); [apply handleQueue_ends|]. intros ? l (td'' & ->). apply idle_kp; [kg|apply Hid].
  - destruct (Ascii.eqb a ackIDBinary).
    + cbn [bind opr ok ls_rule OS orule]. intros _. rewrite Nat.eqb_refl. right. cbn [bind opr ok ls_rule OS orule]. split; [eauto|]. cbn [bind]. apply idle_kp; [kg|apply Hid].
    + destruct (Ascii.eqb a ackNotOKBinary); [apply idle_kp; [kg|apply Hid]|].
      cbn [bind opr ok ls_rule OS orule]. rewrite Nat.eqb_refl. cbn [andb]. destruct (same_kind typ) eqn:E; [|apply Hid].
      apply same_kind_eq in E. destruct (Htd E) as [pre ->]. exists false, hk, false, pre, []. split; [reflexivity|]. apply Hid.
Qed.
Lemma reader_idle l : idle l -> ok (S := OS) l (reader_step G c) (fun _ l' => idle l').
Proof.
  intros (fl & hk & td & ->). unfold reader_step. cbn [bind opr ok ls_rule OS orule]. rewrite Nat.eqb_refl. split; [reflexivity|]. intros r.
  assert (Hid : forall fl hk td, idle (Rd fl hk false td)) by (intros fl' hk' td'; exists fl', hk', td'; reflexivity).
  pose proof (fun c0 e0 => unwait_kp o_gates c0 e0 (or_introl Logic.I)) as HU. destruct r as [e|[typ b]]; [apply idle_kp; [kg|apply Hid]|]. destruct (is_empty b); [apply Hid|].
  assert (Htd : typ = ty -> suffix [b] (todo_of (inr (typ, b)))).
  { intros ->. cbn. rewrite (proj2 (same_kind_eq ty) eq_refl). reflexivity. }
  cbn [bind opr ok ls_rule OS orule]. intros [|]; cbn [andb negb]; [|apply handleACK_idle, Htd].
  rewrite Nat.eqb_refl. cbn [know]. cbn [ok ls_rule OS orule]. intros _.
  eapply (ok_seq OS omono); [eapply (payload_ends typ b _ false _ []); [reflexivity|apply suffix_nil|exact Htd]|].
  intros ? l (td' & -> & _). apply idle_kp; [kg|apply Hid].
Qed.

(** ** The invariant. *)
Definition qof (k : conn) : list string := match ty with TextMessage => c_qtext k | BinaryMessage => c_qbin k end.
Definition hs (w : world) : bool := onlyNative G c || match handshakes c w with 0 => false | _ => true end.
Notation once w := (shook_hands_once G c w).
Notation done w := (handled c ty w).
Notation todo w := (of_kind ty (c_in (conn_of w c))).
Notation got w := (arrived G c ty w).
Record good (w : world) (fl hk dup : bool) (td : list string) : Prop := Good {
  gd_ord : once w -> sublist (done w ++ map rcv ((if hs w && negb fl then [] else qof (conn_of w c)) ++ td ++ todo w)) (got w);
  gd_sub : done w ++ map rcv (td ++ (if dup then [] else qof (conn_of w c)) ++ todo w) ⊆+ got w;
  gd_hk : hk = true -> hs w = true }.
Definition fits (w : world) (l : lab) : Prop :=
  match l with Oth => True | Mk => good w false false false [] | Rd fl hk dup td => good w fl hk dup td end.
Definition holder (l : lab) : bool := match l with Oth => false | _ => true end.
Definition starts (x : tcode) : bool := match x with TReader c' | TReaderLoop c' => Nat.eqb c' c | _ => false end.
Definition pending (w : world) : list tcode := List.filter starts (w_spawn w).
Record Inv (w : world) (Ls : gmap tid lab) : Prop := MkI {
  iv_ord : once w -> sublist (done w) (got w);
  iv_sub : done w ⊆+ got w;
  iv_lab : forall (t : tid) l, Ls !! t = Some l -> fits w l;
  iv_one : forall (t t' : tid) l l', Ls !! t = Some l -> Ls !! t' = Some l' -> holder l = true -> holder l' = true -> t = t';
  iv_sp : pending w = [] \/ (pending w = [TReader c] /\ fits w Mk /\ is_Some (w_conns w !! c) /\ forall (t : tid) l, Ls !! t = Some l -> l = Oth);
  iv_some : forall (t : tid) l, Ls !! t = Some l -> holder l = true -> is_Some (w_conns w !! c);
  iv_none : w_conns w !! c = None -> done w = [];
  iv_acked : c_acked (conn_of w c) = true -> hs w = true;
  iv_nss : forall c' s n, c_nss (conn_of w c') !! s = Some n -> n_conn n = c' }.
(** Steps that change nothing of this for the worse. *)
Record calm (w w' : world) : Prop := Calm {
  cm_some : is_Some (w_conns w !! c) -> is_Some (w_conns w' !! c);
  cm_done : done w' = done w;
  cm_hs : handshakes c w' = handshakes c w;
  cm_fr : (exists pre, c_in (conn_of w c) = pre ++ c_in (conn_of w' c) /\ c_got (conn_of w' c) = c_got (conn_of w c)) \/
          (exists f, c_in (conn_of w' c) = c_in (conn_of w c) ++ [f] /\ c_got (conn_of w' c) = c_got (conn_of w c) ++ [f]);
  cm_q : qof (conn_of w' c) = qof (conn_of w c) \/ qof (conn_of w' c) = [];
  cm_acked : c_acked (conn_of w' c) = true -> c_acked (conn_of w c) = true;
  cm_sp : pending w' = pending w;
  cm_nss : forall c' s n, c_nss (conn_of w' c') !! s = Some n -> c_nss (conn_of w c') !! s = Some n }.
Lemma map_sublist {X Y} (f : X -> Y) a b : sublist a b -> sublist (map f a) (map f b).
Proof. apply (fmap_sublist f). Qed.
Lemma of_kind_app a b : of_kind ty (a ++ b) = of_kind ty a ++ of_kind ty b.
Proof. apply flat_map_app. Qed.
Lemma hs_eq w w' : handshakes c w' = handshakes c w -> hs w' = hs w.
Proof. intros H. unfold hs. rewrite H. reflexivity. Qed.
Lemma once_eq w w' : handshakes c w' = handshakes c w -> once w' -> once w.
Proof. unfold shook_hands_once. intros ->. auto. Qed.
Ltac subl := repeat first [reflexivity | apply sublist_nil_l | apply sublist_app; [subl|] | apply sublist_inserts_l; subl].
Lemma good_calm w w' fl hk dup td : calm w w' -> good w fl hk dup td -> good w' fl hk dup td.
Proof.
  intros [C1 C2 C3 C4 C5 C6 C7 C8] [H1 H2 H3]. pose proof (hs_eq _ _ C3) as E. 
  assert (Hq : forall b : bool, sublist (if b then [] else qof (conn_of w' c)) (if b then [] else qof (conn_of w c))).
  { intros [|]; [constructor|]. destruct C5 as [->| ->]; [reflexivity|apply sublist_nil_l]. }
  assert (Hfr : exists k, sublist (todo w') (todo w ++ k) /\ got w' = got w ++ map rcv k).
  { destruct C4 as [(pre & E1 & E2)|(f & E1 & E2)]; unfold arrived; rewrite E1, E2, of_kind_app; [exists []; rewrite !app_nil_r|eexists (of_kind ty [f]); rewrite of_kind_app, map_app]; split; try reflexivity.
    apply sublist_inserts_l. reflexivity. }
  destruct Hfr as (k & Hk & Hg). constructor; [rewrite Hg|rewrite Hg|].
  - intros Ho. rewrite C2, E. apply (once_eq _ _ C3), H1 in Ho. etransitivity; [|apply sublist_app; [exact Ho|reflexivity]].
    rewrite <- app_assoc, <- map_app. apply sublist_app; [reflexivity|]. apply map_sublist. rewrite <- !app_assoc. apply sublist_app; [apply Hq|]. apply sublist_app; [reflexivity|exact Hk].
  - rewrite C2. etransitivity; [|apply submseteq_app; [exact H2|reflexivity]]. apply sublist_submseteq.
    rewrite <- app_assoc, <- map_app. apply sublist_app; [reflexivity|]. apply map_sublist. rewrite <- !app_assoc. apply sublist_app; [reflexivity|]. apply sublist_app; [apply Hq|exact Hk].
  - rewrite E. exact H3.
Qed.
Lemma good_any w fl dup td : good w fl false dup td -> (once w -> sublist (done w) (got w)) /\ done w ⊆+ got w.
Proof.
  intros [H1 H2 _]. split; [intros Ho; etransitivity; [|apply H1, Ho]|etransitivity; [|apply H2]; apply sublist_submseteq]; apply sublist_inserts_r; reflexivity.
Qed.
Lemma got_calm w w' : calm w w' -> exists k, got w' = got w ++ k.
Proof. intros C. unfold arrived. destruct (cm_fr _ _ C) as [(pre & E1 & E2)|(f & E1 & E2)]; rewrite E2; [exists []; rewrite app_nil_r; reflexivity|rewrite of_kind_app, map_app; eauto]. Qed.
Lemma fits_calm w w' l : calm w w' -> fits w l -> fits w' l.
Proof. intros C. destruct l; cbn; auto; apply good_calm; exact C. Qed.
Lemma inv_calm w w' Ls : Inv w Ls -> calm w w' -> Inv w' Ls.
Proof.
  intros [I1 I2 I3 I4 I5 I6 I7 I8 I9] C. destruct (got_calm _ _ C) as [k Hk]. pose proof C as [C1 C2 C3 C4 C5 C6 C7 C8]. constructor; eauto using fits_calm.
  - intros Ho. rewrite C2, Hk. apply sublist_inserts_r, I1, (once_eq _ _ C3), Ho.
  - rewrite C2, Hk. apply submseteq_inserts_r, I2.
  - rewrite C7. destruct I5 as [I5|(I5 & A1 & A2 & A3)]; [left; exact I5|right]. split; [exact I5|]. split; [eapply fits_calm; eassumption|]. auto.
  - rewrite C2. intros Hn. apply I7. destruct (w_conns w !! c) eqn:E; [|reflexivity]. destruct (C1 ltac:(eauto)) as [x Hx]. congruence.
  - intros Ha. rewrite (hs_eq _ _ C3). auto.
Qed.
Lemma calm_refl w : calm w w.
Proof. constructor; auto. left. exists []. auto. Qed.
Lemma conn_of_upd c0 f w c' : conn_of (upd_conn c0 f w) c' = if decide (c' = c0) then f (conn_of w c0) else conn_of w c'.
Proof. unfold conn_of, upd_conn. cbn. case_decide as E; [subst; rewrite lookup_insert|rewrite lookup_insert_ne by congruence]; reflexivity. Qed.
Lemma some_upd c0 f w : is_Some (w_conns w !! c) -> is_Some (w_conns (upd_conn c0 f w) !! c).
Proof. intros H. unfold upd_conn. cbn. apply lookup_insert_is_Some'. auto. Qed.
Lemma calm_conn c0 f w :
  (c0 = c -> exists pre, c_in (conn_of w c) = pre ++ c_in (f (conn_of w c))) ->
  c_got (f (conn_of w c0)) = c_got (conn_of w c0) ->
  (c0 = c -> qof (f (conn_of w c)) = qof (conn_of w c) \/ qof (f (conn_of w c)) = []) ->
  (c_acked (f (conn_of w c0)) = true -> c_acked (conn_of w c0) = true) ->
  (forall s n, c_nss (f (conn_of w c0)) !! s = Some n -> c_nss (conn_of w c0) !! s = Some n) -> calm w (upd_conn c0 f w).
Proof.
  intros H1 H2 H3 H4 H5. constructor; try reflexivity; try apply some_upd.
  - left. rewrite conn_of_upd. case_decide as E; [subst c0|exists []; auto]. destruct (H1 eq_refl) as [pre Hp]. exists pre. auto.
  - rewrite conn_of_upd. case_decide as E; [subst c0|]; auto.
  - rewrite conn_of_upd. case_decide as E; [subst c0|]; auto.
  - intros c' s n. rewrite conn_of_upd. case_decide as E; [subst c'|]; auto.
Qed.
Lemma calm_same w w' : w_conns w' = w_conns w -> w_log w' = w_log w -> w_spawn w' = w_spawn w -> calm w w'.
Proof.
  intros H1 H2 H3. assert (Hc : forall c, conn_of w' c = conn_of w c) by (intros; unfold conn_of; rewrite H1; reflexivity).
  constructor; try (rewrite ?Hc; auto; fail); try (unfold handled, handshakes, pending; rewrite ?H1, ?H2, ?H3; auto; fail).
  - rewrite Hc. left. exists []. auto.
  - intros c' s n. rewrite Hc. auto.
Qed.
Lemma calm_trans a b d : w_conns b = w_conns a -> w_log b = w_log a -> w_spawn b = w_spawn a -> calm b d -> calm a d.
Proof.
  intros H1 H2 H3 [C1 C2 C3 C4 C5 C6 C7 C8].
  assert (Hc : forall c, conn_of b c = conn_of a c) by (intros; unfold conn_of; rewrite H1; reflexivity).
  rewrite !Hc in *. constructor; auto.
  - rewrite H1 in C1. exact C1.
  - rewrite C2. unfold handled. rewrite H2. reflexivity.
  - rewrite C3. unfold handshakes. rewrite H2. reflexivity.
  - rewrite C7. unfold pending. rewrite H3. reflexivity.
  - intros c' s n H. rewrite <- Hc. eauto.
Qed.
Lemma handled_log w e : handled c ty (w <| w_log ::= cons e |>) = handled c ty w ++ match e with LFire n _ m => if is_handled c ty n m then [m] else [] | _ => [] end.
Proof. unfold handled. cbn. rewrite rev_app_distr. f_equal. destruct e; try reflexivity. destruct (is_handled c ty n m); reflexivity. Qed.
Lemma handshakes_log w e : handshakes c (w <| w_log ::= cons e |>) = match e with LAcked c' => if Nat.eqb c' c then 1 else 0 | _ => 0 end + handshakes c w.
Proof. unfold handshakes. cbn. rewrite app_length. f_equal. destruct e; try reflexivity. destruct (Nat.eqb _ _); reflexivity. Qed.
Lemma calm_log w e : match e with LFire n _ m => is_handled c ty n m = false | LAcked c' => c' <> c | _ => True end -> calm w (w <| w_log ::= cons e |>).
Proof.
  intros H. constructor; auto.
  - rewrite handled_log. destruct e; rewrite ?app_nil_r; try reflexivity. rewrite H, app_nil_r. reflexivity.
  - rewrite handshakes_log. destruct e; try reflexivity. rewrite (proj2 (Nat.eqb_neq _ _) H). reflexivity.
  - left. exists []. auto.
Qed.
Lemma calm_spawn w x : starts x = false -> calm w (w <| w_spawn ::= fun l => l ++ [x] |>).
Proof.
  intros H. constructor; auto; try reflexivity.
  - left. exists []. auto.
  - unfold pending. cbn. rewrite List.filter_app. cbn. rewrite H, app_nil_r. reflexivity.
Qed.
Lemma qof_text k v : ty = BinaryMessage -> qof (k <| c_qtext := v |>) = qof k.
Proof. intros E. unfold qof. rewrite E. reflexivity. Qed.
Lemma neutral_calm t w o w' r : neutral o = true -> ostep t w o = Goes w' r -> calm w w'.
Proof.
  intros Hb H. destruct o; try discriminate Hb; cbn [ostep] in H;
    repeat match goal with
    | H : match ?x with _ => _ end = Goes _ _ |- _ => destruct x eqn:?; try discriminate H
    end; try discriminate H; injection H as <- <-;
    first [apply calm_refl | (apply calm_same; reflexivity)
      | (apply calm_conn; [exists []; reflexivity|reflexivity|left; unfold qof; destruct ty; reflexivity|cbn; auto; fail|cbn; auto; fail])
      | (eapply calm_trans; [reflexivity..|]; apply calm_conn; [exists []; reflexivity|reflexivity|left; unfold qof; destruct ty; reflexivity|cbn; auto; fail|cbn; auto; fail]) | idtac].
  all: try (apply calm_conn; [exists []; reflexivity|reflexivity|left; unfold qof; destruct ty; reflexivity|cbn; auto; fail|]; cbn; intros s n H; apply lookup_delete_Some in H as [_ H]; exact H).
  all: try (apply calm_spawn; match goal with |- starts ?x = false => destruct x; try discriminate Hb; reflexivity end).
  all: try (apply calm_log; match goal with |- match ?e with _ => _ end => destruct e; try discriminate Hb; exact Logic.I end).
  - eapply (calm_trans _ (w <| w_procs ::= <[w_next w:=proc0]> |> <| w_next ::= S |>)); [reflexivity..|].
    apply calm_conn; [exists []; reflexivity|reflexivity|left; unfold qof; destruct ty; reflexivity|cbn; auto; fail|cbn; auto; fail].
  - destruct b; [discriminate Hb|]. apply calm_conn; [exists []; reflexivity|reflexivity|left; unfold qof; destruct ty; reflexivity|discriminate|cbn; auto; fail].
  - eapply (calm_trans _ (upd_srv (fun s => s <| b_msgs := msgs |>) w)); [reflexivity..|]. apply calm_log. exact Logic.I.
Qed.
Lemma env_calm w e : calm w (env_step e w).
Proof.
  destruct e; cbn [env_step]; repeat match goal with |- context [match ?x with _ => _ end] => destruct x eqn:? end;
    first [apply calm_refl | (apply calm_same; reflexivity)
      | (apply calm_conn; [exists []; reflexivity|reflexivity|left; unfold qof; destruct ty; reflexivity|cbn; auto; fail|cbn; auto; fail]) | idtac].
  all: match goal with |- calm _ (upd_conn ?c0 ?f _) => destruct (decide (c0 = c)) as [->|Hne] end.
  all: constructor; try reflexivity; try apply some_upd; rewrite ?conn_of_upd, ?decide_True, ?decide_False by congruence; cbn; auto.
  all: try (right; eexists; split; reflexivity).
  all: try (left; exists []; split; reflexivity).
  all: try (intros c' s n; rewrite conn_of_upd; case_decide; [subst|]; auto).
Qed.
Lemma neutral_rule l o P r : neutral o = true -> orule l o P -> P r l.
Proof. intros Hn. destruct o; try discriminate; cbn; auto; match goal with x : tcode |- _ => destruct x | x : event |- _ => destruct x | x : bool |- _ => destruct x end; try discriminate; cbn; auto. Qed.
(** A new label for a goroutine; it may only become a holder if it was one or
    no other is. *)
Lemma inv_label w (Ls : gmap tid lab) (t : tid) l l' : Inv w Ls -> Ls !! t = Some l -> holder l' = holder l -> fits w l' -> Inv w (<[t := l']> Ls).
Proof.
  intros [I1 I2 I3 I4 I5 I6 I7 I8 I9] Ht Hh Hf. constructor; auto.
  - intros t1 l1 H. apply lookup_insert_Some in H as [[<- <-]|[_ H]]; eauto.
  - intros t1 t2 l1 l2 H1 H2. apply lookup_insert_Some in H1 as [[<- <-]|[_ H1]], H2 as [[<- <-]|[_ H2]]; rewrite ?Hh; eauto.
  - destruct I5 as [I5|(I5 & A1 & A2 & A3)]; [auto|right]. split; [exact I5|]. split; [exact A1|]. split; [exact A2|]. intros t1 l1 H.
    apply lookup_insert_Some in H as [[<- <-]|[_ H]]; [|eauto]. specialize (A3 _ _ Ht) as ->. destruct l'; [reflexivity|discriminate..].
  - intros t1 l1 H. apply lookup_insert_Some in H as [[<- <-]|[_ H]]; [rewrite Hh|]; eauto.
Qed.
(** A step of the holder. *)
Record leads (w w' : world) : Prop := Leads {
  ld_conns : is_Some (w_conns w !! c) -> is_Some (w_conns w' !! c);
  ld_sp : pending w' = pending w;
  ld_acked : c_acked (conn_of w' c) = true -> hs w' = true;
  ld_nss : forall c' s n, c_nss (conn_of w' c') !! s = Some n -> c_nss (conn_of w c') !! s = Some n }.
Lemma inv_lead w w' (Ls : gmap tid lab) (t : tid) fl hk dup td fl' hk' dup' td' : Inv w Ls -> Ls !! t = Some (Rd fl hk dup td) ->
  leads w w' -> good w' fl' hk' dup' td' -> Inv w' (<[t := Rd fl' hk' dup' td']> Ls).
Proof.
  intros [I1 I2 I3 I4 I5 I6 I7 I8 I9] Ht [L1 L2 L3 L4] Hg.
  assert (Hoth : forall (t1 : tid) l1, Ls !! t1 = Some l1 -> t1 <> t -> l1 = Oth).
  { intros t1 l1 H1 Hne. destruct l1; [reflexivity|exfalso; apply Hne; eapply I4; eauto..]. }
  assert (Hs : is_Some (w_conns w' !! c)) by (apply L1; eapply I6; eauto).
  destruct (good_any w' fl' dup' td') as [G1 G2]; [destruct Hg; constructor; auto; discriminate|].
  constructor; auto.
  - intros t1 l1 H. apply lookup_insert_Some in H as [[<- <-]|[Hne H]]; [exact Hg|]. rewrite (Hoth t1 l1) by congruence. exact Logic.I.
  - intros t1 t2 l1 l2 H1 H2 Hh1 Hh2.
    apply lookup_insert_Some in H1 as [[<- <-]|[Hne1 H1]], H2 as [[<- <-]|[Hne2 H2]]; auto;
      [rewrite (Hoth _ _ H2 ltac:(congruence)) in Hh2; discriminate|rewrite (Hoth _ _ H1 ltac:(congruence)) in Hh1; discriminate..].
  - rewrite L2. destruct I5 as [I5|(I5 & A1 & A2 & A3)]; [auto|]. specialize (A3 _ _ Ht). discriminate.
  - intros Hn. rewrite Hn in Hs. destruct Hs; discriminate.
  - eauto.
Qed.
Lemma leads_conn w f : c_acked (f (conn_of w c)) = c_acked (conn_of w c) -> c_nss (f (conn_of w c)) = c_nss (conn_of w c) ->
  (c_acked (conn_of w c) = true -> hs w = true) -> leads w (upd_conn c f w).
Proof.
  intros H1 H2 H3. constructor; try reflexivity; try apply some_upd.
  - rewrite conn_of_upd, decide_True by reflexivity. rewrite H1. exact H3.
  - intros c' s n. rewrite conn_of_upd. case_decide as E; [subst; rewrite H2|]; auto.
Qed.
Lemma inv_setns w Ls c0 s n : Inv w Ls -> n_conn n = c0 -> Inv (upd_conn c0 (fun k => k <| c_nss ::= <[s := n]> |>) w) Ls.
Proof.
  intros HI Hn. set (w1 := upd_conn c0 _ w).
  assert (Hc : forall c', c_in (conn_of w1 c') = c_in (conn_of w c') /\ c_got (conn_of w1 c') = c_got (conn_of w c') /\ qof (conn_of w1 c') = qof (conn_of w c') /\ c_acked (conn_of w1 c') = c_acked (conn_of w c')).
  { intros c'. unfold w1. rewrite conn_of_upd. case_decide; [subst|auto]. unfold qof. destruct ty; auto. }
  destruct HI as [I1 I2 I3 I4 I5 I6 I7 I8 I9].
  assert (Hg : forall fl hk dup td, good w fl hk dup td -> good w1 fl hk dup td).
  { intros fl hk dup td [H1 H2 H3]. destruct (Hc c) as (E1 & E2 & E3 & _). constructor; unfold arrived in *; rewrite ?E1, ?E2, ?E3; auto. }
  assert (Hf : forall l, fits w l -> fits w1 l) by (intros []; cbn; auto). destruct (Hc c) as (E1 & E2 & E3 & E4).
  constructor; eauto.
  - unfold arrived in *. rewrite E2. exact I1.
  - unfold arrived in *. rewrite E2. exact I2.
  - destruct I5 as [I5|(I5 & A1 & A2 & A3)]; [left; exact I5|right]. split; [exact I5|]. split; [apply Hf, A1|]. split; [apply some_upd, A2|exact A3].
  - intros. apply some_upd. eauto.
  - intros H. apply I7. destruct (w_conns w !! c) eqn:E; [|reflexivity]. destruct (some_upd c0 (fun k => k <| c_nss ::= <[s := n]> |>) w ltac:(eauto)) as [x Hx]. unfold w1 in H. congruence.
  - intros c' s' n'. unfold w1. rewrite conn_of_upd. case_decide as D; [subst c'|apply I9]. cbn. intros H. apply lookup_insert_Some in H as [[_ <-]|[_ H]]; eauto.
Qed.
Lemma inv_newother w w' c0 k Ls : c0 <> c -> w_conns w !! c0 = None -> w_conns w' = <[c0 := k]> (w_conns w) -> (forall s n, c_nss k !! s = Some n -> n_conn n = c0) ->
  w_log w' = w_log w -> w_spawn w' = w_spawn w -> Inv w Ls -> Inv w' Ls.
Proof.
  intros Hne Hc0 Hcs Hk Hl Hsp [I1 I2 I3 I4 I5 I6 I7 I8 I9].
  assert (Hcc : w_conns w' !! c = w_conns w !! c) by (rewrite Hcs, lookup_insert_ne by congruence; reflexivity).
  assert (Hc : conn_of w' c = conn_of w c) by (unfold conn_of; rewrite Hcc; reflexivity).
  assert (Hd : done w' = done w) by (unfold handled; rewrite Hl; reflexivity).
  assert (Hh : handshakes c w' = handshakes c w) by (unfold handshakes; rewrite Hl; reflexivity).
  assert (Hg : got w' = got w) by (unfold arrived; rewrite Hc; reflexivity).
  assert (Hf : forall l, fits w l -> fits w' l).
  { intros l H. destruct l; cbn in *; auto; destruct H as [H1 H2 H3]; constructor; unfold shook_hands_once, hs in *; rewrite ?Hd, ?Hg, ?Hc, ?Hh; auto. }
  constructor; unfold pending in *; rewrite ?Hd, ?Hg, ?Hcc, ?Hc, ?Hsp; eauto.
  - unfold shook_hands_once in *. rewrite Hh. exact I1.
  - destruct I5 as [I5|(I5 & A1 & A2 & A3)]; [left; exact I5|right]. auto.
  - intros Ha. rewrite (hs_eq _ _ Hh). auto.
  - intros c' s n. unfold conn_of. rewrite Hcs. destruct (decide (c' = c0)) as [->|Hn]; [rewrite lookup_insert|rewrite lookup_insert_ne by congruence]; [apply Hk|apply I9].
Qed.
Lemma read_calm t w c0 w' r : ostep t w (ORead c0) = Goes w' r -> calm w w'.
Proof.
  cbn [ostep]. intros E. destruct (c_sockclosed (conn_of w c0)); [injection E as <- <-; apply calm_refl|].
  destruct (c_in (conn_of w c0)) as [|f k] eqn:Ei; [destruct (c_inend (conn_of w c0)); [injection E as <- <-; apply calm_refl|discriminate]|].
  injection E as <- <-. apply calm_conn; [|reflexivity|left; unfold qof; destruct ty; reflexivity|cbn; auto|cbn; auto].
  intros ->. exists [f]. cbn. rewrite Ei. reflexivity.
Qed.
Lemma good_upd w f fl hk dup td : c_in (f (conn_of w c)) = c_in (conn_of w c) -> c_got (f (conn_of w c)) = c_got (conn_of w c) -> c_qtext (f (conn_of w c)) = c_qtext (conn_of w c) ->
  c_qbin (f (conn_of w c)) = c_qbin (conn_of w c) -> good w fl hk dup td -> good (upd_conn c f w) fl hk dup td.
Proof.
  intros H1 H2 H3 H4 [G1 G2 G3]. assert (Hq : qof (f (conn_of w c)) = qof (conn_of w c)) by (unfold qof; destruct ty; assumption).
  constructor; unfold arrived in *; rewrite ?conn_of_upd, ?decide_True by reflexivity; rewrite ?H1, ?H2, ?Hq; auto.
Qed.
Lemma good_step w w' (fl hk dup : bool) (td : list string) (fl' hk' dup' : bool) (td' : list string) : good w fl hk dup td -> got w' = got w ->
  (once w' -> once w /\ sublist (done w' ++ map rcv ((if hs w' && negb fl' then [] else qof (conn_of w' c)) ++ td' ++ todo w')) (done w ++ map rcv ((if hs w && negb fl then [] else qof (conn_of w c)) ++ td ++ todo w))) ->
  done w' ++ map rcv (td' ++ (if dup' then [] else qof (conn_of w' c)) ++ todo w') ⊆+ done w ++ map rcv (td ++ (if dup then [] else qof (conn_of w c)) ++ todo w) ->
  (hk' = true -> hs w' = true) -> good w' fl' hk' dup' td'.
Proof.
  intros [G1 G2 G3] Hg H1 H2 H3. constructor; [|etransitivity; [exact H2|rewrite Hg; exact G2]|exact H3].
  intros Ho. destruct (H1 Ho) as [Ho' Hs]. etransitivity; [exact Hs|]. rewrite Hg. auto.
Qed.
Lemma ifq (b b' : bool) (q : list string) : (b' = true -> b = true) -> sublist (if b then [] else q) (if b' then [] else q).
Proof. destruct b, b'; intros H; try reflexivity; [apply sublist_nil_l|discriminate (H eq_refl)]. Qed.
Lemma good_read w fl hk td k r : todo w = todo_of r ++ of_kind ty k -> good w fl hk false td ->
  good (upd_conn c (fun k' => k' <| c_in := k |>) w) false false false (todo_of r).
Proof.
  intros Hk Hg. eapply good_step; [exact Hg| | | |discriminate]; unfold arrived; rewrite conn_of_upd, decide_True by reflexivity; cbn; [reflexivity| |].
  - intros Ho. split; [exact Ho|]. apply sublist_app; [reflexivity|]. apply map_sublist. change (qof (conn_of w c <| c_in := k |>)) with (qof (conn_of w c)). apply sublist_app.
    + apply ifq. unfold hs. cbn. destruct (_ || _); auto.
    + rewrite Hk. apply sublist_inserts_l. reflexivity.
  - change (qof (conn_of w c <| c_in := k |>)) with (qof (conn_of w c)). rewrite Hk, !map_app. solve_submseteq.
Qed.
Lemma good_read0 w fl hk td : good w fl hk false td -> good w false false false [].
Proof.
  intros Hg. eapply good_step; [exact Hg|reflexivity| | |discriminate]; cbn.
  - intros Ho. split; [exact Ho|]. apply sublist_app; [reflexivity|]. apply map_sublist, sublist_app.
    + apply ifq. destruct (hs w); auto.
    + apply sublist_inserts_l. reflexivity.
  - rewrite !map_app. solve_submseteq.
Qed.
Notation push b := (fun k => match ty with TextMessage => k <| c_qtext ::= fun l => l ++ [b] |> | BinaryMessage => k <| c_qbin ::= fun l => l ++ [b] |> end).
Lemma good_push w fl hk dup pre b post : good w fl hk dup (pre ++ b :: post) -> good (upd_conn c (push b) w) fl hk dup post.
Proof.
  intros Hg. assert (Hq : qof (push b (conn_of w c)) = qof (conn_of w c) ++ [b]) by (unfold qof; destruct ty; reflexivity).
  assert (Hi : c_in (push b (conn_of w c)) = c_in (conn_of w c)) by (destruct ty; reflexivity).
  assert (Hgt : c_got (push b (conn_of w c)) = c_got (conn_of w c)) by (destruct ty; reflexivity).
  eapply good_step; [exact Hg| | | |exact (gd_hk _ _ _ _ _ Hg)]; unfold arrived; rewrite conn_of_upd, decide_True by reflexivity; rewrite ?Hgt; [reflexivity| |]; rewrite Hq, Hi.
  - intros Ho. split; [exact Ho|]. apply sublist_app; [reflexivity|]. apply map_sublist. replace (hs (upd_conn c (push b) w)) with (hs w) by reflexivity.
    destruct (hs w && negb fl); cbn; rewrite <- ?app_assoc; [apply sublist_inserts_l, sublist_cons; reflexivity|]. apply sublist_app; [reflexivity|]. cbn. apply sublist_inserts_l. reflexivity.
  - destruct dup; rewrite ?map_app; cbn [app map]; rewrite ?map_app; cbn [app map]; solve_submseteq.
Qed.
Lemma good_range w td : good w true true false td -> good w false true (nonnil (qof (conn_of w c))) (qof (conn_of w c)).
Proof.
  intros Hg. eapply good_step; [exact Hg|reflexivity| | |exact (gd_hk _ _ _ _ _ Hg)].
  - intros Ho. split; [exact Ho|]. rewrite (gd_hk _ _ _ _ _ Hg eq_refl). cbn. apply sublist_app; [reflexivity|]. apply map_sublist, sublist_app; [reflexivity|]. apply sublist_inserts_l. reflexivity.
  - assert ((if nonnil (qof (conn_of w c)) then [] else qof (conn_of w c)) = []) as -> by (destruct (qof (conn_of w c)); reflexivity).
    apply submseteq_app; [reflexivity|]. apply sublist_submseteq, map_sublist. apply sublist_inserts_l. reflexivity.
Qed.
Lemma snap_of w k0 : snap (qof (conn_of w c)) (permute k0 (match c_qtext (conn_of w c) with [] => [] | q => [(TextMessage, q)] end ++
                match c_qbin (conn_of w c) with [] => [] | q => [(BinaryMessage, q)] end)).
Proof.
  set (a := match c_qtext (conn_of w c) with [] => [] | q => [(TextMessage, q)] end). set (b := match c_qbin (conn_of w c) with [] => [] | q => [(BinaryMessage, q)] end).
  pose proof (permute_perm k0 (a ++ b)) as Hp. set (qs := permute k0 (a ++ b)) in *. clearbody qs.
  assert (Hx : exists o, a ++ b ≡ₚ match qof (conn_of w c) with [] => [] | q => [(ty, q)] end ++ o /\ forall e, e ∈ o -> same_kind (fst e) = false).
  { unfold qof. unfold same_kind. destruct ty; [exists b|exists a]; split.
    - reflexivity.
    - unfold b. destruct (c_qbin (conn_of w c)); intros e He; [inversion He|apply elem_of_list_singleton in He as ->; reflexivity].
    - apply Permutation_app_comm.
    - unfold a. destruct (c_qtext (conn_of w c)); intros e He; [inversion He|apply elem_of_list_singleton in He as ->; reflexivity]. }
  destruct Hx as (o & Ho & Hk). rewrite Ho in Hp. destruct (qof (conn_of w c)) as [|x q]; [left|right].
  - split; [reflexivity|]. intros e He. apply Hk. cbn in Hp. rewrite <- Hp. exact He.
  - split; [discriminate|]. cbn in Hp. assert (Hin : (ty, x :: q) ∈ qs) by (rewrite Hp; constructor).
    apply elem_of_list_split in Hin as (q1 & q2 & ->). exists q1, q2. split; [reflexivity|]. intros e He. apply Hk.
    rewrite <- Permutation_middle in Hp. apply Permutation_cons_inv in Hp. rewrite <- Hp. exact He.
Qed.
Notation qdel := (fun k => match ty with TextMessage => k <| c_qtext := [] |> | BinaryMessage => k <| c_qbin := [] |> end).
Lemma good_del w fl hk dup td : good w fl hk dup td -> good (upd_conn c qdel w) fl hk false td.
Proof.
  intros Hg. assert (Hq : qof (qdel (conn_of w c)) = []) by (unfold qof; destruct ty; reflexivity).
  assert (Hi : c_in (qdel (conn_of w c)) = c_in (conn_of w c)) by (destruct ty; reflexivity).
  assert (Hgt : c_got (qdel (conn_of w c)) = c_got (conn_of w c)) by (destruct ty; reflexivity).
  eapply good_step; [exact Hg| | | |exact (gd_hk _ _ _ _ _ Hg)]; unfold arrived; rewrite conn_of_upd, decide_True by reflexivity; rewrite ?Hgt; [reflexivity| |]; rewrite Hq, Hi.
  - intros Ho. split; [exact Ho|]. apply sublist_app; [reflexivity|]. apply map_sublist. apply sublist_app; [|reflexivity]. destruct (_ && _); apply sublist_nil_l.
  - rewrite !map_app. cbn. solve_submseteq.
Qed.
Lemma good_fire w dup pre b post n e : is_handled c ty n (rcv b) = true -> hs w = true -> good w false true dup (pre ++ b :: post) ->
  good (w <| w_log ::= cons (LFire n e (rcv b)) |>) false true dup post.
Proof.
  intros Hh Hs Hg. set (w' := w <| w_log ::= cons (LFire n e (rcv b)) |>).
  assert (Hd : done w' = done w ++ [rcv b]) by (unfold w'; rewrite handled_log, Hh; reflexivity).
  assert (Hc : handshakes c w' = handshakes c w) by (unfold w'; rewrite handshakes_log; reflexivity).
  assert (Hcn : conn_of w' c = conn_of w c) by reflexivity.
  assert (Hs' : hs w' = true) by (rewrite (hs_eq _ _ Hc); exact Hs).
  eapply good_step; [exact Hg| | | |auto]; unfold arrived; rewrite ?Hd, ?Hcn; [reflexivity| |].
  - intros Ho. split; [apply (once_eq _ _ Hc), Ho|]. rewrite Hs, Hs'. cbn. rewrite <- app_assoc. apply sublist_app; [reflexivity|].
    change ([rcv b] ++ map rcv (post ++ todo w)) with (map rcv (b :: post ++ todo w)). apply map_sublist. rewrite <- app_assoc. apply sublist_inserts_l. reflexivity.
  - destruct dup; rewrite ?map_app; cbn; rewrite ?map_app; cbn; solve_submseteq.
Qed.
Lemma good_ack w fl hk dup td fl' : good w fl hk dup td -> good (w <| w_log ::= cons (LAcked c) |>) fl' true dup td.
Proof.
  intros Hg. set (w' := w <| w_log ::= cons (LAcked c) |>).
  assert (Hd : done w' = done w) by (unfold w'; rewrite handled_log, app_nil_r; reflexivity).
  assert (Hc : handshakes c w' = S (handshakes c w)) by (unfold w'; rewrite handshakes_log, Nat.eqb_refl; reflexivity).
  assert (Hcn : conn_of w' c = conn_of w c) by reflexivity.
  assert (Hs' : hs w' = true) by (unfold hs; rewrite Hc; apply orb_true_r).
  eapply good_step; [exact Hg| | | |auto]; unfold arrived; rewrite ?Hd, ?Hcn; [reflexivity| |reflexivity].
  intros Ho. unfold shook_hands_once in Ho. rewrite Hc in Ho. assert (Hn : onlyNative G c = false) by (destruct (onlyNative G c); [lia|reflexivity]). rewrite Hn in Ho.
  assert (H0 : handshakes c w = 0) by lia. assert (Hs : hs w = false) by (unfold hs; rewrite Hn, H0; reflexivity).
  split; [unfold shook_hands_once; rewrite Hn; lia|]. rewrite Hs, Hs'. cbn. apply sublist_app; [reflexivity|]. apply map_sublist. apply sublist_app; [|reflexivity]. destruct (negb fl'); [apply sublist_nil_l|reflexivity].
Qed.
Lemma inv_new w (Ls : gmap tid lab) (t : tid) : Ls !! t = None -> Inv w Ls -> Inv w (<[t := Oth]> Ls).
Proof.
  intros Ht [I1 I2 I3 I4 I5 I6 I7 I8 I9]. constructor; auto.
  - intros t1 l1 H. apply lookup_insert_Some in H as [[<- <-]|[_ H]]; [exact Logic.I|eauto].
  - intros t1 t2 l1 l2 H1 H2 Hh1 Hh2. apply lookup_insert_Some in H1 as [[<- <-]|[_ H1]], H2 as [[<- <-]|[_ H2]]; try discriminate; eauto.
  - destruct I5 as [I5|(I5 & A1 & A2 & A3)]; [auto|right]. repeat (split; [assumption|]). intros t1 l1 H. apply lookup_insert_Some in H as [[<- <-]|[_ H]]; eauto.
  - intros t1 l1 H Hh. apply lookup_insert_Some in H as [[<- <-]|[_ H]]; [discriminate|eauto].
Qed.
Lemma order_op t w Ls l o (P : res o -> lab -> Prop) : Inv w Ls -> Ls !! t = Some l -> orule l o P ->
  match ostep t w o with
  | Goes w' r => exists l', Inv w' (<[t := l']> Ls) /\ P r l'
  | _ => True
  end.
Proof.
  intros HI Ht HP. destruct (ostep t w o) as [w' r| |why] eqn:E; auto.
  destruct (neutral o) eqn:En.
  { exists l. rewrite insert_id by exact Ht. split; [eapply inv_calm; [exact HI|eapply neutral_calm; eassumption]|eapply neutral_rule; eassumption]. }
  assert (Hfit : fits w l) by (eapply (iv_lab _ _ HI); eassumption).
  assert (Hsame : forall w1, calm w w1 -> Inv w1 (<[t := l]> Ls)) by (intros w1 C; rewrite insert_id by exact Ht; eapply inv_calm; eassumption).
  pose proof (iv_acked _ _ HI) as Hack.
  destruct o; try discriminate En; cbn [ostep] in E.
  - (* OGetNs *) injection E as <- <-. exists l. split; [apply Hsame, calm_refl|]. apply HP. intros n. apply (iv_nss _ _ HI).
  - (* OSetNs *) injection E as <- <-. destruct HP as [Hn HP]. exists l. rewrite insert_id by exact Ht. split; [|exact HP]. apply inv_setns; assumption.
  - (* ONewNs *) injection E as <- <-. exists l. split; [|apply HP; reflexivity]. apply Hsame, calm_same; reflexivity.
  - (* OIsAcked *) injection E as <- <-. eexists. split; [|apply HP]. destruct (Nat.eqb_spec c0 c) as [->|Hne]; [|rewrite andb_false_r; apply Hsame, calm_refl].
    destruct (c_acked (conn_of w c)) eqn:Ea; [|apply Hsame, calm_refl]. cbn [andb]. destruct l; try apply Hsame, calm_refl. cbn [know].
    eapply inv_label; [exact HI|exact Ht|reflexivity|]. destruct Hfit as [H1 H2 H3]. constructor; auto.
  - (* OSetAcked *) destruct b; [|discriminate En]. injection E as <- <-. destruct HP as [Hc HP]. destruct (decide (c0 = c)) as [->|Hne].
    + destruct (Hc eq_refl) as (fl & dup & td & ->). eexists. split; [|exact HP].
      assert (Hh : hs w = true) by (apply (gd_hk _ _ _ _ _ Hfit); reflexivity).
      eapply inv_lead; [exact HI|exact Ht| |].
      * constructor; try reflexivity; try apply some_upd; [intros _; exact Hh|]. intros c' s n. rewrite conn_of_upd. case_decide as D; [subst|]; auto.
      * destruct Hfit as [H1 H2 H3]. apply good_upd; [reflexivity..|]. constructor; auto.
    + exists l. split; [|exact HP]. apply Hsame. constructor; try reflexivity; try apply some_upd; rewrite ?conn_of_upd, ?decide_False by congruence; auto.
      * left. exists []. auto.
      * intros c' s n. rewrite conn_of_upd. case_decide as D; [subst|]; auto.
  - (* ORead *) destruct (decide (c0 = c)) as [->|Hne].
    + destruct l as [| |fl hk dup td].
      * exists Oth. split; [|apply HP]. apply Hsame. eapply (read_calm t), E.
      * exists Mk. split; [|apply HP]. apply Hsame. eapply (read_calm t), E.
      * cbn in HP. rewrite Nat.eqb_refl in HP. destruct HP as [-> HP]. eexists. split; [|apply HP]. clear HP.
        assert (Hx : exists k, w' = upd_conn c (fun k' => k' <| c_in := k |>) w /\ todo w = todo_of r ++ of_kind ty k \/ w' = w /\ todo_of r = []).
        { destruct (c_sockclosed (conn_of w c)); [injection E as <- <-; exists []; right; auto|].
          destruct (c_in (conn_of w c)) as [|f k] eqn:Ei; [destruct (c_inend (conn_of w c)); [injection E as <- <-; exists []; right; auto|discriminate]|].
          injection E as <- <-. exists k. left. split.
          - unfold upd_conn. f_equal. f_equal. cbn. change (conn_of w c <| c_in ::= @tl (mtype * string) |>) with (conn_of w c <| c_in := tl (c_in (conn_of w c)) |>). rewrite Ei. reflexivity.
          - destruct f as [typ b]. cbn. unfold same_kind. reflexivity. }
        destruct Hx as (k & [(-> & Hk)|(-> & Hk)]); (eapply inv_lead; [exact HI|exact Ht| |]).
        -- apply leads_conn; [reflexivity|reflexivity|exact Hack].
        -- eapply good_read; [exact Hk|exact Hfit].
        -- constructor; auto.
        -- rewrite Hk. eapply good_read0, Hfit.
    + exists l. split; [|destruct l; cbn in HP; try (rewrite (proj2 (Nat.eqb_neq _ _) Hne) in HP); apply HP]. apply Hsame. eapply (read_calm t), E.
  - (* OQPush *) injection E as <- <-. destruct (Nat.eqb c0 c && same_kind typ) eqn:D.
    + apply andb_true_iff in D as [D1 D2]. apply Nat.eqb_eq in D1 as ->. apply same_kind_eq in D2 as ->. cbn in HP. rewrite Nat.eqb_refl, (proj2 (same_kind_eq ty) eq_refl) in HP. cbn in HP.
      destruct HP as (fl & hk & dup & pre & post & -> & HP). eexists. split; [|exact HP].
      eapply inv_lead; [exact HI|exact Ht| |].
      * apply leads_conn; [destruct ty; reflexivity|destruct ty; reflexivity|exact Hack].
      * apply good_push with (pre := pre). exact Hfit.
    + exists l. split; [|cbn in HP; rewrite D in HP; exact HP]. apply Hsame. apply calm_conn; [intros _; exists []; destruct typ; reflexivity|destruct typ; reflexivity| |destruct typ; cbn; auto|destruct typ; cbn; auto].
      intros ->. rewrite Nat.eqb_refl in D. cbn in D. left. unfold qof, same_kind in *. destruct typ, ty; try discriminate D; reflexivity.
  - (* OQRange *) injection E as <- <-. assert (Hc : calm w (pop_seed w)) by (apply calm_same; reflexivity). destruct HP as [HP|(-> & td & -> & HP)].
    + exists l. split; [apply Hsame, Hc|apply HP].
    + eexists. split; [|apply (HP (qof (conn_of w c)))].
      * eapply inv_lead; [exact HI|exact Ht|constructor; auto|]. apply (good_calm w); [exact Hc|]. apply good_range with (td := td). exact Hfit.
      * apply snap_of.
  - (* OQDel *) injection E as <- <-.
    destruct HP as [HP|(-> & -> & fl & hk & dup & td & -> & HP)]; (eexists; split; [|exact HP]).
    + apply Hsame. apply calm_conn; [intros _; exists []; destruct typ; reflexivity|destruct typ; reflexivity| |destruct typ; cbn; auto|destruct typ; cbn; auto].
      intros _. unfold qof. destruct typ, ty; auto.
    + eapply inv_lead; [exact HI|exact Ht| |].
      * apply leads_conn; [destruct ty; reflexivity|destruct ty; reflexivity|exact Hack].
      * apply good_del with (dup := dup). exact Hfit.
  - (* ONewConn *) destruct (w_conns w !! c0) eqn:Ec; [discriminate E|]. cbn in HP. destruct (Nat.eqb_spec c0 c) as [->|Hne].
    + destruct HP as (-> & -> & HP). exists Mk. split; [|destruct (onlyNative G c); injection E as <- <-; exact HP].
      pose proof HI as [I1 I2 I3 I4 I5 I6 I7 I8 I9]. specialize (I7 Ec).
      assert (Hoth : forall (t1 : tid) l1, Ls !! t1 = Some l1 -> l1 = Oth).
      { intros t1 l1 H1. destruct l1; [reflexivity|destruct (I6 _ _ H1 eq_refl); congruence..]. }
      assert (Hk : exists k, w_conns w' = <[c := k]> (w_conns w) /\ c_in k = [] /\ c_got k = [] /\ qof k = [] /\ (c_acked k = true -> onlyNative G c = true) /\
        (forall s n, c_nss k !! s = Some n -> n_conn n = c)).
      { destruct (onlyNative G c); injection E as <- <-; eexists; (split; [reflexivity|]); repeat (split; [try reflexivity; try (unfold qof; destruct ty; reflexivity)|]); cbn; auto.
        - intros s n H. apply lookup_singleton_Some in H as [_ <-]. reflexivity.
        - intros s n H. rewrite lookup_empty in H. discriminate. }
      assert (Hl : w_log w' = w_log w /\ w_spawn w' = w_spawn w) by (destruct (onlyNative G c); injection E as <- <-; split; reflexivity). clear E HP.
      destruct Hk as (k & Hcs & K1 & K2 & K3 & K4 & K5), Hl as [Hl1 Hl2].
      assert (Hcn : conn_of w' c = k) by (unfold conn_of; rewrite Hcs, lookup_insert; reflexivity).
      assert (Hd : done w' = []) by (unfold handled in *; rewrite Hl1; exact I7).
      assert (Hg : good w' false false false []).
      { constructor; [intros _| |discriminate]; unfold arrived; rewrite Hd, Hcn, K1, K2, K3; [destruct (_ && _)|]; reflexivity. }
      assert (Hs : is_Some (w_conns w' !! c)) by (rewrite Hcs, lookup_insert; eauto).
      constructor; auto.
      * intros _. rewrite Hd. apply sublist_nil_l.
      * rewrite Hd. apply submseteq_nil_l.
      * intros t1 l1 H. apply lookup_insert_Some in H as [[<- <-]|[_ H]]; [exact Hg|]. rewrite (Hoth _ _ H). exact Logic.I.
      * intros t1 t2 l1 l2 H1 H2 Hh1 Hh2.
        apply lookup_insert_Some in H1 as [[<- <-]|[Hne1 H1]], H2 as [[<- <-]|[Hne2 H2]]; auto;
          [rewrite (Hoth _ _ H2) in Hh2; discriminate|rewrite (Hoth _ _ H1) in Hh1; discriminate..].
      * left. unfold pending. rewrite Hl2. destruct I5 as [I5|(_ & _ & [x Hx] & _)]; [exact I5|congruence].
      * rewrite Hcn. intros Ha. unfold hs. rewrite (K4 Ha). reflexivity.
      * intros c' s n. unfold conn_of. rewrite Hcs. destruct (decide (c' = c)) as [->|Hn]; [rewrite lookup_insert|rewrite lookup_insert_ne by congruence]; [apply K5|apply I9].
    + exists l. rewrite insert_id by exact Ht. split; [|destruct native_only; injection E as <- <-; exact HP].
      assert (Hk : exists k, w_conns w' = <[c0 := k]> (w_conns w) /\ (forall s n, c_nss k !! s = Some n -> n_conn n = c0)).
      { destruct native_only; injection E as <- <-; eexists; (split; [reflexivity|]); cbn.
        - intros s n H. apply lookup_singleton_Some in H as [_ <-]. reflexivity.
        - intros s n H. rewrite lookup_empty in H. discriminate. }
      assert (Hl : w_log w' = w_log w /\ w_spawn w' = w_spawn w) by (destruct native_only; injection E as <- <-; split; reflexivity). clear E HP.
      destruct Hk as (k & Hcs & K5), Hl as [Hl1 Hl2]. apply (inv_newother w w' c0 k); auto.
  - (* OSpawn *) injection E as <- <-. destruct code; try discriminate En; cbn in HP.
    + destruct (Nat.eqb_spec c0 c) as [->|Hne].
      * destruct HP as [-> HP]. exists Oth. split; [|exact HP]. pose proof HI as [I1 I2 I3 I4 I5 I6 I7 I8 I9].
        assert (Hoth : forall (t1 : tid) l1, Ls !! t1 = Some l1 -> t1 <> t -> l1 = Oth).
        { intros t1 l1 H1 Hn. destruct l1; [reflexivity|exfalso; apply Hn; eapply I4; eauto..]. }
        constructor; auto.
        -- intros t1 l1 H. apply lookup_insert_Some in H as [[<- <-]|[Hn H]]; [exact Logic.I|]. rewrite (Hoth _ _ H ltac:(congruence)). exact Logic.I.
        -- intros t1 t2 l1 l2 H1 H2 Hh1 Hh2. apply lookup_insert_Some in H1 as [[<- <-]|[Hne1 H1]]; [discriminate|]. rewrite (Hoth _ _ H1 ltac:(congruence)) in Hh1. discriminate.
        -- right. destruct I5 as [I5|(I5 & _ & _ & A3)]; [|specialize (A3 _ _ Ht); discriminate]. split; [|split; [destruct Hfit as [H1 H2 H3]; constructor; assumption|]].
           ++ unfold pending in *. cbn. rewrite List.filter_app, I5. cbn. rewrite Nat.eqb_refl. reflexivity.
           ++ split; [eapply I6; eauto|]. intros t1 l1 H. apply lookup_insert_Some in H as [[<- <-]|[Hn H]]; [reflexivity|]. apply (Hoth _ _ H). congruence.
        -- intros t1 l1 H Hh. apply lookup_insert_Some in H as [[<- <-]|[Hn H]]; [discriminate|]. eapply I6; eauto.
      * exists l. split; [|exact HP]. apply Hsame, calm_spawn. cbn. apply Nat.eqb_neq, Hne.
    + destruct HP as [Hne HP]. exists l. split; [|exact HP]. apply Hsame, calm_spawn. cbn. apply Nat.eqb_neq, Hne.
  - (* OLog *) injection E as <- <-. destruct e; try discriminate En; cbn in HP.
    + destruct (is_handled c ty n m) eqn:D.
      * destruct HP as (dup & pre & b & post & -> & -> & HP). eexists. split; [|exact HP].
        assert (Hh : hs w = true) by (apply (gd_hk _ _ _ _ _ Hfit); reflexivity).
        eapply inv_lead; [exact HI|exact Ht| |].
        -- constructor; auto.
        -- eapply good_fire; eassumption.
      * exists l. split; [|exact HP]. apply Hsame, calm_log, D.
    + destruct (Nat.eqb_spec c0 c) as [->|Hne].
      * destruct l as [| |fl hk dup td]; try contradiction.
        assert (Hl : leads w (w <| w_log ::= cons (LAcked c) |>)).
        { constructor; auto. intros _. unfold hs. rewrite handshakes_log, Nat.eqb_refl. cbn. apply orb_true_r. }
        destruct HP as [HP|HP]; (eexists; split; [eapply inv_lead; [exact HI|exact Ht|exact Hl|]|exact HP]); eapply good_ack, Hfit.
      * exists l. split; [|exact HP]. apply Hsame, calm_log, Hne.
Qed.

Lemma start_oth t l : ostart t l -> (forall c', t <> TReader c' /\ t <> TReaderLoop c') -> l = Oth.
Proof. intros H Hn. destruct t; try exact H; destruct (Hn c0) as [H1 H2]; congruence. Qed.
Lemma oth_more l l' : l = Oth -> more l l' -> l' = Oth.
Proof. intros ->. apply more_oth. Qed.
Lemma order_code x l : ostart x l -> ok (S := OS) l (code G x) after.
Proof.
  intros Hs. assert (Hd : x = TReaderLoop c \/ x <> TReaderLoop c) by (destruct x as [| |c'| | | | | | |]; try (right; discriminate); destruct (decide (c' = c)); [left|right]; congruence).
  destruct Hd as [->|Hne].
  - cbn in Hs. rewrite Nat.eqb_refl in Hs. cbn [code]. eapply (ok_seq OS omono); [apply reader_idle, Hs|]. intros r l' Hl. destruct r.
    + cbn. rewrite Nat.eqb_refl. exact Hl.
    + eapply (ok_seq OS omono); [apply (Close_kp orules o_gates)|]. intros r l'' _. cbn. exact Logic.I.
  - destruct (match x with TReaderLoop _ => true | _ => false end) eqn:Ex.
    + destruct x as [| |c'| | | | | | |]; try discriminate Ex. cbn in Hs. assert (Hc : c' <> c) by congruence. rewrite (proj2 (Nat.eqb_neq _ _) Hc) in Hs. subst l. cbn [code].
      eapply (ok_seq OS omono).
      { apply (reader_step_kpp orules o_gates); auto using o_ask, o_reply, o_message, o_ack, o_waitm, o_broadcast, o_srvask; intros; try exact Logic.I; eauto using o_waitm. }
      intros r l' Hl. apply more_oth in Hl as ->. destruct r; [cbn; rewrite (proj2 (Nat.eqb_neq _ _) Hc); reflexivity|].
      eapply (ok_seq OS omono); [apply (Close_kp orules o_gates)|]. intros r l'' _. cbn. exact Logic.I.
    + apply (code_other_kp orules o_gates); auto using o_ask, o_reply, o_message, o_ack, o_waitm, o_broadcast, o_srvask, o_server; try (intros; exact Logic.I).
      * cbn. intros l0 -> _. reflexivity.
      * intros c' l0 E. cbn in E. subst l0. intros Hu Hf. apply o_upgrade; auto.
      * intros c' l0 E. cbn in E. subst l0. intros Hd. apply o_dial; auto.
      * intros c' ch l0 E. cbn in E. subst l0. apply o_next.
      * cbn. intros c' l0 l' H Hm. destruct (Nat.eqb c' c); [|subst; apply more_oth, Hm]. exact (idle_more _ _ H Hm).
      * intros c' ->. discriminate.
Qed.
Lemma order_respects : respects OS G Inv.
Proof.
  constructor.
  - intros t w Ls l o P HI Ht HP. pose proof (order_op t w Ls l o P HI Ht HP) as H. destruct (ostep t w o); auto.
  - intros t w Ls l a HI Ht _ Ha. exists l. rewrite insert_id by exact Ht. split; [exact HI|].
    apply (impl_kp orules o_gates); auto using o_ask, o_reply, o_message, o_ack, o_waitm, o_broadcast, o_srvask; try (intros; exact Logic.I).
    destruct a; cbn; auto; destruct n; auto.
  - apply order_code.
  - intros t w Ls l [I1 I2 I3 I4 I5 I6 I7 I8 I9] Ht _. constructor; auto.
    + intros t' l' H. apply lookup_delete_Some in H as [_ H]. eauto.
    + intros t1 t2 l1 l2 H1 H2. apply lookup_delete_Some in H1 as [_ H1], H2 as [_ H2]. eauto.
    + destruct I5 as [I5|(I5 & A1 & A2 & A3)]; [auto|right]. repeat (split; [assumption|]). intros t' l' H. apply lookup_delete_Some in H as [_ H]. eauto.
    + intros t' l' H. apply lookup_delete_Some in H as [_ H]. eauto.
  - intros t w Ls x rest HI Hsp Ht. destruct (starts x) eqn:Ex.
    + pose proof HI as [I1 I2 I3 I4 I5 I6 I7 I8 I9]. assert (Hp : pending w = x :: List.filter starts rest) by (unfold pending; rewrite Hsp; cbn; rewrite Ex; reflexivity).
      destruct I5 as [I5|(I5 & A1 & A2 & A3)]; [congruence|]. rewrite Hp in I5. injection I5 as -> Hr.
      exists (Rd false false false []). split; [cbn; rewrite Nat.eqb_refl; eauto|].
      assert (Hg : good (w <| w_spawn := rest |>) false false false []) by (destruct A1 as [H1 H2 H3]; constructor; assumption).
      constructor; auto.
      * intros t1 l1 H. apply lookup_insert_Some in H as [[<- <-]|[_ H]]; [exact Hg|]. rewrite (A3 _ _ H). exact Logic.I.
      * intros t1 t2 l1 l2 H1 H2 Hh1 Hh2. apply lookup_insert_Some in H1 as [[<- <-]|[Hne1 H1]], H2 as [[<- <-]|[Hne2 H2]]; auto;
          [rewrite (A3 _ _ H2) in Hh2; discriminate|rewrite (A3 _ _ H1) in Hh1; discriminate..].
    + exists Oth. split; [destruct x; cbn in *; try reflexivity; rewrite Ex; reflexivity|].
      apply inv_new; [exact Ht|]. eapply inv_calm; [exact HI|]. constructor; auto; try reflexivity; [left; exists []; auto|].
      unfold pending. rewrite Hsp. cbn. rewrite Ex. reflexivity.
  - intros t w Ls x HI Hs Ht. exists Oth. split; [destruct x; try discriminate Hs; reflexivity|]. apply inv_new; assumption.
  - intros w Ls e HI _. eapply inv_calm; [exact HI|apply env_calm].
Qed.
Lemma order_start : exists l, ls_start OS TServer l /\ Inv world0 {[0 := l]}.
Proof.
  exists Oth. split; [reflexivity|]. constructor.
  - intros _. apply sublist_nil_l.
  - apply submseteq_nil_l.
  - intros t l H. apply lookup_singleton_Some in H as [_ <-]. exact Logic.I.
  - intros t t' l l' H _ Hh. apply lookup_singleton_Some in H as [_ <-]. discriminate.
  - left. reflexivity.
  - intros t l H Hh. apply lookup_singleton_Some in H as [_ <-]. discriminate.
  - reflexivity.
  - unfold conn_of, world0. cbn. rewrite lookup_empty. discriminate.
  - intros c' s n. unfold conn_of, world0. cbn. rewrite lookup_empty. cbn. rewrite lookup_empty. discriminate.
Qed.
Lemma order_reachable s : reachable G s -> holds OS Inv s.
Proof. exact (fun Hr => reachable_holds OS omono G Inv order_respects s order_start Hr). Qed.
Lemma order_main s : reachable G s -> (once (s_w s) -> sublist (done (s_w s)) (got (s_w s))) /\ done (s_w s) ⊆+ got (s_w s).
Proof. intros Hr. destruct (order_reachable s Hr) as (_ & Ls & [I1 I2 _ _ _ _ _ _ _] & _). auto. Qed.
End order.
