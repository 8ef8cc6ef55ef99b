(** * FrameW.v : most functions of the library, for a program logic in which
    most operations only increase what a goroutine knows.  As Frame.v, and a
    goroutine must also know that it may send what it writes to a socket.

    [plain] operations must be such operations.  The others, and the functions
    that use them, are hypotheses: they are checked by hand for each instance.
    An instance may demand that a goroutine knows something before it fires
    callbacks ([vn]), creates namespaces ([vx]) or handles messages ([vh]). *)
From Coq Require Import ZArith Ascii.
From stdpp Require Import gmap strings list relations.
From RecordUpdate Require Import RecordUpdate.
From Verif Require Import Go Errors Message Spec_Wire World Lang Code Sem Logic Spec_App Spec_Admit CodecProofs.

Definition plain (o : op) : bool :=
  match o with
  | OGetNs _ _ | OSetNs _ _ _ | ONsRange _ | ONewNs _ _ | OAddRoom _ _ | ORoomLock _ | ORoomUnlock _ | ORoomRLock _ | ORoomRUnlock _
  | OHasRoom _ _ | ODelRoom _ _ | ORoomRange _ | ORead _ | OIsAcked _ | OSetAcked _ _ | OCasClosed _
  | ONewChan _ | OWaitPut _ _ _ | OSWaitPut _ _ | OWaitGet _ _ | OSWaitGet _ | OChSend _ _ | OChSent _ _ | OSelect _ _
  | OSrvSelect | OBcSend _ | OSAdd _ | OSMem _ | OSDel _ | OSCountAdd _ | OSConnSend _ | OActDone _ | OSClosedReset | ONewConn _ _ _
  | OSockWrite _ _ _ | OBSet _ | OBSwap | OBClose _ | OBGet | OBAwaiter | OBSelect _ _
  | OWReady _ | OWErr _ | OWSetErr _ _ | OWSetReady _ | OWCasLock _ | OWCasUnlock _ | OWClose _ | OWRecv _
  | OProcGet _ _ | OProcNew _ _ | OProcAdd _ | OProcDoneCas _ | OProcDone _ | OProcIsDone _ | OProcWait _ | OProcWoken _ _
  | OQPush _ _ _ | OSetId _ _
  | OSpawn (TReadNext _ _) | OSpawn (TReader _) | OSpawn (TReaderLoop _) | OSpawn (TWaitMessages _) | OSpawn TServer | OSpawn TServerLoop | OSpawn (TUpgrade _)
  | OSpawn (TDisconnect _) | OSDiscSend _ | OCloseCh _ | OSockClose _
  | OLog (LFire _ _ _) | OLog (LAsk _ _) | OLog (LDo _ _)
  | OLog (LAskReply _ _ _ _) | OLog (LServerReply _ _) | OLog (LAcked _) | OLog (LSrv _) | OLog (LOnDisconnect _)
  | OLog (LBatch _ _) | OLog (LBcast _) | OLog (LDial _ _ _) | OLog (LUpgraded _ _) => false
  | _ => true
  end.

(** The operations on the rooms of a NSConn, except for adding one. *)
Definition room_op (o : op) : option nsref :=
  match o with
  | ORoomLock n | ORoomUnlock n | ORoomRLock n | ORoomRUnlock n | OHasRoom n _ | ODelRoom n _ | ORoomRange n => Some n
  | _ => None
  end.

(** The token of a received message is a field of the frame. *)
Lemma cut_clean c s a b : cut c s = Some (a, b) -> count_char c a = 0.
Proof.
  revert a b. induction s as [|x s IH]; cbn [cut]; intros a b H; [discriminate|]. destruct (Ascii.eqb x c) eqn:E; [injection H as <- <-; reflexivity|].
  destruct (cut c s) as [[a' b']|]; [|discriminate]. injection H as <- <-. cbn. rewrite E. eauto.
Qed.
Lemma split_clean n s a b rest : splitN n sep s = a :: b :: rest -> no_semicolon a.
Proof.
  destruct n as [|[|n]]; cbn [splitN]; intros H; try discriminate. destruct (cut sep s) as [[a' b']|] eqn:E; [|discriminate]. injection H as -> _.
  exact (cut_clean _ _ _ _ E).
Qed.
Lemma count_drop n s : count_char ";" s = 0 -> count_char ";" (Go.drop n s) = 0.
Proof. revert s. induction n as [|n IH]; intros [|x s] H; cbn in *; auto. destruct (Ascii.eqb x ";"); [discriminate|auto]. Qed.
Lemma byte_clean x : Ascii.eqb x ";" = false -> count_char ";" (string_of_byte x) = 0.
Proof. destruct x as [[|] [|] [|] [|] [|] [|] [|] [|]]; vm_compute; congruence. Qed.
Lemma wait_clean G c typ b : no_semicolon (m_wait (deserialize G c typ b)).
Proof.
  unfold deserialize, DeserializeMessage.
  assert (Hi : no_semicolon (i_wait (deserializeInput (g_known G) b (allowNative G c) (onlyNative G c)))).
  { unfold deserializeInput. destruct (is_empty b); [reflexivity|]. destruct (onlyNative G c); [reflexivity|].
    assert (Hn : no_semicolon (i_wait (if allowNative G c then Input "" "" "" OnNativeMessage b false false None else Input "" "" "" "" "" false true None))) by (destruct (allowNative G c); reflexivity).
    destruct (splitN validMessageSepCount sep b) as [|w [|n [|r [|e [|x [|y [|p [|? ?]]]]]]]] eqn:E; try exact Hn. apply split_clean in E.
    destruct (is_empty p); [exact E|]. destruct (String.eqb x trueByte); exact E. }
  destruct (isServerConnID _); [|].
  - cbn. reflexivity.
  - cbn [m_wait]. destruct (_ && _); [|exact Hi]. destruct (i_wait _) as [|x s]; [exact Hi|]. unfold no_semicolon in *. cbn [count_char string_of_byte append] in *.
    rewrite count_app. destruct (Ascii.eqb x ";") eqn:Ex; [discriminate|]. rewrite (byte_clean x Ex). apply (count_drop 1), Hi.
Qed.

(** A frame of the handshake, an empty reply, or a message that is allowed: [who] may send, [nm] has the name, [hr] is in the room. *)
Definition msg_ok (who : nsref -> Prop) (nm hr : nsref -> string -> Prop) (m : message) : Prop :=
  isConnect m || isDisconnect m = true \/
  exists n, who n /\ nm n (m_namespace m) /\ (negb (is_empty (m_room m)) && negb (isRoomJoin m) && negb (isRoomLeft m) = true -> hr n (m_room m)).
Definition shake (b : string) : Prop := match b with String h _ => h = ackBinary \/ h = ackIDBinary \/ h = ackNotOKBinary | EmptyString => False end.
Definition frame_ok (who : nsref -> Prop) (nm hr : nsref -> string -> Prop) (b : string) : Prop :=
  shake b \/ (exists tok, no_semicolon tok /\ b = genEmptyReplyToWait tok) \/ exists m, serializeMessage (set_fromExplicit "" m) = Ok b /\ msg_ok who nm hr m.
Lemma frame_ok_mono (who who' : nsref -> Prop) (nm hr hr' : nsref -> string -> Prop) b :
  (forall n, who n -> who' n) -> (forall n s, hr n s -> hr' n s) -> frame_ok who nm hr b -> frame_ok who' nm hr' b.
Proof.
  intros H1 H2 [H|[H|(m & Hm & H)]]; [left; exact H|right; left; exact H|right; right]. exists m. split; [exact Hm|].
  destruct H as [H|(n & H3 & H4 & H5)]; [left; exact H|right]. exists n. auto.
Qed.

Section frame.
Context {G : cfg} {S : lspec} {allowed : api -> Prop}.
Notation L := (ls_L S).
Context {R : L -> L -> Prop}.
Context {vn : L -> nsref -> Prop} {vx vh rd ak : L -> cid -> Prop}.
(** [own n c]: [n] is a namespace of connection [c]. *)
Context {own : nsref -> cid -> Prop}.
(** [pr l c]: may read frames of [c] in the reader loop;  [sp l p]: has started process [p]. *)
(** [cl l c]: has closed [c]. *)
Context {pr : L -> cid -> Prop} {sp : L -> pid -> Prop} {cl : L -> cid -> Prop}.
(** [nm n s]: the name of [n] is [s];  [fd l n e m]: callback [e] of [n] was started with [m];  [jd l n]: [n] was found connected. *)
Context {nm : nsref -> string -> Prop} {fd : L -> nsref -> string -> message -> Prop} {jd : L -> nsref -> Prop} {hr : L -> nsref -> string -> Prop}.
Set Default Proof Using "All".
Definition kp {A} (p : prog A) : Prop := forall l, ok (S := S) l p (fun _ l' => R l l').
Definition kq {A} (P : L -> Prop) (p : prog A) (Q : A -> L -> Prop) : Prop :=
  forall l, P l -> ok (S := S) l p (fun r l' => R l l' /\ Q r l').
Definition kpp {A} (P : L -> Prop) (p : prog A) : Prop := forall l, P l -> ok (S := S) l p (fun _ l' => R l l').
Definition stable (P : L -> Prop) : Prop := forall l l', R l l' -> P l -> P l'.

(** The callback for [m] in [n], if there is one, was started and may agree. *)
Definition agreed (n : nsref) (m : message) (l : L) : Prop :=
  match chosen G n (m_event m) with Some (key, h) => fd l n key m /\ agrees (h n m) | None => True end.

(** What may be written to the socket of [c]. *)
Definition may_msg (c : cid) (m : message) (l : L) : Prop := msg_ok (fun n => jd l n /\ own n c) nm (hr l) m.
Definition may_send (c : cid) (b : string) (l : L) : Prop := frame_ok (fun n => jd l n /\ own n c) nm (hr l) b.

(** What the callbacks and the library may rely on. *)
Record rules : Prop := Rules {
  u_mono : rule_mono S;
  u_refl : forall l, R l l;
  u_trans : forall a b c, R a b -> R b c -> R a c;
  u_vn : forall n, stable (fun l => vn l n);
  u_vxs : forall c, stable (fun l => vx l c);
  u_vhs : forall c, stable (fun l => vh l c);
  u_rds : forall c, stable (fun l => rd l c);
  u_aks : forall c, stable (fun l => ak l c);
  u_sps : forall p, stable (fun l => sp l p);
  u_cls : forall c, stable (fun l => cl l c);
  u_nm : forall n, nm n (n_name n);
  u_fds : forall n e m, stable (fun l => fd l n e m);
  u_jds : forall n, stable (fun l => jd l n);
  u_hrs : forall n s, stable (fun l => hr l n s);
  u_vh : forall l c, rd l c -> ak l c -> vh l c;
  u_vhx : forall l c, vh l c -> vx l c;
  u_akx : forall l c, ak l c -> vx l c;
  u_clx : forall l c, g_client G c = true -> vx l c;
  u_app : user_app allowed G;
  u_plain : forall o l (P : res o -> L -> Prop), plain o = true -> (forall r l', R l l' -> P r l') -> ls_rule S l o P;
  u_getns : forall c s l (P : option nsref -> L -> Prop),
    (forall r l', R l l' -> match r with Some n => vn l' n /\ own n c /\ nm n s /\ jd l' n | None => True end -> P r l') -> ls_rule S l (OGetNs c s) P;
  u_nsrange : forall c l (P : list (string * nsref) -> L -> Prop),
    (forall r l', R l l' -> (forall e, e ∈ r -> vn l' (snd e)) -> (forall e, e ∈ r -> jd l' (snd e)) -> P r l') -> ls_rule S l (ONsRange c) P;
  u_newns : forall c s l (P : nsref -> L -> Prop), vx l c ->
    (forall r l', R l l' -> vn l' r /\ own r c /\ nm r s -> P r l') -> ls_rule S l (ONewNs c s) P;
  u_room : forall o n l (P : res o -> L -> Prop), room_op o = Some n -> vn l n -> (forall r l', R l l' -> P r l') -> ls_rule S l o P;
  u_hasroom : forall n s l (P : bool -> L -> Prop), vn l n -> (forall r l', R l l' -> (r = true -> hr l' n s) -> P r l') -> ls_rule S l (OHasRoom n s) P;
  u_write : forall c typ b l (P : option gerr -> L -> Prop), may_send c b l -> (forall r l', R l l' -> P r l') -> ls_rule S l (OSockWrite c typ b) P;
  u_addroom : forall n r l (P : unit -> L -> Prop), vn l n -> (exists m, m_event m = OnRoomJoin /\ nm n (m_namespace m) /\ m_room m = r /\ agreed n m l) -> (forall r l', R l l' -> P r l') -> ls_rule S l (OAddRoom n r) P;
  u_setns : forall c s n l (P : unit -> L -> Prop), vn l n -> own n c -> nm n s -> is_Some (g_namespaces G c !! s) ->
    (exists m, m_event m = OnNamespaceConnect /\ m_namespace m = s /\ agreed n m l) -> (forall r l', R l l' -> P r l') -> ls_rule S l (OSetNs c s n) P;
  u_fire : forall n e m l (P : unit -> L -> Prop), dispatched G n e m -> vn l n -> (inside m -> jd l n) -> (from_remote m -> exists c, vh l c /\ own n c) -> (forall r l', R l l' -> fd l' n e m -> P r l') -> ls_rule S l (OLog (LFire n e m)) P;
  u_acked : forall c l (P : bool -> L -> Prop), (forall r l', R l l' -> (r = true -> ak l' c) -> P r l') -> ls_rule S l (OIsAcked c) P;
  u_cas : forall c l (P : bool -> L -> Prop), (forall r l', R l l' -> (r = true -> cl l' c) -> P r l') -> ls_rule S l (OCasClosed c) P;
  u_unack : forall c l (P : unit -> L -> Prop), cl l c -> (forall r l', R l l' -> P r l') -> ls_rule S l (OSetAcked c false) P;
  u_closech : forall c l (P : unit -> L -> Prop), cl l c -> (forall r l', R l l' -> P r l') -> ls_rule S l (OCloseCh c) P;
  u_sockclose : forall c l (P : unit -> L -> Prop), cl l c -> (forall r l', R l l' -> P r l') -> ls_rule S l (OSockClose c) P;
  u_bye : forall c l (P : unit -> L -> Prop), cl l c -> (forall r l', R l l' -> P r l') -> ls_rule S l (OSpawn (TDisconnect c)) P;
  u_disc : forall c l (P : unit -> L -> Prop), ls_start S (TDisconnect c) l -> (forall r l', R l l' -> P r l') -> ls_rule S l (OSDiscSend c) P;
  u_read : forall c l (P : (gerr + mtype * string) -> L -> Prop), pr l c -> (forall r l', R l l' -> rd l' c -> P r l') -> ls_rule S l (ORead c) P;
  u_bcsend : forall msgs l (P : nat -> L -> Prop), g_sync G = true -> (forall r l', R l l' -> P r l') -> ls_rule S l (OBcSend msgs) P;
  u_call : forall l a, allowed a -> ls_cpre S l a;
  u_post : forall l a r l', ls_cpost S l a r l' -> R l l';
  u_crash : forall why, ls_crash S why }.
Context (U : rules).
Let M := u_mono U.
Let Rr := u_refl U.
Let Rt := u_trans U.

Lemma stable_and P Q : stable P -> stable Q -> stable (fun l => P l /\ Q l).
Proof. intros H1 H2 l l' Hl [? ?]. split; eauto. Qed.
Lemma stable_true (P : Prop) : stable (fun _ => P).
Proof. intros l l' Hl H. exact H. Qed.
Lemma stable_all {A} (P : A -> L -> Prop) : (forall a, stable (P a)) -> stable (fun l => forall a, P a l).
Proof. intros H l l' Hl H' a. exact (H a l l' Hl (H' a)). Qed.
Lemma stable_ex {A} (P : A -> L -> Prop) : (forall a, stable (P a)) -> stable (fun l => exists a, P a l).
Proof. intros H l l' Hl [a Ha]. exists a. exact (H a l l' Hl Ha). Qed.
Lemma stable_imp (X : Prop) P : stable P -> stable (fun l => X -> P l).
Proof. intros H l l' Hl H' x. exact (H l l' Hl (H' x)). Qed.

Lemma kpp_kp {A} P (p : prog A) : kp p -> kpp P p.
Proof. intros H l _. apply H. Qed.
Lemma kp_kpp {A} (P : L -> Prop) (p : prog A) : (forall l, P l) -> kpp P p -> kp p.
Proof. intros H1 H2 l. apply H2, H1. Qed.
Lemma kpp_weak {A} (P P' : L -> Prop) (p : prog A) : kpp P' p -> (forall l, P l -> P' l) -> kpp P p.
Proof. intros H1 H2 l HP. apply H1, H2, HP. Qed.
Lemma kq_weak {A} (P P' : L -> Prop) (p : prog A) Q : kq P' p Q -> (forall l, P l -> P' l) -> kq P p Q.
Proof. intros H1 H2 l HP. apply H1, H2, HP. Qed.
Lemma kq_kpp {A} P (p : prog A) Q : kq P p Q -> kpp P p.
Proof. intros H l HP. eapply (ok_mono S M); [|apply H, HP]. intros r l' [H1 _]. exact H1. Qed.
Lemma kpp_kq {A} P (p : prog A) : stable P -> kpp P p -> kq P p (fun _ => P).
Proof. intros Hs H l HP. eapply (ok_mono S M); [|apply H, HP]. intros r l' H1. cbn beta in H1. split; [exact H1|]. exact (Hs l l' H1 HP). Qed.
Lemma kq_ret {A} (P : L -> Prop) (a : A) (Q : A -> L -> Prop) : (forall l, P l -> Q a l) -> kq P (Ret a) Q.
Proof. intros H l HP. split; [apply Rr|apply H, HP]. Qed.
Lemma kq_bind {A B} P (p : prog A) Q1 (f : A -> prog B) Q : stable P ->
  kq P p Q1 -> (forall r, kq (fun l => P l /\ Q1 r l) (f r) Q) -> kq P (bind p f) Q.
Proof.
  intros Hs H1 H2 l HP. eapply (ok_seq S M); [apply H1, HP|]. intros r l' [Hl HQ]. cbn beta in Hl, HQ.
  eapply (ok_mono S M); [|apply H2; split; [exact (Hs l l' Hl HP)|exact HQ]]. intros r' l'' [H3 H4]. split; [|exact H4]. exact (Rt _ _ _ Hl H3).
Qed.
Lemma kq_bindk {A B} P (p : prog A) (f : A -> prog B) Q : stable P -> kpp P p -> (forall r, kq P (f r) Q) -> kq P (bind p f) Q.
Proof.
  intros Hs H1 H2 l HP. eapply (ok_seq S M); [apply H1, HP|]. intros r l' Hl. cbn beta in Hl.
  eapply (ok_mono S M); [|apply H2; exact (Hs l l' Hl HP)]. intros r' l'' [H3 H4]. split; [|exact H4]. exact (Rt _ _ _ Hl H3).
Qed.
Lemma kpp_bindq {A B} P (p : prog A) Q (f : A -> prog B) : stable P -> kq P p Q -> (forall r, kpp (fun l => P l /\ Q r l) (f r)) -> kpp P (bind p f).
Proof.
  intros Hs H1 H2 l HP. eapply (ok_seq S M); [apply H1, HP|]. intros r l' [Hl HQ]. cbn beta in Hl, HQ.
  eapply (ok_mono S M); [|apply H2; split; [exact (Hs l l' Hl HP)|exact HQ]]. intros r' l'' H3. exact (Rt _ _ _ Hl H3).
Qed.
Lemma kpp_bind {A B} P (p : prog A) (f : A -> prog B) : stable P -> kpp P p -> (forall r, kpp P (f r)) -> kpp P (bind p f).
Proof.
  intros Hs H1 H2 l HP. eapply (ok_seq S M); [apply H1, HP|]. intros r l' Hl. cbn beta in Hl.
  eapply (ok_mono S M); [|apply H2; exact (Hs l l' Hl HP)]. intros r' l'' H3. exact (Rt _ _ _ Hl H3).
Qed.
Lemma kpp_ret {A} P (a : A) : kpp P (Ret a).
Proof. intros l _. apply Rr. Qed.
Lemma kpp_crash {A} P why : kpp P (@Crash A why).
Proof. intros l _. apply (u_crash U). Qed.
Lemma kpp_for_all {A} P (xs : list A) body : stable P -> (forall x, x ∈ xs -> kpp P (body x)) -> kpp P (for_all xs body).
Proof.
  intros Hs. induction xs as [|x xs IH]; intros H; cbn [for_all]; [apply kpp_ret|]. apply kpp_bind; [exact Hs|apply H; constructor|].
  intros _. apply IH. intros y Hy. apply H. constructor. exact Hy.
Qed.
Lemma kpp_for_each {A X} P (xs : list A) (body : A -> prog (option X)) : stable P -> (forall x, x ∈ xs -> kpp P (body x)) -> kpp P (for_each xs body).
Proof.
  intros Hs. induction xs as [|x xs IH]; intros H; cbn [for_each]; [apply kpp_ret|]. apply kpp_bind; [exact Hs|apply H; constructor|].
  intros [v|]; [apply kpp_ret|]. apply IH. intros y Hy. apply H. constructor. exact Hy.
Qed.

Lemma kp_ret {A} (a : A) : kp (Ret a).
Proof. intros l. apply Rr. Qed.
Lemma kp_crash {A} why : kp (@Crash A why).
Proof. intros l. apply (u_crash U). Qed.
Lemma kp_do {A} o (k : res o -> prog A) : plain o = true -> (forall r, kp (k r)) -> kp (Do o k).
Proof.
  intros H1 H2 l. cbn [ok]. apply (u_plain U); [exact H1|]. intros r l' Hl. eapply (ok_mono S M); [|apply H2].
  intros r' l'' H. exact (Rt _ _ _ Hl H).
Qed.
Lemma kp_opr o : plain o = true -> kp (opr o).
Proof. intros H. apply kp_do; [exact H|]. intros r. apply kp_ret. Qed.
Lemma kp_bind {A B} (p : prog A) (f : A -> prog B) : kp p -> (forall r, kp (f r)) -> kp (bind p f).
Proof.
  intros H1 H2 l. eapply (ok_seq S M); [apply H1|]. intros r l' Hl. eapply (ok_mono S M); [|apply H2].
  intros r' l'' H. exact (Rt _ _ _ Hl H).
Qed.
Lemma kp_bindq {A B} (p : prog A) Q (f : A -> prog B) : kq (fun _ => True) p Q -> (forall r, kpp (Q r) (f r)) -> kp (bind p f).
Proof.
  intros H1 H2 l. eapply (ok_seq S M); [apply H1; exact I|]. intros r l' [Hl HQ]. eapply (ok_mono S M); [|apply H2; exact HQ].
  intros r' l'' H. exact (Rt _ _ _ Hl H).
Qed.
Lemma kp_call {A} a (k : ares a -> prog A) : allowed a -> (forall r, kp (k r)) -> kp (Call a k).
Proof.
  intros Ha H2 l. cbn [ok]. split; [apply (u_call U), Ha|]. intros r l' Hl. apply (u_post U) in Hl. eapply (ok_mono S M); [|apply H2].
  intros r' l'' H. exact (Rt _ _ _ Hl H).
Qed.
Lemma kp_for_all {A} (xs : list A) body : (forall x, kp (body x)) -> kp (for_all xs body).
Proof. intros H. induction xs as [|x xs IH]; cbn [for_all]; [apply kp_ret|]. apply kp_bind; [apply H|]. intros _. exact IH. Qed.
Lemma kp_user {A} (p : prog A) : user_code allowed p -> kp p.
Proof.
  induction p as [a|o k IH|a k IH|why]; cbn [user_code]; intros H; [apply kp_ret| |destruct H; apply kp_call; auto|apply kp_crash].
  destruct o; try contradiction; (apply kp_do; [reflexivity|]); auto.
Qed.

(** The special operations. *)
Lemma getns_kq P c s : kq P (opr (OGetNs c s)) (fun r l => match r with Some n => vn l n /\ own n c /\ nm n s /\ jd l n | None => True end).
Proof. intros l _. cbn [ok opr]. apply (u_getns U). intros r l' H1 H2. auto. Qed.
Lemma nsrange_kq P c : kq P (opr (ONsRange c)) (fun r l => (forall e, e ∈ r -> vn l (snd e)) /\ (forall e, e ∈ r -> jd l (snd e))).
Proof. intros l _. cbn [ok opr]. apply (u_nsrange U). intros r l' H1 H2 H3. auto. Qed.
Lemma newns_kq c s : kq (fun l => vx l c) (opr (ONewNs c s)) (fun r l => vn l r /\ own r c /\ nm r s).
Proof. intros l H. cbn [ok opr]. apply (u_newns U); [exact H|]. intros r l' H1 H2. auto. Qed.
Lemma setns_kpp c s n : is_Some (g_namespaces G c !! s) ->
  kpp (fun l => vn l n /\ own n c /\ nm n s /\ exists m, m_event m = OnNamespaceConnect /\ m_namespace m = s /\ agreed n m l) (opr (OSetNs c s n)).
Proof. intros Hg l (H & H' & Hn & Ha). cbn [ok opr]. apply (u_setns U); [exact H|exact H'|exact Hn|exact Hg|exact Ha|]. intros r l' H1. exact H1. Qed.
Lemma room_kpp o n : room_op o = Some n -> kpp (fun l => vn l n) (opr o).
Proof. intros Ho l H. cbn [ok opr]. apply (u_room U o n); [exact Ho|exact H|]. intros r l' H1. exact H1. Qed.
Lemma addroom_kpp n r : kpp (fun l => vn l n /\ exists m, m_event m = OnRoomJoin /\ nm n (m_namespace m) /\ m_room m = r /\ agreed n m l) (opr (OAddRoom n r)).
Proof. intros l [H Ha]. cbn [ok opr]. apply (u_addroom U); [exact H|exact Ha|]. intros r' l' H1. exact H1. Qed.
Lemma acked_kq P c : kq P (opr (OIsAcked c)) (fun r l => r = true -> ak l c).
Proof. intros l _. cbn [ok opr]. apply (u_acked U). intros r l' H1 H2. auto. Qed.
Lemma cas_kq P c : kq P (opr (OCasClosed c)) (fun r l => r = true -> cl l c).
Proof. intros l _. cbn. apply (u_cas U). intros r l' H1 H2. split; assumption. Qed.
Lemma closech_kpp c : kpp (fun l => cl l c) (opr (OCloseCh c)).
Proof. intros l H. cbn. apply (u_closech U); [exact H|]. intros r l' H1. exact H1. Qed.
Lemma sockclose_kpp c : kpp (fun l => cl l c) (opr (OSockClose c)).
Proof. intros l H. cbn. apply (u_sockclose U); [exact H|]. intros r l' H1. exact H1. Qed.
Lemma unack_kpp c : kpp (fun l => cl l c) (opr (OSetAcked c false)).
Proof. intros l H. cbn. apply (u_unack U); [exact H|]. intros r l' H1. exact H1. Qed.
Lemma bye_kpp c : kpp (fun l => cl l c) (opr (OSpawn (TDisconnect c))).
Proof. intros l H. cbn. apply (u_bye U); [exact H|]. intros r l' H1. exact H1. Qed.
Lemma acked_kp c : kp (opr (OIsAcked c)).
Proof. intros l. cbn [ok opr]. apply (u_acked U). intros r l' H1 H2. auto. Qed.
Lemma read_kq c : kq (fun l => pr l c) (opr (ORead c)) (fun _ l => rd l c).
Proof. intros l H. cbn [ok opr]. apply (u_read U); [exact H|]. intros r l' H1 H2. auto. Qed.
Lemma kq_any {A} P (p : prog A) (Q : A -> L -> Prop) : (forall r l, Q r l) -> kp p -> kq P p Q.
Proof. intros HQ H l _. eapply (ok_mono S M); [|apply H]. intros r l' H'. split; [exact H'|apply HQ]. Qed.
Lemma bcsend_kp msgs : g_sync G = true -> kp (opr (OBcSend msgs)).
Proof. intros H l. cbn [ok opr]. apply (u_bcsend U); auto. Qed.
(** What is needed to run a callback of [n] with [m]. *)
Definition heard (n : nsref) (m : message) (l : L) : Prop := vn l n /\ (inside m -> jd l n) /\ (from_remote m -> exists c, vh l c /\ own n c).
Lemma user_agrees (p : prog (option gerr)) l : user_code allowed p -> ok (S := S) l p (fun r l' => R l l' /\ (r = None -> agrees p)).
Proof.
  revert l. induction p as [a|o k IH|a k IH|why]; cbn [user_code ok]; intros l H.
  - split; [apply Rr|]. intros ->. reflexivity.
  - assert (Ho : plain o = true /\ forall r, user_code allowed (k r)) by (destruct o; try contradiction; split; auto). destruct Ho as [Ho Hk].
    apply (u_plain U); [exact Ho|]. intros r l' Hl. eapply (ok_mono S M); [|apply IH, Hk]. intros r' l'' [H1 H2].
    split; [exact (Rt _ _ _ Hl H1)|]. intros E. exists r. apply H2, E.
  - destruct H as [Ha Hk]. split; [apply (u_call U), Ha|]. intros r l' Hl. apply (u_post U) in Hl. eapply (ok_mono S M); [|apply IH, Hk]. intros r' l'' [H1 H2].
    split; [exact (Rt _ _ _ Hl H1)|]. intros E. exists r. apply H2, E.
  - apply (u_crash U).
Qed.
Lemma fireEvent_kq n m : kq (heard n m) (fireEvent G n m) (fun r l => r = None -> agreed n m l).
Proof.
  unfold agreed, chosen, fireEvent, ns_events. destruct (g_namespaces G (n_conn n) !! n_name n) as [evs|] eqn:E; cbn; [|unfold id; rewrite !lookup_empty; apply kq_ret; auto].
  assert (Hf : forall e (p : prog (option gerr)), dispatched G n e m -> user_code allowed p ->
    kq (heard n m) (Do (OLog (LFire n e m)) (fun _ => p)) (fun r l => r = None -> fd l n e m /\ agrees p)).
  { intros e p Hd Hp l (Hl & Hl1 & Hl2). cbn [ok]. apply (u_fire U); [exact Hd|exact Hl|exact Hl1|exact Hl2|]. intros r l' H Hfd. eapply (ok_mono S M); [|apply user_agrees, Hp].
    intros r' l'' [H' Ha]. split; [exact (Rt _ _ _ H H')|]. intros E'. split; [exact (u_fds U _ _ _ _ _ H' Hfd)|apply Ha, E']. }
  unfold id. destruct (evs !! m_event m) as [h|] eqn:E1; [|destruct (evs !! OnAnyEvent) as [h|] eqn:E2; [|apply kq_ret; auto]];
    (apply Hf; [exists evs, h; auto|]; eapply (ua_callbacks _ _ (u_app U)); eassumption).
Qed.
Lemma fireEvent_kpp n m : kpp (heard n m) (fireEvent G n m).
Proof. eapply kq_kpp, fireEvent_kq. Qed.
Lemma agreed_stable n m : stable (agreed n m).
Proof.
  intros l l' Hl. unfold agreed. destruct (chosen G n (m_event m)) as [[key h]|]; [|auto]. intros [H1 H2]. split; [exact (u_fds U _ _ _ _ _ Hl H1)|exact H2].
Qed.

Ltac st := repeat first [apply agreed_stable | apply (u_vn U) | apply (u_jds U) | apply (u_vxs U) | apply (u_vhs U) | apply (u_rds U) | apply (u_aks U) | apply (u_sps U) | apply (u_cls U)
  | apply stable_true | match goal with |- stable (heard _ _) => unfold heard end | apply stable_and | apply stable_ex; intros | apply stable_imp | apply stable_all; intros
  | match goal with |- stable (fun l => match ?x with _ => _ end) => destruct x end].
Ltac pre := let l := fresh "l" in let H := fresh "H" in
  intros l H; cbn beta iota in H |- *; repeat match goal with H : _ /\ _ |- _ => destruct H end; try match goal with |- _ /\ _ => split end;
  try exact I;
  first [assumption | apply (u_vhx U); assumption | apply (u_clx U); assumption | apply (u_akx U); auto; fail
        | apply (u_vh U); auto; fail | match goal with H : forall e, _ ∈ _ -> vn _ _ |- _ => eapply (H (_, _)); eassumption end
        | match goal with H : forall e, _ ∈ _ -> vn _ _ |- _ => eapply H; eassumption end | auto].
Ltac hear := let l := fresh "l" in let H := fresh "H" in let Hr := fresh "Hr" in
  intros l H; unfold heard in *; cbn beta iota in H |- *; repeat match goal with H : _ /\ _ |- _ => destruct H end;
  split; [solve [assumption|match goal with H : forall e, _ ∈ _ -> vn _ _ |- _ => eapply (H (_, _)); eassumption end
                |match goal with H : forall e, _ ∈ _ -> vn _ _ |- _ => eapply H; eassumption end]|];
  split; [intros Hr; solve [assumption|match goal with H : forall e, _ ∈ _ -> jd _ _ |- _ => eapply (H (_, _)); eassumption end|match goal with H : forall e, _ ∈ _ -> jd _ _ |- _ => eapply H; eassumption end|match goal with H : inside _ -> _ |- _ => exact (H Hr) end|exfalso; unfold inside in Hr; repeat match goal with H : m_event _ = _ |- _ => rewrite H in Hr end; vm_compute in Hr; discriminate Hr]|];
  intros Hr; solve [match goal with H : from_remote _ -> _ |- _ => exact (H Hr) end|destruct Hr as [Hr _]; cbn in Hr; discriminate Hr|eexists; split; eassumption|destruct Hr as [Hr _]; cbn in Hr; eauto
    |match goal with H : ~ from_remote _ |- _ => exfalso; apply H; exact Hr end].
Ltac perm := let l := fresh "l" in let H := fresh "H" in
  intros l H; cbn beta iota in H |- *; repeat match goal with H : _ /\ _ |- _ => destruct H end;
  repeat match goal with |- _ /\ _ => split end; try assumption; eexists;
  repeat match goal with |- _ /\ _ => split end; try (match goal with H : None = None -> agreed _ ?m _ |- agreed _ ?e _ => is_evar e; apply H; reflexivity end); try reflexivity; try eassumption.
Ltac kpt1 := first
  [ apply kpp_ret | apply kpp_crash | apply kpp_kp, kp_opr; reflexivity
  | apply kpp_for_all; [st|intros] | apply kpp_for_each; [st|intros]
  | eapply kpp_bindq; [st|first [apply getns_kq|apply nsrange_kq|eapply kq_weak; [apply newns_kq|pre]|apply acked_kq]|intros; cbn beta]
  | match goal with |- kpp _ (opr ?o) => match eval cbv in (room_op o) with Some ?n => apply (kpp_weak _ (fun l => vn l n)); [apply (room_kpp o n eq_refl)|pre] end end
  | eapply kpp_weak; [apply setns_kpp; eauto|perm]
  | eapply kpp_weak; [apply addroom_kpp|perm]
  | eapply kpp_bindq; [st|eapply kq_weak; [apply fireEvent_kq|hear]|intros; cbn beta]
  | eapply kpp_weak; [apply fireEvent_kpp|hear]
  | apply kpp_bind; [st| |intros]
  | match goal with |- kpp _ ?p =>
      match p with context [match ?x with _ => _ end] => destruct x eqn:?; subst end end ].
Ltac kpt := repeat kpt1.
Ltac top := match goal with |- kp _ => apply (kp_kpp (fun _ => True)); [intros; exact I|] | _ => idtac end.

(** The readiness gate and the processes.  An instance may keep an eye on the gate of some connections of clients: [gw c] if it does not for [c]. *)
Context {gw : cid -> Prop}.
Record gates : Prop := Gates {
  wait_k : forall c, gw c -> kp (wait c);
  unwait_k : forall c e, gw c \/ g_client G c = false -> kp (unwait c e);
  proc_get_k : forall c s, kp (proc_get c s);
  proc_Done_k : forall p, kpp (fun l => sp l p) (proc_Done p);
  proc_Wait_k : forall p, kp (proc_Wait p);
  proc_Start_k : forall p, kq (fun _ => True) (proc_Start p) (fun _ l => sp l p) }.
Context (V : gates).
Definition wait_kp := wait_k V.
Definition unwait_kp := unwait_k V.
Definition proc_get_kp := proc_get_k V.
Definition proc_Done_kp := proc_Done_k V.
Definition proc_Wait_kp := proc_Wait_k V.
Definition proc_Start_kp := proc_Start_k V.
Lemma Namespace_kq P c s : stable P -> kq P (Namespace c s) (fun r l => match r with Some n => vn l n /\ own n c /\ nm n s /\ jd l n | None => True end).
Proof.
  intros HP. unfold Namespace. eapply kq_bindk; [exact HP|kpt|]. intros _. eapply kq_bind; [exact HP|apply getns_kq|]. intros n.
  assert (Hs : stable (fun l => P l /\ match n with Some n => vn l n /\ own n c /\ nm n s /\ jd l n | None => True end)) by (st; exact HP).
  eapply kq_bindk; [exact Hs|kpt|]. intros _. apply kq_ret. intros l. cbn. tauto.
Qed.
Lemma Namespace_kp c s : kp (Namespace c s).
Proof. apply (kp_kpp (fun _ => True)); [auto|]. eapply kq_kpp, Namespace_kq. st. Qed.
Lemma forceLeaveAll_kpp n b : kpp (fun l => vn l n /\ (b = false -> exists c, vh l c /\ own n c)) (forceLeaveAll G n b).
Proof. unfold forceLeaveAll. kpt. Qed.
Ltac force := let l := fresh "l" in let H := fresh "H" in let Hr := fresh "Hr" in
  intros l H; cbn beta iota in H |- *; repeat match goal with H : _ /\ _ |- _ => destruct H end;
  split; [solve [assumption|match goal with H : forall e, _ ∈ _ -> vn _ _ |- _ => eapply (H (_, _)); eassumption end
                |match goal with H : forall e, _ ∈ _ -> vn _ _ |- _ => eapply H; eassumption end]|];
  split; [intros Hr; solve [assumption|match goal with H : forall e, _ ∈ _ -> jd _ _ |- _ => eapply (H (_, _)); eassumption end|match goal with H : forall e, _ ∈ _ -> jd _ _ |- _ => eapply H; eassumption end|match goal with H : inside _ -> _ |- _ => exact (H Hr) end|exfalso; unfold inside in Hr; repeat match goal with H : m_event _ = _ |- _ => rewrite H in Hr end; vm_compute in Hr; discriminate Hr]|];
  intros Hr; solve [discriminate Hr|eexists; split; eassumption].
Ltac known := first
  [ eapply kpp_bindq; [st|apply Namespace_kq; st|intros; cbn beta]
  | eapply kpp_weak; [apply forceLeaveAll_kpp|force]
  | apply kpp_kp; first [apply wait_kp; assumption|apply unwait_kp; first [left; assumption|right; assumption]|apply proc_get_kp|apply proc_Wait_kp|apply Namespace_kp] ].
Ltac kt := repeat first [known|kpt1].
Lemma Close_kp c : kp (Close G c).
Proof.
  top. unfold Close. eapply kpp_bindq; [st|apply cas_kq|]. intros [|]; cbn [negb]; [|apply kpp_ret].
  apply (kpp_weak _ (fun l => cl l c)); [|intros l [_ H]; apply H; reflexivity]. repeat first [eapply kpp_weak; [apply unack_kpp|pre]|eapply kpp_weak; [apply closech_kpp|pre]|eapply kpp_weak; [apply sockclose_kpp|pre]|eapply kpp_weak; [apply bye_kpp|pre]|known|kpt1].
Qed.
Lemma Close_split c : exists f, Close G c = bind (opr (OCasClosed c)) f /\ forall r, kpp (fun l => r = true -> cl l c) (f r).
Proof.
  unfold Close. eexists. split; [reflexivity|]. intros [|]; cbn [negb]; [|apply kpp_ret].
  apply (kpp_weak _ (fun l => cl l c)); [|intros l H; apply H; reflexivity]. repeat first [eapply kpp_weak; [apply unack_kpp|pre]|eapply kpp_weak; [apply closech_kpp|pre]|eapply kpp_weak; [apply sockclose_kpp|pre]|eapply kpp_weak; [apply bye_kpp|pre]|known|kpt1].
Qed.
Lemma sockwrite_kpp c typ b : kpp (may_send c b) (opr (OSockWrite c typ b)).
Proof. intros l H. cbn. apply (u_write U); [exact H|]. intros r l' H1. exact H1. Qed.
Lemma hasroom_kq n s : kq (fun l => vn l n) (opr (OHasRoom n s)) (fun r l => r = true -> hr l n s).
Proof. intros l H. cbn. apply (u_hasroom U); [exact H|]. intros r l' H1 H2. split; assumption. Qed.
Lemma may_msg_stable c m : stable (may_msg c m).
Proof.
  intros l l' Hl [H|(n & [H1 H2] & H3 & H4)]; [left; exact H|right]. exists n. split; [split; [exact (u_jds U n _ _ Hl H1)|exact H2]|]. split; [exact H3|].
  intros H. exact (u_hrs U n _ _ _ Hl (H4 H)).
Qed.
Lemma may_send_stable c b : stable (may_send c b).
Proof. intros l l' Hl. apply frame_ok_mono; [intros n [H1 H2]; split; [exact (u_jds U n _ _ Hl H1)|exact H2]|intros n s H; exact (u_hrs U n _ _ _ Hl H)]. Qed.
Lemma write_kpp c b bin : kpp (may_send c b) (write G c b bin).
Proof.
  unfold write. apply kpp_bind; [apply may_send_stable|apply sockwrite_kpp|]. intros r. apply kpp_kp. top. repeat first [apply kpp_kp, Close_kp|known|kpt1].
Qed.
Lemma write_shake c b bin : shake b -> kp (write G c b bin).
Proof. intros H l. apply write_kpp. left. exact H. Qed.
Lemma Is_kp c s : kp (Is G c s).
Proof. top. unfold Is. kt. Qed.
Lemma canWrite_kq c m : kq (fun _ => True) (canWrite G c m) (fun r l => r = true -> may_msg c m l).
Proof.
  assert (HT : stable (fun _ => True)) by st.
  unfold canWrite. eapply kq_bindk; [exact HT|kt|]. intros [|]; [apply kq_ret; discriminate|].
  eapply kq_bindk; [exact HT|kt|]. intros _.
  eapply (kq_bind _ _ (fun r l => r = true -> may_msg c m l)); [exact HT| |].
  - unfold may_msg, msg_ok. destruct (isConnect m || isDisconnect m); [apply kq_ret; auto|].
    eapply kq_bindk; [exact HT|kt|]. intros _. eapply kq_bind; [exact HT|apply getns_kq|]. intros [n|]; cbn beta iota.
    + assert (Hs : stable (fun l => True /\ vn l n /\ own n c /\ nm n (m_namespace m) /\ jd l n)) by st.
      eapply kq_bindk; [exact Hs|kt|]. intros _.
      destruct (negb (is_empty (m_room m)) && negb (isRoomJoin m) && negb (isRoomLeft m)).
      * eapply kq_bindk; [exact Hs|kt|]. intros _. eapply kq_bind; [exact Hs|eapply kq_weak; [apply hasroom_kq|intros l H; tauto]|]. intros ok. cbn beta.
        assert (Hs' : stable (fun l => (True /\ vn l n /\ own n c /\ nm n (m_namespace m) /\ jd l n) /\ (ok = true -> hr l n (m_room m)))).
        { apply stable_and; [exact Hs|]. apply stable_imp, (u_hrs U). }
        eapply kq_bindk; [exact Hs'|kt|]. intros _. apply kq_ret. intros l ((_ & H1 & H2 & H3 & H4) & H5) Hok. right. exists n. auto.
      * apply kq_ret. intros l (_ & H1 & H2 & H3 & H4) _. right. exists n. split; [auto|]. split; [exact H3|]. discriminate.
    + eapply kq_bindk; [st|kt|]. intros _. apply kq_ret. discriminate.
  - intros ok. cbn beta. assert (Hs : stable (fun l => True /\ (ok = true -> may_msg c m l))) by (apply stable_and; [exact HT|apply stable_imp, may_msg_stable]).
    destruct ok; cbn [negb]; [|apply kq_ret; discriminate]. eapply kq_bindk; [exact Hs|apply kpp_kp, Is_kp|]. intros self. apply kq_ret. intros l [_ H] _. apply H. reflexivity.
Qed.
Lemma canWrite_kp c m : kp (canWrite G c m).
Proof. apply (kp_kpp (fun _ => True)); [auto|]. eapply kq_kpp, canWrite_kq. Qed.
Lemma Write_kp c m : kp (Write G c m).
Proof.
  unfold Write. eapply kp_bindq; [apply canWrite_kq|]. intros ok. cbn beta. destruct ok; cbn [negb]; [|apply kpp_ret].
  destruct (serializeMessage (set_fromExplicit "" m)) as [b|why] eqn:E; [|apply kpp_crash]. eapply kpp_weak; [apply write_kpp|].
  intros l H. right. right. exists m. split; [exact E|]. apply H. reflexivity.
Qed.
Lemma writeEmptyReply_kp c s : no_semicolon s -> kp (writeEmptyReply G c s).
Proof. intros H l. apply write_kpp. right. left. exists s. split; [exact H|reflexivity]. Qed.
Lemma exch_call_kp x : kp (exch_call G x).
Proof. top. unfold exch_call. kt. Qed.
Lemma notifyNamespaceConnected_kpp c n m : kpp (heard n (set_event OnNamespaceConnected m)) (notifyNamespaceConnected G c n m).
Proof. unfold notifyNamespaceConnected. repeat first [apply kpp_kp, exch_call_kp|known|kpt1]. Qed.
Lemma notifyNamespaceDisconnect_kp c m : kp (notifyNamespaceDisconnect G c m).
Proof. top. unfold notifyNamespaceDisconnect. repeat first [apply kpp_kp, exch_call_kp|known|kpt1]. Qed.
Lemma tryNamespace_kq P c m : stable P -> kq P (tryNamespace G c m) (fun r l => match r with Some n => vn l n /\ own n c /\ nm n (m_namespace m) /\ jd l n | None => True end).
Proof.
  intros HP. unfold tryNamespace. eapply kq_bindk; [exact HP|apply kpp_kp, proc_get_kp|]. intros p.
  eapply kq_bindk; [exact HP|apply kpp_kp, proc_Wait_kp|]. intros _.
  eapply kq_bind; [exact HP|apply Namespace_kq, HP|]. intros [n|].
  - apply kq_ret. intros l. cbn. tauto.
  - eapply kq_bindk; [st; exact HP|apply kpp_kp, Write_kp|]. intros _. apply kq_ret. intros; exact I.
Qed.

(** Conn.ask *)
Context (Hask : forall c x m nx, kp (ask G c x m nx)).
Lemma Ask_kp c x m : kp (Ask G c x m).
Proof. top. unfold Ask. repeat first [apply kpp_kp, Hask|known|kpt1]. Qed.
Ltac known ::= first
  [ eapply kpp_bindq; [st|apply Namespace_kq; st|intros; cbn beta]
  | eapply kpp_bindq; [st|apply tryNamespace_kq; st|intros; cbn beta]
  | eapply kpp_weak; [apply forceLeaveAll_kpp|force]
  | eapply kpp_weak; [apply notifyNamespaceConnected_kpp|hear]
  | eapply kpp_bindq; [st|eapply kq_weak; [apply proc_Start_kp|intros; exact I]|intros; cbn beta]
  | eapply kpp_weak; [apply proc_Done_kp|pre]
  | apply kpp_kp; first [apply wait_kp; assumption|apply unwait_kp; first [left; assumption|right; assumption]|apply proc_get_kp|apply proc_Wait_kp
  |apply Namespace_kp|apply Close_kp|apply Is_kp|apply canWrite_kp|apply Write_kp|apply writeEmptyReply_kp; assumption
  |apply exch_call_kp|apply notifyNamespaceDisconnect_kp|apply Ask_kp|apply Hask] ].
Lemma askConnect_kpp c x s : kpp (fun l => vx l c) (askConnect G c x s).
Proof. unfold askConnect, askConnect_body. kt. Qed.

(** The two loops that call themselves. *)
Context (Hloop : forall c x ns t, allowed (AConnectLoop c x ns t)) (Hwc : forall c x ns cur, allowed (AWaitConnect c x ns cur)).
Lemma Connect_loop_kp c x s t : kp (Connect_loop G c x s t).
Proof. top. unfold Connect_loop. repeat first [eapply kpp_weak; [apply askConnect_kpp|pre]|apply kpp_kp, kp_call; [apply Hloop|intros; apply kp_ret]|known|kpt1]. Qed.
Lemma Connect_kp c x s : kp (Connect G c x s).
Proof. top. unfold Connect. repeat first [eapply kpp_weak; [apply askConnect_kpp|pre]|apply kpp_kp, Connect_loop_kp|known|kpt1]. Qed.
Lemma WaitConnect_kp c x s cur : kp (WaitConnect c x s cur).
Proof. top. unfold WaitConnect. repeat first [apply kpp_kp, kp_call; [apply Hwc|intros; apply kp_ret]|known|kpt1]. Qed.
Lemma replyConnect_kpp c m : no_semicolon (m_wait m) -> m_event m = OnNamespaceConnect -> kpp (fun l => vh l c) (replyConnect G c m).
Proof. intros Hw Hm. unfold replyConnect. kt. Qed.
Lemma askDisconnect_kp c x m b : kp (askDisconnect G c x m b).
Proof. top. unfold askDisconnect. kt. Qed.
Lemma DisconnectAll_kp c x : kp (DisconnectAll G c x).
Proof. top. unfold DisconnectAll. repeat first [apply kpp_kp, askDisconnect_kp|known|kpt1]. Qed.
Lemma replyDisconnect_kpp c m : no_semicolon (m_wait m) -> kpp (fun l => vh l c) (replyDisconnect G c m).
Proof. intros Hw. unfold replyDisconnect. kt. Qed.
Lemma askRoomJoin_kpp n x s : kpp (fun l => vn l n) (askRoomJoin G n x s).
Proof. pose proof (u_nm U n) as Hnm. unfold askRoomJoin. kt. Qed.
Lemma replyRoomJoin_kpp c n m : no_semicolon (m_wait m) -> m_event m = OnRoomJoin -> kpp (fun l => vn l n /\ vh l c /\ own n c /\ nm n (m_namespace m)) (replyRoomJoin G n m).
Proof. intros Hw Hm. unfold replyRoomJoin. kt. Qed.
Definition leaves (m : message) : Prop := m_event m = OnRoomLeave /\ ~ from_remote m /\ ~ from_remote (set_event OnRoomLeft m).
Lemma askRoomLeave_kpp n x m b : leaves m -> kpp (fun l => vn l n) (askRoomLeave G n x m b).
Proof. intros (Hm & Hm1 & Hm2). unfold askRoomLeave. kt. Qed.
Lemma Room_kpp n s : kpp (fun l => vn l n) (Room n s).
Proof. unfold Room. kt. Qed.
Lemma replyRoomLeave_kpp c n m : no_semicolon (m_wait m) -> m_event m = OnRoomLeave -> kpp (fun l => vn l n /\ vh l c /\ own n c) (replyRoomLeave G n m).
Proof. intros Hw Hm. unfold replyRoomLeave. repeat first [eapply kpp_weak; [apply Room_kpp|pre]|known|kpt1]. Qed.
Lemma Rooms_kpp n : kpp (fun l => match n with Some n => vn l n | None => True end) (Rooms n).
Proof. unfold Rooms. destruct n; kt. Qed.
Lemma LeaveAll_kpp n x : kpp (fun l => match n with Some n => vn l n | None => True end) (LeaveAll G n x).
Proof. unfold LeaveAll. destruct n as [n|]; [|kt]. repeat first [eapply kpp_weak; [apply askRoomLeave_kpp; split; [reflexivity|]; split; intros [Hr _]; cbn in Hr; discriminate Hr|pre]|known|kpt1]. Qed.
Lemma add_counter_kp c k d : kp (add_counter c k d).
Proof. top. unfold add_counter. kt. Qed.
Ltac pre2 := let l := fresh "l" in let H := fresh "H" in
  intros l H; cbn beta iota in H |- *; repeat match goal with H : _ /\ _ |- _ => destruct H end; repeat split; assumption.
Lemma handle_event_kpp c m : no_semicolon (m_wait m) -> kpp (fun l => vh l c) (handle_event G c m).
Proof.
  intros Hw. unfold handle_event. repeat first [eapply kpp_weak; [apply replyConnect_kpp; [exact Hw|]; apply String.eqb_eq; assumption|pre]|eapply kpp_weak; [apply replyDisconnect_kpp, Hw|pre]
    |eapply kpp_weak; [apply (replyRoomJoin_kpp c); [exact Hw|]; apply String.eqb_eq; assumption|pre2]|eapply kpp_weak; [apply (replyRoomLeave_kpp c); [exact Hw|]; apply String.eqb_eq; assumption|pre2]|known|kpt1].
Qed.

(** Replies. *)
Context (Hsend : forall c m, kpp (fun l => vh l c) (handle_event G c m) -> kpp (fun l => vh l c) (handle_reply_or_event G c m)).
Context (Hmsg : forall c m, kpp (fun l => vh l c) (handle_event G c m) -> kpp (fun l => vh l c) (handle_reply_or_event G c m) ->
  (forall n m', own n c -> kpp (fun l => vn l n /\ jd l n /\ vh l c) (fireEvent G n m')) -> kpp (fun l => vh l c) (handleMessage G c m)).
Lemma handleMessage_kpp c m : no_semicolon (m_wait m) -> kpp (fun l => vh l c) (handleMessage G c m).
Proof. intros Hw. apply Hmsg; [apply handle_event_kpp, Hw|apply Hsend, handle_event_kpp, Hw|intros n m' Ho; eapply kpp_weak; [apply fireEvent_kpp|hear]]. Qed.
Lemma HandlePayload_kpp c typ b : kpp (fun l => vh l c) (HandlePayload G c typ b).
Proof. apply handleMessage_kpp, wait_clean. Qed.
Lemma handleQueue_kpp c : kpp (fun l => vh l c) (handleQueue G c).
Proof. unfold handleQueue. repeat first [eapply kpp_weak; [apply HandlePayload_kpp|pre]|known|kpt1]. Qed.
Context (Hack : forall c typ b, kpp (fun l => vh l c) (handleQueue G c) -> (forall s bin, shake s -> kp (write G c s bin)) -> gw c -> kp (wait c) -> (forall e, kp (unwait c e)) ->
  kpp (fun l => rd l c) (handleACK G c typ b)).
Context (Hprw : forall l c, pr l c -> gw c).
Lemma handleACK_kpp c typ b : gw c -> kpp (fun l => rd l c) (handleACK G c typ b).
Proof. intros Hg. apply Hack; intros; [apply handleQueue_kpp|apply write_shake; assumption|exact Hg|apply wait_kp, Hg|apply unwait_kp; left; exact Hg]. Qed.
Lemma sendClientACK_kp c : gw c -> kp (sendClientACK G c).
Proof. intros Hg. top. unfold sendClientACK. repeat first [apply kpp_kp, write_shake; cbn; tauto|known|kpt1]. Qed.
Lemma reader_step_kpp c : kpp (fun l => pr l c) (reader_step G c).
Proof.
  intros l0 Hl0. pose proof (Hprw l0 c Hl0) as Hg. refine (_ : ok (S := S) l0 (reader_step G c) _). unfold reader_step. eapply (ok_seq S M); [apply read_kq, Hl0|]. intros r0 l1 [Hl1 Hrd].
  eapply (ok_mono S M); [intros r l' Hl'; exact (Rt _ _ _ Hl1 Hl')|]. clear l0 Hl0 Hl1. revert l1 Hrd.
  refine (_ : kpp (fun l => rd l c) _). revert r0. intros [e|[typ b]]; [kt|].
  destruct (is_empty b); [kt|]. eapply kpp_bindq; [st|apply acked_kq|]. intros acked; cbn beta.
  destruct acked; cbn [negb]; [|eapply kpp_weak; [apply handleACK_kpp, Hg|pre]].
  apply kpp_bind; [st|kt|intros _]. apply kpp_bind; [st|eapply kpp_weak; [apply HandlePayload_kpp|pre]|intros _]. kt.
Qed.
Lemma publishMessages_kp c msgs : kp (publishMessages G c msgs).
Proof. induction msgs as [|m msgs IH]; cbn [publishMessages]; top; repeat first [apply kpp_kp; exact IH|known|kpt1]. Qed.

(** The broadcaster. *)
Context (Hwaitm : forall c l, ls_start S (TWaitMessages c) l -> (forall msgs, kp (publishMessages G c msgs)) -> ok (S := S) l (waitMessages G c) (fun r l' => if r : bool then ls_start S (TWaitMessages c) l' else ls_fin S l')).
Context (Hbcast : forall msgs, kp (broadcast msgs)).
Lemma exclusion_kp e : kp (exclusion G e).
Proof. top. unfold exclusion. kt. Qed.
Lemma Broadcast_kp e msgs : kp (Broadcast G e msgs).
Proof. top. unfold Broadcast. repeat first [apply kpp_kp, exclusion_kp|apply kpp_kp, Hbcast|apply kpp_kp, bcsend_kp; assumption|known|kpt1]. Qed.
Lemma NSBroadcast_kp n o msgs : kp (NSBroadcast G n o msgs).
Proof. top. unfold NSBroadcast. repeat first [apply kpp_kp, Broadcast_kp|kpt1]. Qed.
Context (HServerAsk : forall x m, (forall e msgs, kp (Broadcast G e msgs)) -> kp (ServerAsk G x m)).
Lemma DoAct_kp f b : kp (DoAct f b).
Proof. top. unfold DoAct. kt. Qed.
Lemma ServerClose_kp : kp ServerClose.
Proof. top. unfold ServerClose. repeat first [apply kpp_kp, DoAct_kp|known|kpt1]. Qed.
Lemma collect_conns_kp l acc : kp (collect_conns l acc).
Proof. revert acc; induction l as [|c l IH]; intros acc; cbn [collect_conns]; top; repeat first [apply kpp_kp, IH|known|kpt1]. Qed.
Lemma collect_nss_kp l name acc : kp (collect_nss l name acc).
Proof. revert acc; induction l as [|c l IH]; intros acc; cbn [collect_nss]; top; repeat first [apply kpp_kp, IH|known|kpt1]. Qed.

(** What a call needs. *)
Definition need (l : L) (a : api) : Prop :=
  match a with
  | AHandlePayload c _ _ => vh l c
  | ARoom (Some n) _ | ARooms (Some n) | AJoinRoom (Some n) _ _ | ALeaveAll (Some n) _ | ARoomLeave n _ _ => vn l n
  | _ => True
  end.
Lemma impl_kp a l : need l a -> ok (S := S) l (impl G a) (fun _ l' => R l l').
Proof.
  intros Hn. change (kpp (fun l => need l a) (impl G a)) with (forall l, need l a -> ok (S := S) l (impl G a) (fun _ l' => R l l')).
  assert (H : kpp (fun l => need l a) (impl G a)); [|exact (H l Hn)]. clear l Hn.
  destruct a; cbn [impl need]; unfold Emit, NSAsk, JoinRoom, Disconnect, RoomEmit, RoomLeave;
    repeat first [apply kpp_kp; first [apply Connect_kp|apply Connect_loop_kp|apply WaitConnect_kp|apply DisconnectAll_kp|apply add_counter_kp
    |apply askDisconnect_kp|apply NSBroadcast_kp|apply Broadcast_kp
    |apply HServerAsk, Broadcast_kp|apply DoAct_kp|apply ServerClose_kp|apply collect_conns_kp|apply collect_nss_kp]
    |eapply kpp_weak; [first [apply HandlePayload_kpp|apply Room_kpp|apply Rooms_kpp|apply askRoomJoin_kpp|apply LeaveAll_kpp|apply askRoomLeave_kpp; split; [reflexivity|]; split; intros [_ Hr]; apply Hr; cbn; auto]|pre]|known|kpt1].
Qed.

(** Goroutines. *)
Context (Hserver : forall l, ls_start S TServerLoop l -> (forall c msgs, kp (publishMessages G c msgs)) -> (forall c, exists f, Close G c = bind (opr (OCasClosed c)) f /\ forall r, kpp (fun l => r = true -> cl l c) (f r)) -> (forall k c, kp (g_do G k c)) ->
  (forall x, kp (exch_call G x)) -> (forall f c, g_ondisconnect G = Some f -> kp (f c)) -> ok (S := S) l (server_step G) (fun _ l' => ls_start S TServerLoop l')).
Context (Hboot : forall l, ls_start S TServer l -> ok (S := S) l (opr OSClosedReset) (fun _ l' => ls_start S TServerLoop l')).
Context (Hupgrade : forall c l, ls_start S (TUpgrade c) l -> (gw c \/ g_client G c = false -> forall e, kp (unwait c e)) -> (forall f, g_onconnect G = Some f -> kp (f c)) ->
  ok (S := S) l (Upgrade G c) (fun _ l' => R l l')).
Context (Hdial : forall c l, ls_start S (TDial c) l -> (gw c -> kp (sendClientACK G c)) -> ok (S := S) l (Dial G c) (fun _ l' => R l l')).
Context (Hnext : forall c ch l, ls_start S (TReadNext c ch) l -> ok (S := S) l (read_next G c ch) (fun _ l' => R l l')).
Definition ends (t : tcode) : bool := match t with TServer | TServerLoop => false | _ => true end.
Context (Hfin : forall t l l', ls_start S t l -> ends t = true -> R l l' -> ls_fin S l').
Context (Hst1 : forall c l l', ls_start S (TReader c) l -> R l l' -> ls_start S (TReaderLoop c) l').

Lemma code_other_kp t l : (forall c, t <> TReaderLoop c) -> ls_start S t l -> ok (S := S) l (code G t) after.
Proof.
  intros Hnr Hs.
  assert (Hend : forall A (p : prog A), ends t = true -> ok (S := S) l p (fun _ l' => R l l') -> ok (S := S) l (bind p (fun _ => Ret None)) after).
  { intros A p Ht H. eapply (ok_seq S M); [exact H|]. intros r l' Hl. cbn. eapply Hfin; eassumption. }
  destruct t; cbn [code].
  - apply Hend; [reflexivity|]. apply kp_user, (ua_user allowed G (u_app U)).
  - eapply (ok_seq S M); [apply (kp_opr (OIsClosed c) eq_refl)|]. intros r l' Hl. cbn. destruct r; [eapply Hfin; eauto|]. eapply Hst1; eassumption.
  - destruct (Hnr c eq_refl).
  - apply Hend; [reflexivity|]. apply Hnext, Hs.
  - apply Hend; [reflexivity|]. cbn [ok opr]. apply (u_disc U); [exact Hs|]. intros r l' H. exact H.
  - eapply (ok_seq S M); [apply Hboot, Hs|]. intros r l' Hl. exact Hl.
  - eapply (ok_seq S M); [apply Hserver; [exact Hs|apply publishMessages_kp|apply Close_split| |apply exch_call_kp|]|].
    + intros k c. apply kp_user, (ua_do allowed G (u_app U)).
    + intros f c H. apply kp_user, (ua_ondisconnect allowed G (u_app U) f c H).
    + intros r l' Hl. exact Hl.
  - apply Hend; [reflexivity|]. apply Hupgrade; [exact Hs|intros Hg e; apply unwait_kp, Hg|]. intros f H. apply kp_user, (ua_onconnect allowed G (u_app U) f c H).
  - eapply (ok_seq S M); [apply Hwaitm; [exact Hs|apply publishMessages_kp]|]. intros r l' Hl. cbn. destruct r; exact Hl.
  - apply Hend; [reflexivity|]. apply Hdial; [exact Hs|apply sendClientACK_kp].
Qed.
Context (Hpr : forall c l, ls_start S (TReaderLoop c) l -> pr l c).
Context (Hst2 : forall c l l', ls_start S (TReaderLoop c) l -> R l l' -> ls_start S (TReaderLoop c) l').
Lemma code_kp t l : ls_start S t l -> ok (S := S) l (code G t) after.
Proof.
  destruct t; try (apply code_other_kp; congruence). intros Hs. cbn [code].
  eapply (ok_seq S M); [apply reader_step_kpp, Hpr, Hs|]. intros r l' Hl. destruct r; [cbn; eapply Hst2; eassumption|].
    eapply (ok_seq S M); [apply Close_kp|]. intros r l'' Hl'. cbn. eapply Hfin; [exact Hs|reflexivity|exact (Rt _ _ _ Hl Hl')].
Qed.
End frame.

(** Programs without special operations, for an instance in which [F] says
    that the other operations only increase what is known. *)
Ltac kfree U F := repeat first
  [ apply (kp_ret U) | apply (kp_crash U) | apply F; reflexivity | assumption
  | match goal with H : forall _, _ |- _ => apply H; fail end
  | apply (kp_for_all U); intros | apply (kp_bind U); [|intros]
  | match goal with |- @kp _ _ _ ?p => match p with context [match ?x with _ => _ end] => destruct x eqn:? end end ].
