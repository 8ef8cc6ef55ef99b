(** * ReplyProofs.v : which message an Ask returns, in every interleaving
    (C23, C28, and the reader's side of C27). *)
From Coq Require Import ZArith.
From stdpp Require Import gmap strings list relations.
From RecordUpdate Require Import RecordUpdate.
From Verif Require Import Go Errors Message World Lang Code Sem Spec_Conn Spec_View Examples Scenes ExecProofs Logic Spec_App Frame Spec_Wire CodecProofs WireProofs.

#[local] Arguments Write : simpl never.
#[local] Arguments Broadcast : simpl never.
#[local] Arguments handle_event : simpl never.
#[local] Arguments handle_reply_or_event : simpl never.
#[local] Arguments send : simpl never.

(** What a channel is for: the replies with a token to a Conn.Ask, to a
    Server.Ask, or the next frame. *)
Inductive use : Type := UConn (tok : string) | USrv (tok : string) | UNext.
Definition use_cap (u : use) : nat := match u with USrv _ => 0 | _ => 1 end.
Definition use_ok (u : use) (m : message) : Prop := match u with UConn tok | USrv tok => m_wait m = tok | UNext => True end.

(** A goroutine knows the use of some channels and owns channels that nobody
    else knows. *)
Record know : Type := Know { ku : gmap chid use; own : gmap chid nat }.
Definition k0 : know := Know ∅ ∅.
Definition bindc (ch : chid) (u : use) (l : know) : know := Know (<[ch := u]> (ku l)) (delete ch (own l)).
Definition knows (l l' : know) : Prop := ku l ⊆ ku l'.

Section reply.
Context (G : cfg).

Definition ask_token (c : cid) (tok : string) : Prop := exists now, tok = genWait (g_client G c) now.
Definition srv_token (tok : string) : Prop := exists now, tok = genWait false now.

Definition rrule (l : know) (o : op) : (res o -> know -> Prop) -> Prop :=
  match o as o return (res o -> know -> Prop) -> Prop with
  | ONewChan cap => fun P => forall ch, own l !! ch = None -> P ch (Know (ku l) (<[ch := cap]> (own l)))
  | OWaitPut c tok ch => fun P => ask_token c tok /\ own l !! ch = Some 1 /\ (ku l !! ch = None -> P tt (bindc ch (UConn tok) l))
  | OSWaitPut tok ch => fun P => own l !! ch = Some 0 /\ (ku l !! ch = None -> P tt (bindc ch (USrv tok) l))
  | OSpawn (TReadNext c ch) => fun P => own l !! ch = Some 1 /\ (ku l !! ch = None -> P tt (bindc ch UNext l))
  | OWaitGet c tok => fun P => forall r l', knows l l' ->
      (forall ch, r = Some ch -> ku l' !! ch = Some (UConn tok)) -> P r l'
  | OSWaitGet tok => fun P => forall r l', knows l l' ->
      (forall ch, r = Some ch -> ku l' !! ch = Some (USrv tok)) -> P r l'
  | OChSend ch m => fun P => exists u, ku l !! ch = Some u /\ use_ok u m /\ forall r, P r l
  | OSelect ch x => fun P => exists u, ku l !! ch = Some u /\
      forall r, (forall m, r = inr m -> use_ok u m) -> P r l
  | OLog (LAskReply c tok m nx) => fun P => ask_token c tok /\ (nx = false -> m_wait m = tok) /\ P tt l
  | OLog (LServerReply tok m) => fun P => srv_token tok /\ m_wait m = tok /\ P tt l
  | _ => fun P => forall r, P r l
  end.

Definition neutral (o : op) : bool :=
  match o with
  | ONewChan _ | OWaitPut _ _ _ | OSWaitPut _ _ | OChSend _ _ | OSelect _ _ | OWaitGet _ _ | OSWaitGet _
  | OSpawn (TReadNext _ _) | OLog (LAskReply _ _ _ _) | OLog (LServerReply _ _) => false
  | _ => true
  end.

Definition rstart (t : tcode) (l : know) : Prop :=
  match t with TReadNext c ch => ku l !! ch = Some UNext | _ => True end.

Definition RS : lspec := {|
  ls_L := know; ls_rule := rrule; ls_cpre := fun _ _ => True; ls_cpost := fun l a r l' => knows l l';
  ls_crash := fun _ => True; ls_start := rstart; ls_fin := fun _ => True |}.

Lemma rmono : rule_mono RS.
Proof.
  intros l o P P' H. destruct o; try match goal with x : tcode |- _ => destruct x | x : event |- _ => destruct x end; cbn in *; intros HP;
    repeat match goal with H : _ /\ _ |- _ => destruct H | H : ex _ |- _ => destruct H end; eauto 10.
Qed.

Lemma knows_refl l : knows l l. Proof. unfold knows. reflexivity. Qed.
Lemma knows_trans a b c : knows a b -> knows b c -> knows a c.
Proof. unfold knows. intros H1 H2. etransitivity; eassumption. Qed.
Lemma knows_bind ch u l : ku l !! ch = None -> knows l (bindc ch u l).
Proof. intros H. unfold knows, bindc. cbn. apply insert_subseteq, H. Qed.

(** ** The code follows the rules. *)
Context (A : user_app (fun _ => True) G).

Notation any := (fun _ _ => True).
Lemma rrules : @rules G RS (fun _ => True) knows any any any any any any any any any any (fun _ _ _ _ => True) (fun _ _ => True).
Proof.
  constructor; cbn; unfold stable; auto using rmono, knows_refl; try (intros; eauto using knows_refl; fail);
    [apply knows_trans| |intros c s l P H r; apply H; [apply knows_refl|destruct r; repeat split]|intros o n l P Ho _ H; destruct o; try discriminate Ho; cbn; intros; apply H; apply knows_refl].
  intros o l P Hp H. pose proof (knows_refl l) as Hr. destruct o; cbn in *; try discriminate; eauto; try (intros; eapply H; eassumption);
    try match goal with x : tcode |- _ => destruct x | x : event |- _ => destruct x end; try discriminate; cbn; eauto.
Qed.
Notation kp := (@kp RS knows _).

Lemma r_free o : neutral o = true -> kp (opr o).
Proof. intros H l. cbn. unfold neutral in H. destruct o; try discriminate; cbn; intros; try apply knows_refl;
  match goal with x : tcode |- _ => destruct x | x : event |- _ => destruct x end; try discriminate; cbn; intros; apply knows_refl. Qed.
Ltac kf := kfree rrules r_free.
Lemma r_gates : @gates G RS knows (fun _ _ => True) (fun _ => True).
Proof.
  constructor; intros.
  - unfold wait. kf.
  - unfold unwait. kf.
  - unfold proc_get. kf.
  - apply (kpp_kp rrules). unfold proc_Done. kf.
  - unfold proc_Wait. kf.
  - apply (kq_any rrules); [auto|]. unfold proc_Start. kf.
Qed.
Lemma r_ask c x m nx : kp (ask G c x m nx).
Proof.
  intros l. unfold ask. destruct (onlyNative G c); [apply knows_refl|]. cbn.
  intros closed; destruct closed; cbn; [apply knows_refl|]. intros late; destruct late; cbn; [apply knows_refl|].
  intros ch Hch now _. set (tok := genWait (IsClient G c) now).
  eapply (ok_seq RS rmono) with (P := fun _ l' => knows l l' /\ ku l' !! ch = Some (if nx then UNext else UConn tok)).
  { destruct nx; cbn; rewrite lookup_insert; [|split; [eexists; reflexivity|]]; (split; [reflexivity|]); intros Hn; (split; [|apply lookup_insert]); unfold knows; cbn; apply insert_subseteq, Hn. }
  intros _ l1 [Hk1 Hb1].
  eapply (ok_seq RS rmono); [apply (Write_kp rrules r_gates)|]. intros ok l2 Hk2. cbn beta in Hk2.
  assert (Hk : knows l l2) by (eapply knows_trans; eassumption).
  assert (Hb : ku l2 !! ch = Some (if nx then UNext else UConn tok)) by (unfold knows in Hk2; eapply lookup_weaken; eassumption).
  destruct ok; [|exact Hk]. cbn. eexists; split; [exact Hb|]. intros [e|m'] Hm; cbn; [intros; exact Hk|].
  specialize (Hm m' eq_refl). destruct nx; cbn in *.
  - split; [eexists; reflexivity|]. split; [discriminate|exact Hk].
  - intros _. split; [eexists; reflexivity|]. split; [intros _; exact Hm|exact Hk].
Qed.

Lemma r_send ch m l u : ku l !! ch = Some u -> use_ok u m -> ok (S := RS) l (send ch m) (fun _ l' => knows l l').
Proof. intros H1 H2. unfold send. cbn. exists u. split; [exact H1|]. split; [exact H2|]. intros r _. apply knows_refl. Qed.
Lemma r_reply c m : kp (handle_event G c m) -> kp (handle_reply_or_event G c m).
Proof.
  intros H l. unfold handle_reply_or_event. cbn. intros r l' Hk Hr. destruct r as [ch|].
  - eapply (ok_seq RS rmono); [eapply r_send; [apply Hr; reflexivity|reflexivity]|]. intros r0 l'' Hk'. cbn in *. eapply knows_trans; eassumption.
  - eapply (ok_mono RS rmono); [|apply H]. intros r' l'' Hk'. cbn in *. eapply knows_trans; eassumption.
Qed.
Lemma r_message c m : (forall m', kp (handle_event G c m')) -> kp (handle_reply_or_event G c m) ->
  (forall n m', kp (fireEvent G n m')) -> kp (handleMessage G c m).
Proof.
  intros He Hr Hf. unfold handleMessage. destruct (m_isInvalid m); [apply (kp_ret rrules)|].
  assert (Hs : kp (bind (opr (OSWaitGet (m_wait m))) (fun w => match w with Some ch => bind (send ch m) (fun _ => Ret None) | None => handle_reply_or_event G c m end))).
  { intros l. cbn. intros r l' Hk Hb. destruct r as [ch|].
    - eapply (ok_seq RS rmono); [eapply r_send; [apply Hb; reflexivity|reflexivity]|]. intros r0 l'' Hk'. cbn in *. eapply knows_trans; eassumption.
    - eapply (ok_mono RS rmono); [|apply Hr]. intros r' l'' Hk'. cbn in *. eapply knows_trans; eassumption. }
  destruct (m_isNative m && onlyNative G c).
  - apply (kp_bind rrules); [apply (Namespace_kp rrules r_gates)|]. intros [n|]; [apply Hf|apply (kp_crash rrules)].
  - destruct (IsWait (IsClient G c) m); [|apply He]. destruct (IsClient G c); [exact Hr|].
    destruct (g_exch G) as [ex|]; [|exact Hs]. destruct (m_fromStackExchange m); [|exact Hs].
    apply (kp_bind rrules); [apply (kp_opr rrules); reflexivity|]. intros _. apply (kp_ret rrules).
Qed.
Lemma r_ack c typ b : kp (handleQueue G c) -> (forall s bin, kp (write G c s bin)) -> kp (wait c) -> (forall e, kp (unwait c e)) ->
  kp (handleACK G c typ b).
Proof. intros H1 H2 H3 H4. unfold handleACK. kf. Qed.
Notation kpp := (@kpp RS knows _ (fun _ => True)).
Lemma kpp_kp1 {X} (p : prog X) : kpp p <-> kp p.
Proof. split; [intros H l; apply H; exact Logic.I|intros H l _; apply H]. Qed.
Lemma r_reply' c m : kpp (handle_event G c m) -> kpp (handle_reply_or_event G c m).
Proof. rewrite !kpp_kp1. apply r_reply. Qed.
Lemma r_message' c m : (forall m', kpp (handle_event G c m')) -> kpp (handle_reply_or_event G c m) ->
  (forall (n : nsref) m', True -> @Frame.kpp RS knows _ (fun _ => True /\ True /\ True) (fireEvent G n m')) -> kpp (handleMessage G c m).
Proof. rewrite !kpp_kp1. intros H1 H2 H3. apply r_message; [intros; apply kpp_kp1, H1|exact H2|intros n m' l; apply H3; auto]. Qed.
Lemma r_ack' c typ b : kpp (handleQueue G c) -> (forall s bin, kp (write G c s bin)) -> kp (wait c) -> (forall e, kp (unwait c e)) ->
  kpp (handleACK G c typ b).
Proof. rewrite !kpp_kp1. apply r_ack. Qed.
Lemma r_waitm c l : ls_start RS (TWaitMessages c) l -> (forall msgs, kp (publishMessages G c msgs)) -> ok (S := RS) l (waitMessages G c) (fun r l' => if r : bool then ls_start RS (TWaitMessages c) l' else ls_fin RS l').
Proof.
  intros _ H. apply (ok_mono RS rmono l (waitMessages G c) (fun _ l' => knows l l')); [intros [|] ? _; exact Logic.I|]. revert l. change (kp (waitMessages G c)). unfold waitMessages, publish. kf. Qed.
Lemma r_broadcast msgs : kp (broadcast msgs).
Proof. unfold broadcast. kf. Qed.
Lemma r_srvask x m : (forall e msgs, kp (Broadcast G e msgs)) -> kp (ServerAsk G x m).
Proof.
  intros HB l. unfold ServerAsk. cbn. intros now. destruct (g_exch G) as [ex|]; [cbn; intros; apply knows_refl|].
  cbn. intros ch Hch. rewrite lookup_insert. split; [reflexivity|]. intros Hn.
  eapply (ok_seq RS rmono); [apply HB|]. intros r0 l2 Hk2. cbn beta in Hk2.
  assert (Hk : knows l l2).
  { eapply knows_trans; [|exact Hk2]. unfold knows. cbn. apply insert_subseteq, Hn. }
  assert (Hb : ku l2 !! ch = Some (USrv (genWait false now))).
  { unfold knows in Hk2. eapply lookup_weaken; [|exact Hk2]. apply lookup_insert. }
  cbn. eexists; split; [exact Hb|]. intros [e|m'] Hm; cbn; [exact Hk|].
  specialize (Hm m' eq_refl). intros _. split; [eexists; reflexivity|]. split; [exact Hm|exact Hk].
Qed.
Lemma r_server l : ls_start RS TServerLoop l -> (forall c msgs, kp (publishMessages G c msgs)) -> (forall c, exists f, Close G c = bind (opr (OCasClosed c)) f /\ forall r : bool, @Frame.kpp RS knows _ (fun _ => r = true -> True) (f r)) -> (forall k c, kp (g_do G k c)) ->
  (forall x, kp (exch_call G x)) -> (forall f c, g_ondisconnect G = Some f -> kp (f c)) -> ok (S := RS) l (server_step G) (fun _ l' => ls_start RS TServerLoop l').
Proof.
  intros _ H1 H2 H2' H3 H4. apply (ok_mono RS rmono l (server_step G) (fun _ l' => knows l l')); [intros; exact Logic.I|]. revert l. change (kp (server_step G)).
  assert (HC : forall c, kp (Close G c)) by (intros c; destruct (H2 c) as (f & -> & Hf); assert (Hf' : forall r, kp (f r)) by (intros r l; apply (Hf r); auto); kf).
  unfold server_step, publish, act_call. apply (kp_bind rrules); [kf|]. intros x. apply (kp_bind rrules); [kf|]. intros _.
  destruct x; [kf| |kf|kf]. destruct (g_ondisconnect G) as [f|] eqn:E; [|kf]. pose proof (fun c => H4 f c eq_refl) as H5. kf.
Qed.
Lemma r_upgrade c : (forall e, kp (unwait c e)) -> (forall f, g_onconnect G = Some f -> kp (f c)) -> kp (Upgrade G c).
Proof.
  intros H1 H2. unfold Upgrade, newConn. destruct (g_onconnect G) as [f|] eqn:E; [pose proof (H2 f eq_refl)|]; kf.
Qed.
Lemma r_dial c : kp (sendClientACK G c) -> kp (Dial G c).
Proof. intros H. unfold Dial, newConn. kf. Qed.
Lemma r_next c ch l : rstart (TReadNext c ch) l -> ok (S := RS) l (read_next G c ch) (fun _ l' => knows l l').
Proof.
  cbn [rstart]. intros H. unfold read_next. cbn. intros [e|[typ b]]; (eapply r_send; [exact H|exact Logic.I]).
Qed.

(** ** The invariant. *)
Definition logged_ok (e : event) : Prop :=
  match e with
  | LAskReply c tok m nx => ask_token c tok /\ (nx = false -> m_wait m = tok)
  | LServerReply tok m => srv_token tok /\ m_wait m = tok
  | _ => True
  end.
Record RInv (w : world) (Ls : gmap tid know) (B : gmap chid use) : Prop := {
  ri_know : forall (t : tid) l, Ls !! t = Some l -> ku l ⊆ B;
  ri_own : forall (t : tid) l (ch : chid) cap, Ls !! t = Some l -> own l !! ch = Some cap ->
    ch < w_next w /\ B !! ch = None /\ chan_of w ch = chan0 cap;
  ri_excl : forall (t1 t2 : tid) l1 l2 (ch : chid) c1 c2, Ls !! t1 = Some l1 -> Ls !! t2 = Some l2 ->
    own l1 !! ch = Some c1 -> own l2 !! ch = Some c2 -> t1 = t2;
  ri_next : forall (ch : chid) u, B !! ch = Some u -> ch < w_next w;
  ri_cap : forall ch u, B !! ch = Some u -> ch_cap (chan_of w ch) = use_cap u;
  ri_buf : forall ch u, B !! ch = Some u -> Forall (use_ok u) (ch_buf (chan_of w ch));
  ri_wait : forall c tok ch, c_waiting (conn_of w c) !! tok = Some ch -> B !! ch = Some (UConn tok);
  ri_tok : forall c tok ch, c_waiting (conn_of w c) !! tok = Some ch -> ask_token c tok;
  ri_swait : forall tok ch, s_waiting (w_srv w) !! tok = Some ch -> B !! ch = Some (USrv tok);
  ri_spawn : forall c ch, TReadNext c ch ∈ w_spawn w -> B !! ch = Some UNext;
  ri_log : forall e, e ∈ w_log w -> logged_ok e }.
Definition Inv (w : world) (Ls : gmap tid know) : Prop := exists B, RInv w Ls B.

(** What most operations do to the parts the invariant reads. *)
Record calm (w w' : world) : Prop := {
  cm_next : w_next w <= w_next w';
  cm_chans : w_chans w' = w_chans w;
  cm_wait : forall c tok ch, c_waiting (conn_of w' c) !! tok = Some ch -> c_waiting (conn_of w c) !! tok = Some ch;
  cm_swait : forall tok ch, s_waiting (w_srv w') !! tok = Some ch -> s_waiting (w_srv w) !! tok = Some ch;
  cm_spawn : forall c ch, TReadNext c ch ∈ w_spawn w' -> TReadNext c ch ∈ w_spawn w;
  cm_log : forall e, e ∈ w_log w' -> e ∈ w_log w \/ logged_ok e }.

Lemma conn_upd c f w c' : conn_of (upd_conn c f w) c' = if decide (c' = c) then f (conn_of w c) else conn_of w c'.
Proof.
  unfold conn_of, upd_conn. cbn. case_decide as E; [subst; rewrite lookup_insert; reflexivity|].
  rewrite lookup_insert_ne by congruence. reflexivity.
Qed.
Lemma chan_upd p f w p' : chan_of (upd_chan p f w) p' = if decide (p' = p) then f (chan_of w p) else chan_of w p'.
Proof.
  unfold chan_of, upd_chan. cbn. case_decide as E; [subst; rewrite lookup_insert; reflexivity|].
  rewrite lookup_insert_ne by congruence. reflexivity.
Qed.
Lemma chan_same w w' ch : w_chans w' = w_chans w -> chan_of w' ch = chan_of w ch.
Proof. unfold chan_of. intros ->. reflexivity. Qed.

Lemma calm_inv w w' Ls B : RInv w Ls B -> calm w w' -> RInv w' Ls B.
Proof.
  intros [K O E N C Bf W WT SW Sp Lg] [c1 c2 c3 c4 c5 c6]. constructor; auto.
  - intros t l ch cap H1 H2. destruct (O t l ch cap H1 H2) as (H3 & H4 & H5). rewrite (chan_same w w') by exact c2. split; [lia|auto].
  - intros ch u H. specialize (N ch u H). lia.
  - intros ch u H. rewrite (chan_same w w') by exact c2. eauto.
  - intros ch u H. rewrite (chan_same w w') by exact c2. eauto.
  - intros c tok ch H. eapply W, c3, H.
  - intros c tok ch H. eapply WT, c3, H.
  - intros c ch H. eapply Sp, c5, H.
  - intros e H. destruct (c6 e H); auto.
Qed.

Lemma calm_conn c f w : (forall tok ch, c_waiting (f (conn_of w c)) !! tok = Some ch -> c_waiting (conn_of w c) !! tok = Some ch) ->
  calm w (upd_conn c f w).
Proof.
  intros H. constructor; cbn; auto. intros c' tok ch. rewrite conn_upd. case_decide as E; [subst; apply H|auto].
Qed.
Lemma calm_srv f w : s_waiting (f (w_srv w)) ⊆ s_waiting (w_srv w) -> calm w (upd_srv f w).
Proof. intros H. constructor; cbn; auto. intros tok ch H1. eapply lookup_weaken; eassumption. Qed.
Lemma calm_refl w : calm w w.
Proof. constructor; auto. Qed.
Lemma calm_trans w1 w2 w3 : calm w1 w2 -> calm w2 w3 -> calm w1 w3.
Proof.
  intros [a1 a2 a3 a4 a5 a6] [b1 b2 b3 b4 b5 b6]. constructor; auto; [lia|congruence|].
  intros e H. destruct (b6 e H); auto.
Qed.
Lemma calm_pop w : calm w (pop_seed w).
Proof. unfold pop_seed. destruct w as [? ? ? ? ? ? ? ? [|s ss] ? ?]; constructor; cbn; auto. Qed.

Lemma neutral_rule l o P r : neutral o = true -> rrule l o P -> P r l.
Proof.
  intros Hn. destruct o; try discriminate; cbn; auto; match goal with x : tcode |- _ => destruct x | x : event |- _ => destruct x end; try discriminate; cbn; auto.
Qed.
Lemma neutral_calm t w o w' r : neutral o = true -> ostep t w o = Goes w' r -> calm w w'.
Proof.
  intros Hp H.
  destruct o; try discriminate; cbn in H;
    repeat match type of H with
    | context [match ?x with _ => _ end] => destruct x eqn:?; try discriminate
    end; injection H as <- <-;
    first [apply calm_refl | apply calm_pop
      | apply calm_conn; cbn; intros tok' ch' Hx; first [exact Hx | destruct typ; exact Hx | apply lookup_delete_Some in Hx; tauto | rewrite lookup_empty in Hx; discriminate]
      | apply calm_srv; cbn; first [reflexivity|apply delete_subseteq]
      | (constructor; cbn; auto; fail)
      | (eapply calm_trans; [apply calm_pop|first [apply calm_conn; cbn; auto; fail|apply calm_srv; cbn; reflexivity]])
      | idtac].
  - eapply calm_trans; [|apply calm_conn; cbn; auto]. constructor; cbn; auto.
  - eapply calm_trans; [apply calm_pop|]. apply calm_srv. cbn. destruct s; cbn; reflexivity.
  - constructor; cbn; auto. intros e. rewrite elem_of_cons. intros [-> | He]; [right; exact Logic.I|auto].
  - constructor; cbn; auto. intros c' tok ch. unfold conn_of. cbn. destruct (decide (c' = c)) as [->|Hne].
    + rewrite lookup_insert. cbn. rewrite lookup_empty. discriminate.
    + rewrite lookup_insert_ne by congruence. auto.
  - constructor; cbn; auto. intros c' tok ch. unfold conn_of. cbn. destruct (decide (c' = c)) as [->|Hne].
    + rewrite lookup_insert. cbn. rewrite lookup_empty. discriminate.
    + rewrite lookup_insert_ne by congruence. auto.
  - constructor; cbn; auto. intros c' ch. rewrite elem_of_app, elem_of_list_singleton. intros [H| <-]; [exact H|discriminate].
  - constructor; cbn; auto. intros e'. rewrite elem_of_cons. intros [-> | He]; [right|auto]. destruct e; try exact Logic.I; discriminate.
Qed.

Lemma inv_know w Ls (t : tid) l l' B : RInv w Ls B -> Ls !! t = Some l -> ku l' ⊆ B -> own l' = own l -> RInv w (<[t := l']> Ls) B.
Proof.
  intros [K O E N C Bf W WT SW Sp Lg] Ht Hk Ho. constructor; auto.
  - intros t' l1 H. apply lookup_insert_Some in H as [[<- <-]|[_ H]]; eauto.
  - intros t' l1 ch cap H H1. apply lookup_insert_Some in H as [[<- <-]|[_ H]]; [rewrite Ho in H1|]; eauto.
  - intros t1 t2 l1 l2 ch c1 c2 H1 H2 H3 H4.
    apply lookup_insert_Some in H1 as [[<- <-]|[Hn1 H1]]; apply lookup_insert_Some in H2 as [[<- <-]|[Hn2 H2]]; try rewrite Ho in *; eauto.
Qed.
Lemma inv_bind w w' Ls (t : tid) l ch cap u B : RInv w Ls B -> Ls !! t = Some l -> own l !! ch = Some cap -> use_cap u = cap ->
  w_next w' = w_next w -> w_chans w' = w_chans w ->
  (forall c tok ch', c_waiting (conn_of w' c) !! tok = Some ch' -> <[ch := u]> B !! ch' = Some (UConn tok)) ->
  (forall c tok ch', c_waiting (conn_of w' c) !! tok = Some ch' -> ask_token c tok) ->
  (forall tok ch', s_waiting (w_srv w') !! tok = Some ch' -> <[ch := u]> B !! ch' = Some (USrv tok)) ->
  (forall c ch', TReadNext c ch' ∈ w_spawn w' -> <[ch := u]> B !! ch' = Some UNext) ->
  w_log w' = w_log w ->
  ku l !! ch = None /\ RInv w' (<[t := bindc ch u l]> Ls) (<[ch := u]> B).
Proof.
  intros [K O E N C Bf W WT SW Sp Lg] Ht Hown Hcap Hnx Hch H1 H1' H2 H3 Hlg.
  destruct (O t l ch cap Ht Hown) as (Hlt & HB & Hc0).
  assert (Hn : ku l !! ch = None).
  { destruct (ku l !! ch) eqn:Ek; [|reflexivity]. pose proof (lookup_weaken _ _ _ _ Ek (K t l Ht)). congruence. }
  split; [exact Hn|]. constructor; auto.
  - intros t' l1 H. apply lookup_insert_Some in H as [[<- <-]|[_ H]].
    + unfold bindc. cbn. apply insert_mono, (K t l Ht).
    + etransitivity; [eapply K, H|]. apply insert_subseteq, HB.
  - intros t' l1 ch' cap' H Ho. rewrite Hnx. rewrite (chan_same w w') by exact Hch. apply lookup_insert_Some in H as [[<- <-]|[Hne H]].
    + cbn in Ho. apply lookup_delete_Some in Ho as [Hne Ho]. rewrite lookup_insert_ne by exact Hne. eauto.
    + destruct (O t' l1 ch' cap' H Ho) as (Ha & Hb & Hd). rewrite lookup_insert_ne; [eauto|].
      intros <-. apply Hne. eapply (E t t' l l1 ch); eassumption.
  - intros t1 t2 l1 l2 ch' c1 c2 G1 G2 G3 G4.
    apply lookup_insert_Some in G1 as [[<- <-]|[Hn1 G1]]; apply lookup_insert_Some in G2 as [[<- <-]|[Hn2 G2]];
      cbn in *; repeat match goal with H : delete _ _ !! _ = Some _ |- _ => apply lookup_delete_Some in H as [_ H] end; eauto.
  - intros ch' u' H. rewrite Hnx. apply lookup_insert_Some in H as [[<- <-]|[Hne H]]; [exact Hlt|]. eauto.
  - intros ch' u' H. rewrite (chan_same w w') by exact Hch. apply lookup_insert_Some in H as [[<- <-]|[Hne H]]; [rewrite Hc0; symmetry; exact Hcap|]. eauto.
  - intros ch' u' H. rewrite (chan_same w w') by exact Hch. apply lookup_insert_Some in H as [[<- <-]|[Hne H]]; [rewrite Hc0; constructor|]. eauto.
  - rewrite Hlg. exact Lg.
Qed.

Lemma inv_buf w Ls B ch u f : RInv w Ls B -> B !! ch = Some u -> ch_cap (f (chan_of w ch)) = ch_cap (chan_of w ch) ->
  Forall (use_ok u) (ch_buf (f (chan_of w ch))) -> RInv (upd_chan ch f w) Ls B.
Proof.
  intros [K O E N C Bf W WT SW Sp Lg] HB Hc Hb. constructor; auto.
  - intros t l ch' cap H1 H2. destruct (O t l ch' cap H1 H2) as (Ha & Hd & He). split; [exact Ha|]. split; [exact Hd|].
    rewrite chan_upd. case_decide; [congruence|exact He].
  - intros ch' u' H. rewrite chan_upd. case_decide; [subst ch'; rewrite Hc|]; eauto.
  - intros ch' u' H. rewrite chan_upd. case_decide; [subst ch'; congruence|]; eauto.
Qed.

Lemma reply_op t w Ls l o (P : res o -> know -> Prop) : Inv w Ls -> Ls !! t = Some l -> rrule l o P ->
  match ostep t w o with
  | Goes w' r => exists l', Inv w' (<[t := l']> Ls) /\ P r l'
  | Blocked => True
  | Panics why => True
  end.
Proof.
  intros [B HB] Ht HP. destruct (neutral o) eqn:En.
  { destruct (ostep t w o) as [w' r| |why] eqn:Es; auto. exists l. rewrite insert_id by exact Ht. split.
    - exists B. eapply calm_inv; [exact HB|]. eapply neutral_calm; eassumption.
    - eapply neutral_rule; eassumption. }
  destruct o; try discriminate En.
  - (* OWaitPut *) cbn in HP |- *. destruct HP as (Htk & Ho & HP).
    destruct (inv_bind w (upd_conn c (fun k => k <| c_waiting ::= <[tok := ch]> |>) w) Ls t l ch 1 (UConn tok) B HB Ht Ho) as [Hn HI]; auto.
    + intros c' tok' ch'. rewrite conn_upd. case_decide as Ec.
      * subst c'. cbn. intros H. apply lookup_insert_Some in H as [[<- <-]|[Hne H]]; [apply lookup_insert|].
        pose proof (ri_wait _ _ _ HB _ _ _ H) as H'. rewrite lookup_insert_ne; [exact H'|]. intros <-.
        destruct (ri_own _ _ _ HB _ _ _ _ Ht Ho) as (_ & H2 & _). congruence.
      * intros H. pose proof (ri_wait _ _ _ HB _ _ _ H) as H'. rewrite lookup_insert_ne; [exact H'|]. intros <-.
        destruct (ri_own _ _ _ HB _ _ _ _ Ht Ho) as (_ & H2 & _). congruence.
    + intros c' tok' ch'. rewrite conn_upd. case_decide as Ec; [subst c'; cbn; intros H; apply lookup_insert_Some in H as [[<- <-]|[_ H]]; [exact Htk|]|intros H];
        exact (ri_tok _ _ _ HB _ _ _ H).
    + intros tok' ch' H. pose proof (ri_swait _ _ _ HB _ _ H) as H'. rewrite lookup_insert_ne; [exact H'|]. intros <-.
      destruct (ri_own _ _ _ HB _ _ _ _ Ht Ho) as (_ & H2 & _). congruence.
    + intros c' ch' H. pose proof (ri_spawn _ _ _ HB _ _ H) as H'. rewrite lookup_insert_ne; [exact H'|]. intros <-.
      destruct (ri_own _ _ _ HB _ _ _ _ Ht Ho) as (_ & H2 & _). congruence.
    + eexists; split; [eexists; exact HI|apply HP, Hn].
  - (* OWaitGet *) cbn in HP |- *. destruct (c_waiting (conn_of w c) !! tok) as [ch|] eqn:Ew.
    + pose proof (ri_wait _ _ _ HB _ _ _ Ew) as Hb. pose proof (ri_know _ _ _ HB _ _ Ht) as Hk.
      assert (Hs : <[ch := UConn tok]> (ku l) ⊆ B).
      { apply insert_subseteq_l; assumption. }
      exists (Know (<[ch := UConn tok]> (ku l)) (own l)). split.
      * exists B. eapply inv_know; [exact HB|exact Ht|exact Hs|reflexivity].
      * apply HP; cbn; [|intros ch' [= <-]; apply lookup_insert].
        unfold knows. cbn. destruct (ku l !! ch) eqn:E1; [|apply insert_subseteq, E1].
        rewrite insert_id; [reflexivity|]. rewrite E1. pose proof (lookup_weaken _ _ _ _ E1 Hk). congruence.
    + exists l. rewrite insert_id by exact Ht. split; [exists B; exact HB|]. apply HP; [apply knows_refl|discriminate].
  - (* OSWaitPut *) cbn in HP |- *. destruct HP as [Ho HP].
    destruct (inv_bind w (upd_srv (fun s => s <| s_waiting ::= <[tok := ch]> |>) w) Ls t l ch 0 (USrv tok) B HB Ht Ho) as [Hn HI]; auto.
    + intros c' tok' ch' H. pose proof (ri_wait _ _ _ HB _ _ _ H) as H'. rewrite lookup_insert_ne; [exact H'|]. intros <-.
      destruct (ri_own _ _ _ HB _ _ _ _ Ht Ho) as (_ & H2 & _). congruence.
    + exact (ri_tok _ _ _ HB).
    + intros tok' ch'. cbn. intros H. apply lookup_insert_Some in H as [[<- <-]|[Hne H]]; [apply lookup_insert|].
      pose proof (ri_swait _ _ _ HB _ _ H) as H'. rewrite lookup_insert_ne; [exact H'|]. intros <-.
      destruct (ri_own _ _ _ HB _ _ _ _ Ht Ho) as (_ & H2 & _). congruence.
    + intros c' ch' H. pose proof (ri_spawn _ _ _ HB _ _ H) as H'. rewrite lookup_insert_ne; [exact H'|]. intros <-.
      destruct (ri_own _ _ _ HB _ _ _ _ Ht Ho) as (_ & H2 & _). congruence.
    + eexists; split; [eexists; exact HI|apply HP, Hn].
  - (* OSWaitGet *) cbn in HP |- *. destruct (s_waiting (w_srv w) !! tok) as [ch|] eqn:Ew.
    + pose proof (ri_swait _ _ _ HB _ _ Ew) as Hb. pose proof (ri_know _ _ _ HB _ _ Ht) as Hk.
      assert (Hs : <[ch := USrv tok]> (ku l) ⊆ B).
      { apply insert_subseteq_l; assumption. }
      exists (Know (<[ch := USrv tok]> (ku l)) (own l)). split.
      * exists B. eapply inv_know; [exact HB|exact Ht|exact Hs|reflexivity].
      * apply HP; cbn; [|intros ch' [= <-]; apply lookup_insert].
        unfold knows. cbn. destruct (ku l !! ch) eqn:E1; [|apply insert_subseteq, E1].
        rewrite insert_id; [reflexivity|]. rewrite E1. pose proof (lookup_weaken _ _ _ _ E1 Hk). congruence.
    + exists l. rewrite insert_id by exact Ht. split; [exists B; exact HB|]. apply HP; [apply knows_refl|discriminate].
  - (* ONewChan *) cbn in HP |- *. exists (Know (ku l) (<[w_next w := cap]> (own l))).
    assert (Hfr : forall t' l' cap', Ls !! t' = Some l' -> own l' !! (w_next w : chid) = Some cap' -> False).
    { intros t' l' cap' H1 H2. destruct (ri_own _ _ _ HB _ _ _ _ H1 H2) as (H3 & _). lia. }
    assert (Hbn : B !! (w_next w : chid) = None).
    { destruct (B !! (w_next w : chid)) eqn:Eb; [|reflexivity]. pose proof (ri_next _ _ _ HB _ _ Eb). lia. }
    assert (Hch : forall ch, ch <> w_next w -> chan_of (w <| w_chans ::= <[w_next w := chan0 cap]> |> <| w_next ::= S |>) ch = chan_of w ch).
    { intros ch Hne. unfold chan_of. cbn. rewrite lookup_insert_ne by congruence. reflexivity. }
    split.
    + exists B. destruct HB as [K O E N C Bf W WT SW Sp Lg]. constructor; auto.
      * intros t' l' H. apply lookup_insert_Some in H as [[<- <-]|[Hne H]]; cbn; eauto.
      * intros t' l' ch' cap' H H1. apply lookup_insert_Some in H as [[<- <-]|[Hne H]].
        -- cbn in H1. apply lookup_insert_Some in H1 as [[<- <-]|[Hne H1]].
           ++ cbn. split; [lia|]. split; [exact Hbn|]. unfold chan_of. cbn. rewrite lookup_insert. reflexivity.
           ++ destruct (O t l ch' cap' Ht H1) as (H2 & H3 & H4). rewrite Hch by congruence. cbn. split; [lia|auto].
        -- destruct (O t' l' ch' cap' H H1) as (H2 & H3 & H4). rewrite Hch by lia. cbn. split; [lia|auto].
      * intros t1 t2 l1 l2 ch' c1 c2 G1 G2 G3 G4.
        apply lookup_insert_Some in G1 as [[<- <-]|[Hn1 G1]]; apply lookup_insert_Some in G2 as [[<- <-]|[Hn2 G2]]; auto; cbn in *.
        -- apply lookup_insert_Some in G3 as [[<- <-]|[Hne G3]]; [exfalso; eauto|eauto].
        -- apply lookup_insert_Some in G4 as [[<- <-]|[Hne G4]]; [exfalso; eauto|eauto].
        -- eauto.
      * intros ch u H. cbn. specialize (N ch u H). lia.
      * intros ch u H. pose proof (N ch u H). rewrite Hch by lia. eauto.
      * intros ch u H. pose proof (N ch u H). rewrite Hch by lia. eauto.
    + apply HP. destruct (own l !! (w_next w : chid)) eqn:Eo; [|reflexivity]. exfalso. eauto.
  - (* OChSend *) cbn in HP |- *. destruct HP as (u & Hu & Hm & HP). destruct (ch_buf (chan_of w ch)) eqn:Eb; [|exact Logic.I].
    exists l. rewrite insert_id by exact Ht. split; [|apply HP]. exists B.
    assert (HBu : B !! ch = Some u) by (eapply lookup_weaken; [exact Hu|eapply ri_know; eassumption]).
    eapply inv_buf; [exact HB|exact HBu|reflexivity|]. cbn. repeat constructor. exact Hm.
  - (* OSelect *) cbn in HP |- *. destruct HP as (u & Hu & HP). destruct (pick w (select_reply w ch x)) as [[e|m]|] eqn:Ep; [| |exact Logic.I].
    + exists l. rewrite insert_id by exact Ht. split; [exists B; eapply calm_inv; [exact HB|apply calm_pop]|]. apply HP. discriminate.
    + assert (HBu : B !! ch = Some u) by (eapply lookup_weaken; [exact Hu|eapply ri_know; eassumption]).
      pose proof (calm_inv _ _ _ _ HB (calm_pop w)) as HB'.
      pose proof (ri_buf _ _ _ HB' _ _ HBu) as Hbuf.
      exists l. rewrite insert_id by exact Ht. split.
      * exists B. eapply inv_buf; [exact HB'|exact HBu|reflexivity|]. cbn. destruct Hbuf; cbn; [constructor|assumption].
      * apply HP. intros m' [= <-].
        apply nth_error_In in Ep. unfold select_reply in Ep. apply in_app_or in Ep as [Ep|Ep].
        -- destruct x as [k|]; [|destruct Ep]. destruct (w_ctxs w !! k) as [xc|]; [|destruct Ep]. destruct (x_done xc); [|destruct Ep].
           destruct Ep as [Ep|[]]. discriminate Ep.
        -- pose proof (ri_buf _ _ _ HB _ _ HBu) as Hbuf'. destruct (ch_buf (chan_of w ch)) as [|m1 q]; [destruct Ep|].
           destruct Ep as [Ep|[]]. injection Ep as <-. inversion Hbuf'; subst. assumption.
  - (* OSpawn *) destruct code as [| | |c ch| | | | | |]; try discriminate En. cbn in HP |- *. destruct HP as [Ho HP].
    destruct (inv_bind w (w <| w_spawn ::= fun l => l ++ [TReadNext c ch] |>) Ls t l ch 1 UNext B HB Ht Ho) as [Hn HI]; auto.
    + intros c' tok' ch' H. pose proof (ri_wait _ _ _ HB _ _ _ H) as H'. rewrite lookup_insert_ne; [exact H'|]. intros <-.
      destruct (ri_own _ _ _ HB _ _ _ _ Ht Ho) as (_ & H2 & _). congruence.
    + exact (ri_tok _ _ _ HB).
    + intros tok' ch' H. pose proof (ri_swait _ _ _ HB _ _ H) as H'. rewrite lookup_insert_ne; [exact H'|]. intros <-.
      destruct (ri_own _ _ _ HB _ _ _ _ Ht Ho) as (_ & H2 & _). congruence.
    + intros c' ch'. cbn. rewrite elem_of_app, elem_of_list_singleton. intros [H|[= <- <-]]; [|apply lookup_insert].
      pose proof (ri_spawn _ _ _ HB _ _ H) as H'. rewrite lookup_insert_ne; [exact H'|]. intros <-.
      destruct (ri_own _ _ _ HB _ _ _ _ Ht Ho) as (_ & H2 & _). congruence.
    + eexists; split; [eexists; exact HI|apply HP, Hn].
  - (* OLog *)
    assert (Hlog : forall e', logged_ok e' -> Inv (w <| w_log ::= cons e' |>) Ls).
    { intros e' He. exists B. eapply calm_inv; [exact HB|]. constructor; cbn; auto. intros e1. rewrite elem_of_cons. intros [-> | H1]; auto. }
    exists l. rewrite insert_id by exact Ht. destruct e; try discriminate En; cbn in HP |- *.
    + destruct HP as (H1 & H2 & H3). split; [|exact H3]. apply Hlog. split; assumption.
    + destruct HP as (H1 & H2 & H3). split; [|exact H3]. apply Hlog. split; assumption.
Qed.

Lemma env_calm w e : calm w (env_step e w).
Proof.
  destruct e; cbn [env_step]; repeat match goal with |- context [match ?x with _ => _ end] => destruct x eqn:? end;
    first [apply calm_refl | apply calm_conn; cbn; auto; fail | constructor; cbn; auto].
Qed.

Lemma reply_respects : respects RS G Inv.
Proof.
  constructor.
  - intros t w Ls l o P HI Ht HP. pose proof (reply_op t w Ls l o P HI Ht HP) as H. destruct (ostep t w o); auto.
  - intros t w Ls l a HI Ht _ _. exists l. rewrite insert_id by exact Ht. split; [exact HI|].
    apply (impl_kp rrules r_gates); auto using r_ask, r_reply', r_message', r_ack', r_waitm, r_broadcast, r_srvask. destruct a; cbn; auto; destruct n; auto.
  - intros t l Hs. apply (code_kp rrules r_gates); auto using r_ask, r_reply', r_message', r_ack', r_waitm, r_broadcast, r_srvask, r_server; try exact (fun _ => Logic.I).
    + cbn. auto.
    + intros. apply r_upgrade; auto.
    + intros. apply r_dial; auto.
    + apply r_next.
    + intros; exact Logic.I.
  - intros t w Ls l [B [K O E N C Bf W WT SW Sp Lg]] Ht _. exists B. constructor; auto.
    + intros t' l' H. apply lookup_delete_Some in H as [_ H]. eauto.
    + intros t' l' ch cap H. apply lookup_delete_Some in H as [_ H]. eauto.
    + intros t1 t2 l1 l2 ch c1 c2 H1 H2. apply lookup_delete_Some in H1 as [_ H1]. apply lookup_delete_Some in H2 as [_ H2]. eauto.
  - intros t w Ls c rest [B HB] Hsp Ht.
    set (l := match c with TReadNext _ ch => Know {[ch := UNext]} ∅ | _ => k0 end).
    exists l. split; [destruct c; cbn; auto; apply lookup_singleton|]. exists B.
    assert (HB' : RInv (w <| w_spawn := rest |>) Ls B).
    { eapply calm_inv; [exact HB|]. constructor; cbn; auto. intros. rewrite Hsp. constructor. assumption. }
    assert (Hl : ku l ⊆ B).
    { destruct c; try apply map_empty_subseteq. cbn. apply map_singleton_subseteq_l. eapply ri_spawn; [exact HB|]. rewrite Hsp. constructor. }
    assert (Ho : own l = ∅) by (destruct c; reflexivity).
    destruct HB' as [K O E N C Bf W WT SW Sp Lg]. constructor; auto.
    + intros t' l' H. apply lookup_insert_Some in H as [[<- <-]|[_ H]]; eauto.
    + intros t' l' ch cap H H1. apply lookup_insert_Some in H as [[<- <-]|[_ H]]; [rewrite Ho, lookup_empty in H1; discriminate|]. eauto.
    + intros t1 t2 l1 l2 ch c1 c2 H1 H2 H3 H4.
      apply lookup_insert_Some in H1 as [[<- <-]|[_ H1]]; [rewrite Ho, lookup_empty in H3; discriminate|].
      apply lookup_insert_Some in H2 as [[<- <-]|[_ H2]]; [rewrite Ho, lookup_empty in H4; discriminate|]. eauto.
  - intros t w Ls c [B HB] Hs Ht. exists k0. split; [destruct c; cbn; auto; discriminate|]. exists B.
    destruct HB as [K O E N C Bf W WT SW Sp Lg]. constructor; auto.
    + intros t' l' H. apply lookup_insert_Some in H as [[<- <-]|[_ H]]; [apply map_empty_subseteq|eauto].
    + intros t' l' ch cap H H1. apply lookup_insert_Some in H as [[<- <-]|[_ H]]; [cbn in H1; rewrite lookup_empty in H1; discriminate|]. eauto.
    + intros t1 t2 l1 l2 ch c1 c2 H1 H2 H3 H4.
      apply lookup_insert_Some in H1 as [[<- <-]|[_ H1]]; [cbn in H3; rewrite lookup_empty in H3; discriminate|].
      apply lookup_insert_Some in H2 as [[<- <-]|[_ H2]]; [cbn in H4; rewrite lookup_empty in H4; discriminate|]. eauto.
  - intros w Ls e [B HB] _. exists B. eapply calm_inv; [exact HB|apply env_calm].
Qed.

Lemma reply_init : exists l, ls_start RS TServer l /\ Inv world0 {[0 := l]}.
Proof.
  exists k0. split; [exact Logic.I|]. exists ∅. constructor.
  - intros t l H. apply lookup_singleton_Some in H as [_ <-]. reflexivity.
  - intros t l ch cap H H1. apply lookup_singleton_Some in H as [_ <-]. cbn in H1. rewrite lookup_empty in H1. discriminate.
  - intros t1 t2 l1 l2 ch c1 c2 H _ H1. apply lookup_singleton_Some in H as [_ <-]. cbn in H1. rewrite lookup_empty in H1. discriminate.
  - intros ch u. rewrite lookup_empty. discriminate.
  - intros ch u. rewrite lookup_empty. discriminate.
  - intros ch u. rewrite lookup_empty. discriminate.
  - intros c tok ch. unfold conn_of, world0. cbn. rewrite lookup_empty. cbn. rewrite lookup_empty. discriminate.
  - intros c tok ch. unfold conn_of, world0. cbn. rewrite lookup_empty. cbn. rewrite lookup_empty. discriminate.
  - intros tok ch. cbn. rewrite lookup_empty. discriminate.
  - intros c ch H. inversion H.
  - intros e H. inversion H.
Qed.

Lemma reply_reachable s : reachable G s -> exists Ls, Inv (s_w s) Ls.
Proof.
  intros H. destruct (reachable_holds RS rmono G Inv reply_respects s reply_init H) as (_ & Ls & HI & _). eauto.
Qed.
End reply.

(*@file Prop_Reply.v
From Coq Require Import ZArith.
From stdpp Require Import gmap strings list relations.
From Verif Require Import Go Errors Message World Lang Code Sem Spec_App Spec_Conn Spec_View Examples Scenes ReplyProofs.
@*)

(*@prop C23. In every interleaving, whatever the remote side and the
    application do: the message that a Conn.Ask returns carries the token of its
    own request ([LAskReply c token m inside] is logged when an Ask on
    connection [c] that sent [token] returns [m]; [inside] says that it was made
    inside a callback, see C26). @*)
Lemma l_C23_conn : forall (G : cfg) (s : sys) c token m,
  user_app (fun _ => True) G -> reachable G s -> LAskReply c token m false ∈ w_log (s_w s) -> m_wait m = token.
Proof.
  intros G s c token m HA Hs Hl. destruct (reply_reachable G HA s Hs) as (Ls & B & HB).
  destruct (ri_log _ _ _ _ HB _ Hl) as [_ H]. apply H. reflexivity.
Qed.

(*@prop C23. The same for Server.Ask. @*)
Lemma l_C23_server : forall (G : cfg) (s : sys) token m,
  user_app (fun _ => True) G -> reachable G s -> LServerReply token m ∈ w_log (s_w s) -> m_wait m = token.
Proof.
  intros G s token m HA Hs Hl. destruct (reply_reachable G HA s Hs) as (Ls & B & HB).
  destruct (ri_log _ _ _ _ HB _ Hl) as [_ H]. exact H.
Qed.

(** A client asks three times, two of them at the same time. *)
Definition askers : cfg := scene true (fun k => match k with
  | 0 => call (AConnect 2 None "chat") | 1 => call (AServerAsk None hello_msg) | _ => call (AAsk 2 None hello_msg) end).
Definition asked : list cmd :=
  [Go 0; Act1 (Env (EGo (TUpgrade 1))); Go 1; Act1 Start; Go 0; Go 2; Act1 (Env (EDeliver 1 TextMessage "M")); Go 2;
   Act1 (Env (EGo (TDial 2))); Go 3; Act1 Start; Go 4; Act1 (Env (EDeliver 2 TextMessage "Aid-1")); Go 4; Go 3;
   Act1 (Env (EGo (TUser 0))); Go 5; Act1 (Env (EDeliver 2 TextMessage "$0;chat;;_OnNamespaceConnect;0;0;")); Go 4; Go 5;
   Act1 (Env (ETick 7)); Act1 (Env (EGo (TUser 2))); Go 6; Act1 (Env (ETick 1)); Act1 (Env (EGo (TUser 3))); Go 7;
   Act1 (Env (EDeliver 2 TextMessage "$8;chat;;echo;0;0;b")); Act1 (Env (EDeliver 2 TextMessage "$7;chat;;echo;0;0;a")); Go 4; Go 6; Go 7;
   Act1 (Env (EGo (TUser 1))); Go 8; Go 0; Go 8; Act1 (Env (EDeliver 1 TextMessage "8;chat;;echo;0;0;c")); Go 2; Go 8; Go 2].
Definition asked_log := w_log (s_w (play askers asked (init askers))).
Lemma askers_app : user_app (fun _ => True) askers.
Proof. apply scene_app. intros [|[|[|k]]]; cbn; auto. Qed.

(*@ex
(** Two asks of one client wait at the same time and are answered in the other
    order; then the server asks. *)
Example C23_example : user_app (fun _ => True) askers /\ reachable askers (play askers asked (init askers)) /\
  answers (w_log (s_w (play askers asked (init askers)))) = [("8", "c", false); ("$8", "b", false); ("$7", "a", false); ("$0", "", false)].
Proof. split; [exact askers_app|]. split; [apply play_reachable|vm_compute; reflexivity]. Qed.
@*)

(*@prop C28. In every reachable state: a message that carries a token of the
    remote side (a request) is handled as an event, whatever this side is waiting for. @*)
Lemma l_C28_not_taken : forall (G : cfg) (s : sys) c m now t,
  user_app (fun _ => True) G -> reachable G s ->
  m_wait m = genWait (negb (g_client G c)) now -> m_isInvalid m = false -> m_isNative m = false ->
  exec t (handleMessage G c m) (s_w s) = exec t (handle_event G c m) (s_w s).
Proof.
  intros G s c m now t HA Hs Hm Hi Hn. destruct (reply_reachable G HA s Hs) as (Ls & B & HB).
  unfold handleMessage. rewrite Hi, Hn. cbn [andb]. destruct (l_C08_recognition now m) as [H1 H2].
  change (IsClient G c) with (g_client G c). destruct (g_client G c) eqn:Ec; cbn [negb] in Hm.
  - assert (E : c_waiting (conn_of (s_w s) c) !! m_wait m = None).
    { destruct (c_waiting (conn_of (s_w s) c) !! m_wait m) as [ch|] eqn:E; [|reflexivity].
      destruct (ri_tok _ _ _ _ HB _ _ _ E) as [now' H]. rewrite Ec, Hm in H. symmetry in H. destruct (genWait_sides _ _ H). }
    destruct (IsWait true m); [|reflexivity]. unfold handle_reply_or_event. cbn [opr bind exec ostep]. rewrite E. reflexivity.
  - destruct (H1 Hm) as [-> _]. reflexivity.
Qed.

(*@prop C28. ... and in every interleaving no Ask ever returns such a message. @*)
Lemma l_C28_never_returned : forall (G : cfg) (s : sys) c token m now,
  user_app (fun _ => True) G -> reachable G s ->
  LAskReply c token m false ∈ w_log (s_w s) -> m_wait m <> genWait (negb (g_client G c)) now.
Proof.
  intros G s c token m now HA Hs Hl. destruct (reply_reachable G HA s Hs) as (Ls & B & HB).
  destruct (ri_log _ _ _ _ HB _ Hl) as [[now' H1] H2]. rewrite (H2 eq_refl), H1. intros H.
  destruct (g_client G c); cbn in H; [|symmetry in H]; exact (genWait_sides _ _ H).
Qed.
(*@prop C28. ... nor does any Server.Ask. @*)
Lemma l_C28_server_never_returned : forall (G : cfg) (s : sys) token m now,
  user_app (fun _ => True) G -> reachable G s ->
  LServerReply token m ∈ w_log (s_w s) -> m_wait m <> genWait true now.
Proof.
  intros G s token m now HA Hs Hl. destruct (reply_reachable G HA s Hs) as (Ls & B & HB).
  destruct (ri_log _ _ _ _ HB _ Hl) as [[now' H1] H2]. rewrite H2, H1. intros H. symmetry in H. exact (genWait_sides _ _ H).
Qed.

(** A client that waits for the reply to "$7" gets a request of the server with token "7". *)
Definition crossing : list cmd :=
  [Go 0; Act1 (Env (EGo (TDial 2))); Go 1; Act1 Start; Go 2; Act1 (Env (EDeliver 2 TextMessage "Aid-1")); Go 2; Go 1;
   Act1 (Env (EGo (TUser 0))); Go 3; Act1 (Env (EDeliver 2 TextMessage "$0;chat;;_OnNamespaceConnect;0;0;")); Go 2; Go 3;
   Act1 (Env (ETick 7)); Act1 (Env (EGo (TUser 2))); Go 4].
(*@ex
Example C28_example :
  let s := play askers crossing (init askers) in let m := set_wait "7" hello_msg in
  user_app (fun _ => True) askers /\ reachable askers s /\ m_wait m = genWait (negb (g_client askers 2)) 7 /\
  is_Some (c_waiting (conn_of (s_w s) 2) !! "$7").
Proof. split; [exact askers_app|]. split; [apply play_reachable|]. split; [reflexivity|]. eexists. vm_compute. reflexivity. Qed.
@*)

(*@prop C27. A reply to a Conn.Ask never blocks the reader, even if the asker
    has given up, as long as no earlier reply to it is still unread: in every
    reachable state handling it ends at once. @*)
Lemma l_C27_late_reply : forall (G : cfg) (s : sys) c m ch t,
  user_app (fun _ => True) G -> reachable G s ->
  m_isInvalid m = false -> m_isNative m = false -> IsWait (g_client G c) m = true -> m_fromStackExchange m = false ->
  s_waiting (w_srv (s_w s)) !! m_wait m = None ->
  c_waiting (conn_of (s_w s) c) !! m_wait m = Some ch -> ch_buf (chan_of (s_w s) ch) = [] ->
  exists w', exec t (handleMessage G c m) (s_w s) = XDone w' None /\ ch_buf (chan_of w' ch) = [m] /\
    w_conns w' = w_conns (s_w s) /\ w_log w' = w_log (s_w s).
Proof.
  intros G s c m ch t HA Hs Hi Hn Hw Hx Hsw Hcw Hb. destruct (reply_reachable G HA s Hs) as (Ls & B & HB).
  pose proof (ri_cap _ _ _ _ HB _ _ (ri_wait _ _ _ _ HB _ _ _ Hcw)) as Hcap. cbn in Hcap.
  assert (E : exists w', exec t (handle_reply_or_event G c m) (s_w s) = XDone w' None /\ ch_buf (chan_of w' ch) = [m] /\
    w_conns w' = w_conns (s_w s) /\ w_log w' = w_log (s_w s)).
  { unfold handle_reply_or_event, send. cbn [opr bind exec ostep]. rewrite Hcw. cbn [opr bind exec ostep]. rewrite Hb. cbn [bind exec ostep].
    rewrite chan_upd. rewrite decide_True by reflexivity. cbn. rewrite Hcap. cbn. eexists. split; [reflexivity|].
    rewrite chan_upd. rewrite decide_True by reflexivity. auto. }
  unfold handleMessage. rewrite Hi, Hn. cbn [andb]. change (IsClient G c) with (g_client G c). rewrite Hw.
  destruct (g_client G c); [exact E|].
  assert (E' : exec t (bind (opr (OSWaitGet (m_wait m))) (fun w => match w with Some ch => bind (send ch m) (fun _ => Ret None) | None => handle_reply_or_event G c m end)) (s_w s)
     = exec t (handle_reply_or_event G c m) (s_w s)).
  { cbn [opr bind exec ostep]. rewrite Hsw. reflexivity. }
  destruct (g_exch G); [rewrite Hx|]; rewrite E'; exact E.
Qed.

(*@ex
(** The asker gives up, then the reply comes. *)
Example C27_example :
  let s := play (scene true (fun k => match k with 0 => call (AConnect 2 None "chat") | _ => call (AAsk 2 (Some 1) hello_msg) end))
    ([Act1 (Env (ECtxNew 1 None))] ++ crossing ++ [Act1 (Env (ECtxDone 1 EDeadline)); Go 4]) (init askers) in
  let m := set_wait "$7" hello_msg in
  IsWait true m = true /\ s_waiting (w_srv (s_w s)) !! m_wait m = None /\ s_th s !! 4 = None /\
  exists ch, c_waiting (conn_of (s_w s) 2) !! m_wait m = Some ch /\ ch_buf (chan_of (s_w s) ch) = [].
Proof. cbv zeta. split; [reflexivity|]. split; [vm_compute; reflexivity|]. split; [vm_compute; reflexivity|]. eexists. split; vm_compute; reflexivity. Qed.
@*)
