(** * Hung.v : a call that waits for a reply while it holds a lock, and the
    reader of the same connection that waits for the lock. *)
From Coq Require Import ZArith.
From stdpp Require Import gmap strings list relations.
From RecordUpdate Require Import RecordUpdate.
From Verif Require Import Go Errors Message World Lang Code Sem ExecProofs Logic Spec_App Spec_Stuck Frame Frozen StuckProofs.

#[local] Arguments Write : simpl never.
#[local] Arguments write : simpl never.
#[local] Arguments Close : simpl never.
#[local] Arguments wait : simpl never.
#[local] Arguments unwait : simpl never.
#[local] Arguments handleQueue : simpl never.
#[local] Arguments Broadcast : simpl never.
#[local] Arguments handle_event : simpl never.
#[local] Arguments handle_reply_or_event : simpl never.
#[local] Arguments send : simpl never.

Section hung.
Context (G : cfg) (c : cid) (ch : chid) (t0 : tid) (lock : option nsref).
Notation lb := unit.
Definition xrule (l : lb) (o : op) : (res o -> lb -> Prop) -> Prop :=
  match o as o return (res o -> lb -> Prop) -> Prop with
  | ONewChan _ => fun P => forall r, r <> ch -> P r l
  | OWaitPut _ _ ch' => fun P => ch' <> ch /\ P tt l
  | OSWaitPut _ ch' => fun P => ch' <> ch /\ P tt l
  | OWaitGet c' _ => fun P => forall r, (c' <> c -> r <> Some ch) -> P r l
  | OSWaitGet _ => fun P => forall r, r <> Some ch -> P r l
  | OChSend ch' _ => fun P => ch' <> ch /\ forall r, P r l
  | OSelect ch' _ => fun P => ch' <> ch /\ forall r, P r l
  | OSpawn (TReadNext _ ch') => fun P => ch' <> ch /\ P tt l
  | OSpawn (TReader c') | OSpawn (TReaderLoop c') => fun P => c' <> c /\ P tt l
  | ONewConn c' _ _ => fun P => c' <> c -> P tt l
  | _ => fun P => forall r, P r l
  end.
Definition xstart (t : tcode) : Prop :=
  match t with TReadNext _ ch' => ch' <> ch | TReader c' | TReaderLoop c' => c' <> c | _ => True end.
Definition xcall (a : api) : Prop := match a with AHandlePayload c' _ _ => c' <> c | _ => True end.
Definition more (l l' : lb) : Prop := True.
Definition XS : lspec := {|
  ls_L := lb; ls_rule := xrule; ls_cpre := fun _ a => xcall a; ls_cpost := fun l a r l' => more l l';
  ls_crash := fun _ => True; ls_start := fun t _ => xstart t; ls_fin := fun _ => True |}.
Lemma xmono : rule_mono XS.
Proof.
  intros l o P P' H. destruct o; try match goal with x : tcode |- _ => destruct x end; cbn in *; intros HP; repeat match goal with H : _ /\ _ |- _ => destruct H end; eauto 8.
Qed.
Lemma more_refl l : more l l.
Proof. exact Logic.I. Qed.
Lemma more_trans a b d : more a b -> more b d -> more a d.
Proof. intros. exact Logic.I. Qed.

Context (A : user_app xcall G).
Notation any := (fun _ _ => True).
Notation notc := (fun _ c' => c' <> c).
Lemma xrules : @rules G XS xcall more any any notc notc any any notc any any any (fun _ _ _ _ => True) (fun _ _ => True).
Proof.
  constructor; cbn; unfold stable; auto using xmono, more_refl; try (intros; eauto using more_refl, more_trans; fail).
  - intros o l P Hp H.
    destruct o; cbn in *; try discriminate; try (intros; apply H, more_refl); match goal with x : tcode |- _ => destruct x | x : event |- _ => destruct x end; try discriminate; cbn; intros; apply H, more_refl.
  - intros c0 s l P H r. apply H; [apply more_refl|destruct r; auto].
  - intros o n l P Ho _ H. destruct o; try discriminate Ho; cbn; intros; apply H, more_refl.
Qed.
Notation kp := (@kp XS more _).
Notation kpp P := (@kpp XS more _ P).
Definition neutral (o : op) : bool :=
  match o with
  | ONewChan _ | OWaitPut _ _ _ | OSWaitPut _ _ | OWaitGet _ _ | OSWaitGet _
  | OChSend _ _ | OSelect _ _ | OSpawn (TReadNext _ _) | OSpawn (TReader _) | OSpawn (TReaderLoop _) | ONewConn _ _ _ => false
  | _ => true
  end.
Lemma x_neutral l o (P : res o -> lb -> Prop) r : neutral o = true -> xrule l o P -> P r l.
Proof. intros Hn. destruct o; try discriminate; cbn; auto. destruct code; try discriminate; auto. Qed.
Lemma x_free o : neutral o = true -> kp (opr o).
Proof. intros H l. cbn. unfold neutral in H. destruct o; try discriminate; try (cbn; intros; apply more_refl). destruct code; try discriminate; cbn; intros; apply more_refl. Qed.
Ltac kf := repeat first
  [ apply (kp_ret xrules) | apply (kp_crash xrules) | match goal with |- @Frame.kp _ _ _ (opr ?o) => exact (x_free o eq_refl) end | assumption
  | match goal with H : forall _, _ |- _ => apply H; fail end
  | apply (kp_for_all xrules); intros | apply (kp_bind xrules); [|intros]
  | match goal with |- @Frame.kp _ _ _ ?p => match p with context [match ?x with _ => _ end] => destruct x eqn:? end end ].
Lemma x_gates : @gates G XS more any (fun _ => True).
Proof.
  constructor; intros.
  - unfold wait. kf.
  - unfold unwait. kf.
  - unfold proc_get. kf.
  - apply (kpp_kp xrules). unfold proc_Done. kf.
  - unfold proc_Wait. kf.
  - apply (kq_any xrules); [auto|]. unfold proc_Start. kf.
Qed.
Lemma x_bind {X} o (f : res o -> prog X) : (forall l, ok (S := XS) l (Do o f) (fun _ l' => more l l')) -> kp (bind (opr o) f).
Proof. intros H l. cbn. apply H. Qed.
Lemma x_send ch' m : ch' <> ch -> kp (send ch' m).
Proof. intros H. unfold send. intros l. cbn. split; [exact H|]. intros r. cbn. intros; apply more_refl. Qed.
Lemma x_then {X} o (f : res o -> prog X) : (forall l (P : res o -> lb -> Prop), (forall r, P r l) -> xrule l o P) -> (forall r, kp (f r)) -> kp (bind (opr o) f).
Proof. intros H1 H2 l. cbn. apply H1. intros r. apply H2. Qed.
Lemma x_newchan cap {X} (f : chid -> prog X) : (forall ch', ch' <> ch -> kp (f ch')) -> kp (bind (opr (ONewChan cap)) f).
Proof. intros H l. cbn. intros r Hr. apply (H r Hr). Qed.
Lemma x_ask c' x m nx : kp (ask G c' x m nx).
Proof.
  pose proof (Write_kp xrules x_gates) as HW. unfold ask. destruct (onlyNative G c'); [kf|]. apply (kp_bind xrules); [kf|]. intros [|]; [kf|].
  apply (kp_bind xrules); [kf|]. intros [|]; [kf|]. apply x_newchan. intros ch' Hch.
  apply (kp_bind xrules); [kf|]. intros now. cbv zeta. apply (kp_bind xrules); [kf|]. intros _.
  apply (kp_bind xrules); [destruct nx; intros l; cbn; auto using more_refl|]. intros _. apply (kp_bind xrules); [apply HW|]. intros [|]; [|kf]. cbn [negb].
  apply (kp_bind xrules); [intros l; cbn; auto using more_refl|]. intros [e|r]; [kf|].
  apply (kp_bind xrules); [destruct nx; kf|]. intros _. kf.
Qed.
Lemma x_reply c' m : kpp (fun _ => c' <> c) (handle_event G c' m) -> kpp (fun _ => c' <> c) (handle_reply_or_event G c' m).
Proof.
  intros H l Hl. unfold handle_reply_or_event. cbn. intros [ch'|] Hr; [|apply H, Hl].
  eapply (ok_seq XS xmono); [apply x_send; specialize (Hr Hl); congruence|]. intros; assumption.
Qed.
Lemma x_message c' m : (forall m', kpp (fun _ => c' <> c) (handle_event G c' m')) -> kpp (fun _ => c' <> c) (handle_reply_or_event G c' m) ->
  (forall n m', True -> kpp (fun _ => True /\ True /\ c' <> c) (fireEvent G n m')) -> kpp (fun _ => c' <> c) (handleMessage G c' m).
Proof.
  intros He Hr Hf l0 Hc. revert l0. assert (He' : forall m', kp (handle_event G c' m')) by (intros m' l; apply He; exact Hc).
  assert (Hr' : kp (handle_reply_or_event G c' m)) by (intros l; apply Hr; exact Hc).
  assert (Hf' : forall n m', kp (fireEvent G n m')) by (intros n m' l; apply (Hf n m' Logic.I); auto).
  refine (_ : kp (handleMessage G c' m)). pose proof (Namespace_kp xrules x_gates) as HN.
  assert (Hs : kp (bind (opr (OSWaitGet (m_wait m))) (fun w => match w with Some ch => bind (send ch m) (fun _ => Ret None) | None => handle_reply_or_event G c' m end))).
  { intros l. cbn. intros [ch'|] Hr1; [|apply Hr']. eapply (ok_seq XS xmono); [apply x_send; congruence|]. intros; assumption. }
  unfold handleMessage. kf.
Qed.
Lemma x_ack c' typ b : kpp (fun _ => c' <> c) (handleQueue G c') -> (forall s bin, kp (write G c' s bin)) -> kp (wait c') -> (forall e, kp (unwait c' e)) ->
  kpp (fun _ => c' <> c) (handleACK G c' typ b).
Proof.
  intros H1 H2 H3 H4 l0 Hc. revert l0. assert (H1' : kp (handleQueue G c')) by (intros l; apply H1; exact Hc).
  refine (_ : kp (handleACK G c' typ b)). unfold handleACK. kf.
Qed.
Lemma x_waitm c' l : (forall msgs, kp (publishMessages G c' msgs)) -> ok (S := XS) l (waitMessages G c') (fun r l' => if r : bool then True else True).
Proof.
  intros H. apply (ok_mono XS xmono l (waitMessages G c') (fun _ l' => more l l')); [intros [|] ? _; exact Logic.I|]. revert l. change (kp (waitMessages G c')). unfold waitMessages, publish. kf. Qed.
Lemma x_broadcast msgs : kp (broadcast msgs).
Proof. unfold broadcast. kf. Qed.
Lemma x_srvask x m : (forall e msgs, kp (Broadcast G e msgs)) -> kp (ServerAsk G x m).
Proof.
  intros HB. unfold ServerAsk. apply (kp_bind xrules); [kf|]. intros now. cbv zeta. destruct (g_exch G) as [ex|].
  - kf.
  - apply x_newchan. intros ch' Hch.
    repeat first [apply (kp_bind xrules); [solve [kf|intros l; cbn; auto using more_refl]|]; intros|kf].
Qed.
Lemma x_newconn c' {X} (f : unit -> prog X) : (c' <> c -> forall r, kp (f r)) -> kp (bind (newConn G c') f).
Proof.
  intros H. unfold newConn. intros l. cbn. intros Hc. eapply (ok_mono XS xmono); [|eapply (H Hc)]. auto.
Qed.
Lemma x_upgrade c' : (forall e, kp (unwait c' e)) -> (forall f, g_onconnect G = Some f -> kp (f c')) -> kp (Upgrade G c').
Proof.
  intros H1 H2. unfold Upgrade. apply (kp_bind xrules); [kf|]. intros [|]; [kf|]. apply x_newconn. intros Hc _.
  assert (Hs : kp (opr (OSpawn (TReader c')))) by (intros l; cbn; auto using more_refl).
  destruct (g_onconnect G) as [f|] eqn:E; [pose proof (H2 f eq_refl)|]; kf.
Qed.
Lemma x_dial c' : kp (sendClientACK G c') -> kp (Dial G c').
Proof.
  intros H. unfold Dial. apply x_newconn. intros Hc _. assert (Hs : kp (opr (OSpawn (TReader c')))) by (intros l; cbn; auto using more_refl). kf.
Qed.
Lemma x_next c' ch' : ch' <> ch -> kp (read_next G c' ch').
Proof. intros H. pose proof (fun m => x_send ch' m H) as HS. unfold read_next. kf. Qed.
Lemma x_server l : (forall c' msgs, kp (publishMessages G c' msgs)) ->
  (forall c', exists f, Close G c' = bind (opr (OCasClosed c')) f /\ forall r : bool, @Frame.kpp XS more _ (fun _ => r = true -> True) (f r)) -> (forall k c', kp (g_do G k c')) ->
  (forall x, kp (exch_call G x)) -> (forall f c', g_ondisconnect G = Some f -> kp (f c')) -> ok (S := XS) l (server_step G) (fun _ l' => True).
Proof.
  intros H1 H2 H2' H3 H4. apply (ok_mono XS xmono l (server_step G) (fun _ l' => more l l')); [intros; exact Logic.I|]. revert l. change (kp (server_step G)).
  assert (HC : forall c, kp (Close G c)) by (intros c'; destruct (H2 c') as (f & -> & Hf); assert (Hf' : forall r, kp (f r)) by (intros r l; apply (Hf r); auto); kf).
  unfold server_step, publish, act_call. apply (kp_bind xrules); [kf|]. intros x. apply (kp_bind xrules); [kf|]. intros _.
  destruct x; [kf| |kf|kf]. destruct (g_ondisconnect G) as [f|] eqn:E; [|kf]. pose proof (fun c => H4 f c eq_refl) as H5. kf.
Qed.

(** ** The invariant. *)
Definition harmful (t : tcode) : Prop := match t with TReadNext _ ch' => ch' = ch | TReader c' | TReaderLoop c' => c' = c | _ => False end.
(** The lock: of the namespaces of [c], or of the rooms of a namespace. *)
Definition held (w : world) : Prop :=
  match lock with
  | None => is_Some (w_conns w !! c) /\ rw_writer (c_nsmu (conn_of w c)) = Some t0
  | Some n => n_id n < w_next w /\ rw_writer (o_mu (ns_of w n)) = Some t0
  end.
Record Inv (w : world) (Ls : gmap tid lb) : Prop := MkI {
  iv_ch : ch < w_next w; iv_conn : is_Some (w_conns w !! c);
  iv_buf : ch_buf (chan_of w ch) = [];
  iv_wait : forall c' tok, c_waiting (conn_of w c') !! tok = Some ch -> c' = c;
  iv_swait : forall tok, s_waiting (w_srv w) !! tok <> Some ch;
  iv_spawn : forall x, x ∈ w_spawn w -> ~ harmful x;
  iv_held : held w }.
Record calm (w w' : world) : Prop := Calm {
  cm_next : w_next w <= w_next w';
  cm_conn : is_Some (w_conns w !! c) -> is_Some (w_conns w' !! c);
  cm_chan : ch < w_next w -> ch_buf (chan_of w' ch) = ch_buf (chan_of w ch);
  cm_wait : forall c' tok, c_waiting (conn_of w' c') !! tok = Some ch -> c_waiting (conn_of w c') !! tok = Some ch;
  cm_swait : forall tok, s_waiting (w_srv w') !! tok = Some ch -> s_waiting (w_srv w) !! tok = Some ch;
  cm_spawn : forall x, x ∈ w_spawn w' -> harmful x -> x ∈ w_spawn w }.
Lemma inv_calm w w' Ls : Inv w Ls -> calm w w' -> held w' -> Inv w' Ls.
Proof.
  intros [I1 I3 I4 I5 I6 I7 I8] [C1 C2 C3 C5 C6 C7] Hh.
  constructor; auto; try lia; try (rewrite C3; assumption).
  - intros c' tok H. eapply I5, C5, H.
  - intros tok H. eapply I6, C6, H.
  - intros x Hx Hx'. eapply I7; [apply C7; eassumption|exact Hx'].
Qed.
Lemma calm_refl w : calm w w.
Proof. constructor; auto. Qed.
Lemma conn_of_upd c0 f w c' : conn_of (upd_conn c0 f w) c' = if decide (c' = c0) then f (conn_of w c0) else conn_of w c'.
Proof. unfold conn_of, upd_conn. cbn. case_decide as E; [subst; rewrite lookup_insert|rewrite lookup_insert_ne by congruence]; reflexivity. Qed.
Lemma calm_conn c0 f w : (forall tok, c_waiting (f (conn_of w c0)) !! tok = Some ch -> c_waiting (conn_of w c0) !! tok = Some ch) -> calm w (upd_conn c0 f w).
Proof.
  intros Hf. constructor; auto.
  - intros H. unfold upd_conn. cbn. destruct (decide (c0 = c)) as [->|D]; [rewrite lookup_insert; eauto|rewrite lookup_insert_ne by exact D; exact H].
  - intros c' tok. rewrite conn_of_upd. case_decide as E; [subst; apply Hf|auto].
Qed.
Lemma calm_same w w' : w_conns w' = w_conns w -> w_chans w' = w_chans w -> w_srv w' = w_srv w -> w_next w <= w_next w' -> w_spawn w' = w_spawn w -> calm w w'.
Proof. intros E1 E2 E4 E5 E6. constructor; unfold conn_of, chan_of; rewrite ?E1, ?E2, ?E4, ?E6; auto. Qed.
Lemma calm_trans w w1 w' : calm w w1 -> calm w1 w' -> calm w w'.
Proof.
  intros [C1 C2 C3 C5 C6 C7] [D1 D2 D3 D5 D6 D7]. constructor; auto.
  - lia.
  - intros H. rewrite D3 by lia. auto.
Qed.
Lemma calm_srv f w : (forall tok, s_waiting (f (w_srv w)) !! tok = Some ch -> s_waiting (w_srv w) !! tok = Some ch) -> calm w (upd_srv f w).
Proof. intros H. constructor; auto. Qed.
Lemma neutral_calm t w o w' r : neutral o = true -> ostep t w o = Goes w' r -> calm w w'.
Proof.
  intros Hb H. destruct o; try discriminate Hb; cbn [ostep] in H;
    repeat match goal with
    | H : match ?x with _ => _ end = Goes _ _ |- _ => destruct x eqn:?; try discriminate H
    end; try discriminate H; injection H as <- <-;
    first [apply calm_refl | (apply calm_same; first [reflexivity|cbn; lia])
      | (apply calm_conn; cbn; auto; fail)
      | (apply calm_srv; cbn; auto; fail) | idtac].
  - apply (calm_trans w (w <| w_procs ::= <[w_next w:=proc0]> |> <| w_next ::= S |>)); [|apply calm_conn; cbn; auto].
    apply calm_same; first [reflexivity|cbn; lia].
  - apply calm_conn. intros tok'. cbn. intros E. apply lookup_delete_Some in E as [_ E]. exact E.
  - apply calm_conn. intros tok'. cbn. rewrite lookup_empty. discriminate.
  - apply calm_srv. intros tok'. cbn. intros E. apply lookup_delete_Some in E as [_ E]. exact E.
  - apply calm_conn. destruct typ; auto.
  - apply calm_conn. destruct typ; auto.
  - apply (calm_trans w (pop_seed w)); [apply calm_same; first [reflexivity|cbn; lia]|]. apply calm_srv. intros tok. destruct s; auto.
  - apply (calm_trans w (upd_srv (fun s => s <| b_msgs := msgs |>) w)); [apply calm_srv; auto|]. apply calm_same; first [reflexivity|cbn; lia].
  - constructor; auto. intros x. cbn. intros Hx Hh. apply elem_of_app in Hx as [Hx|Hx]; [exact Hx|]. apply elem_of_list_singleton in Hx as ->.
    destruct code; try contradiction; discriminate Hb.
Qed.
Lemma env_calm w e : calm w (env_step e w).
Proof.
  destruct e; cbn [env_step]; repeat match goal with |- context [match ?x with _ => _ end] => destruct x eqn:? end;
    first [apply calm_refl | (apply calm_same; reflexivity) | (apply calm_conn; cbn; auto; fail)].
Qed.
(** Only the owner releases a lock. *)
Lemma held_op t w o w' r : t <> t0 -> ostep t w o = Goes w' r -> held w -> held w'.
Proof.
  intros Hne H Hh. unfold held in *. destruct lock as [n|].
  - destruct Hh as [Hn Hh].
    assert (Hu : forall n' f w1, w_nss w1 = w_nss w -> w_next w1 = w_next w -> (n_id n = n_id n' -> rw_writer (o_mu (ns_of w n')) = Some t0 -> rw_writer (o_mu (f (ns_of w n'))) = Some t0) ->
      n_id n < w_next (upd_ns n' f w1) /\ rw_writer (o_mu (ns_of (upd_ns n' f w1) n)) = Some t0).
    { intros n' f w1 E1 E2 Hf. cbn. rewrite E2. split; [exact Hn|]. rewrite ns_upd. assert (E : forall x, ns_of w1 x = ns_of w x) by (intros; unfold ns_of; rewrite E1; reflexivity). rewrite !E.
      case_decide as D; [|exact Hh]. apply Hf; [exact D|]. rewrite <- Hh. unfold ns_of. rewrite D. destruct (w_nss w !! n_id n'); [reflexivity|]. reflexivity. }
    destruct o; cbn [ostep] in H;
      repeat match goal with
      | H : match ?x with _ => _ end = Goes _ _ |- _ => destruct x eqn:?; try discriminate H
      end; try discriminate H; injection H as <- <-; first [split; [exact Hn|exact Hh] | split; [cbn; lia|exact Hh] | idtac].
    all: try (apply Hu; [reflexivity|reflexivity|]; intros D E; cbn; try exact E).
    + cbn. split; [lia|]. unfold ns_of in *. cbn. rewrite lookup_insert_ne by lia. exact Hh.
    + unfold rw_can_lock in *. rewrite E in *. discriminate.
    + unfold rw_holds in *. rewrite E in *. apply Nat.eqb_eq in Heqb. congruence.
    + cbn. split; [lia|]. unfold ns_of in *. cbn. rewrite lookup_insert_ne by lia. exact Hh.
  - destruct Hh as [Hn Hh].
    assert (Hu : forall c' f w1, w_conns w1 = w_conns w -> (c = c' -> rw_writer (c_nsmu (conn_of w c)) = Some t0 -> rw_writer (c_nsmu (f (conn_of w c))) = Some t0) ->
      is_Some (w_conns (upd_conn c' f w1) !! c) /\ rw_writer (c_nsmu (conn_of (upd_conn c' f w1) c)) = Some t0).
    { intros c' f w1 E1 Hf. assert (E : forall x, conn_of w1 x = conn_of w x) by (intros; unfold conn_of; rewrite E1; reflexivity). rewrite conn_of_upd, !E. split.
      - unfold upd_conn. cbn. rewrite E1. destruct (decide (c' = c)) as [->|D]; [rewrite lookup_insert; eauto|rewrite lookup_insert_ne by exact D; exact Hn].
      - case_decide as D; [subst; auto|exact Hh]. }
    destruct o; cbn [ostep] in H;
      repeat match goal with
      | H : match ?x with _ => _ end = Goes _ _ |- _ => destruct x eqn:?; try discriminate H
      end; try discriminate H; injection H as <- <-; first [split; [exact Hn|exact Hh] | idtac].
    all: try (apply Hu; [reflexivity|]; intros D E; cbn; try exact E; try (destruct typ; exact E)).
    + subst. unfold rw_can_lock in *. rewrite E in *. discriminate.
    + subst. unfold rw_holds in *. rewrite E in *. apply Nat.eqb_eq in Heqb. congruence.
    + assert (Dc : c0 <> c) by (intros ->; rewrite Heqo in Hn; destruct Hn; discriminate). unfold conn_of in *. cbn. rewrite lookup_insert_ne by exact Dc. auto.
    + assert (Dc : c0 <> c) by (intros ->; rewrite Heqo in Hn; destruct Hn; discriminate). unfold conn_of in *. cbn. rewrite lookup_insert_ne by exact Dc. auto.
Qed.
Lemma held_env w e : held w -> held (env_step e w).
Proof.
  intros Hh. unfold held in *. destruct lock as [n|].
  - destruct e; cbn [env_step]; repeat match goal with |- context [match ?x with _ => _ end] => destruct x eqn:? end; exact Hh.
  - destruct Hh as [Hn Hh]. destruct e; cbn [env_step]; repeat match goal with |- context [match ?x with _ => _ end] => destruct x eqn:? end; try (split; [exact Hn|exact Hh]).
    all: rewrite conn_of_upd; (split; [unfold upd_conn; cbn; match goal with |- is_Some (<[?x := _]> _ !! c) => destruct (decide (x = c)) as [->|D]; [rewrite lookup_insert; eauto|rewrite lookup_insert_ne by exact D; exact Hn] end|case_decide; [subst; exact Hh|exact Hh]]).
Qed.
Lemma hung_op t w Ls l o (P : res o -> lb -> Prop) : t <> t0 -> Inv w Ls -> Ls !! t = Some l -> xrule l o P ->
  match ostep t w o with
  | Goes w' r => exists l', Inv w' (<[t := l']> Ls) /\ P r l'
  | _ => True
  end.
Proof.
  intros Hne HI Ht HP. destruct (ostep t w o) as [w' r| |why] eqn:E; auto.
  pose proof HI as [I1 I3 I4 I5 I6 I7 I8].
  pose proof (held_op t w o w' r Hne E I8) as Hh.
  destruct (neutral o) eqn:En.
  { exists l. rewrite insert_id by exact Ht. split; [eapply inv_calm; [exact HI|eapply neutral_calm; eassumption|exact Hh]|eapply x_neutral; eassumption]. }
  assert (Hsame : calm w w' -> P r l -> exists l', Inv w' (<[t := l']> Ls) /\ P r l').
  { intros Hc H. exists l. rewrite insert_id by exact Ht. split; [eapply inv_calm; eassumption|exact H]. }
  destruct o; try discriminate En; cbn [ostep] in E; cbv zeta in E.
  - (* OWaitPut *) injection E as <- <-. destruct HP as [Hnc HP]. apply Hsame; [|exact HP]. apply calm_conn. intros tok'. cbn.
    destruct (decide (tok = tok')) as [->|D]; [rewrite lookup_insert; congruence|rewrite lookup_insert_ne by exact D; auto].
  - (* OWaitGet *) injection E as <- <-. apply Hsame; [apply calm_refl|]. apply HP. intros Hnc H. apply Hnc. eapply I5, H.
  - (* OSWaitPut *) injection E as <- <-. destruct HP as [Hnc HP]. apply Hsame; [|exact HP]. apply calm_srv. intros tok'. cbn.
    destruct (decide (tok = tok')) as [->|D]; [rewrite lookup_insert; congruence|rewrite lookup_insert_ne by exact D; auto].
  - (* OSWaitGet *) injection E as <- <-. apply Hsame; [apply calm_refl|]. apply HP, I6.
  - (* ONewChan *) injection E as <- <-. apply Hsame; [|apply HP; lia]. constructor; auto; [cbn; lia|]. intros H. unfold chan_of. cbn. rewrite lookup_insert_ne by lia. reflexivity.
  - (* OChSend *) destruct HP as [Hnc HP]. destruct (ch_buf (chan_of w ch0)); [|discriminate E]. injection E as <- <-. apply Hsame; [|apply HP].
    constructor; auto. intros _. rewrite chan_upd_ne by congruence. reflexivity.
  - (* OSelect *) destruct HP as [Hnc HP]. destruct (pick w (select_reply w ch0 x)) as [[e|m]|]; [| |discriminate E]; injection E as <- <-; (apply Hsame; [|apply HP]).
    + apply calm_same; first [reflexivity|cbn; lia].
    + constructor; auto. intros _. rewrite chan_upd_ne by congruence. reflexivity.
  - (* ONewConn *) destruct (w_conns w !! c0) eqn:Ec; [discriminate E|].
    assert (D : c0 <> c) by (intros ->; rewrite Ec in I3; destruct I3; discriminate).
    assert (Hc : calm w w').
    { destruct native_only; injection E as <- <-; (constructor; auto; try (cbn; lia); [cbn; rewrite lookup_insert_ne by exact D; auto|]);
        intros c' tok; unfold conn_of; cbn; (destruct (decide (c0 = c')) as [<-|D']; [rewrite lookup_insert; cbn; rewrite lookup_empty; discriminate|rewrite lookup_insert_ne by exact D'; auto]). }
    destruct r. apply Hsame; [exact Hc|apply HP, D].
  - (* OSpawn *) injection E as <- <-. assert (Hs : ~ harmful code -> P tt l -> exists l', Inv (w <| w_spawn ::= fun l => l ++ [code] |>) (<[t:=l']> Ls) /\ P tt l').
    { intros Hn H. apply Hsame; [|exact H]. constructor; auto. intros x. cbn. intros Hx Hh'.
      apply elem_of_app in Hx as [Hx|Hx]; [exact Hx|]. apply elem_of_list_singleton in Hx as ->. contradiction. }
    destruct code; try discriminate En; cbn in HP; destruct HP as [Hnc HP]; (apply Hs; [exact Hnc|exact HP]).
Qed.
Lemma inv_labels w (Ls Ls' : gmap tid lb) : Inv w Ls -> Inv w Ls'.
Proof. intros [I1 I3 I4 I5 I6 I7 I8]. constructor; auto. Qed.
Lemma hung_respects T : is_Some (T !! t0) -> respects_others XS G Inv T.
Proof.
  intros HT. constructor.
  - intros t w Ls l o P Hn HI Ht HP. pose proof (hung_op t w Ls l o P ltac:(intros ->; destruct HT; congruence) HI Ht HP) as H. destruct (ostep t w o); auto.
  - intros t w Ls l a HI Ht _ Ha. exists l. rewrite insert_id by exact Ht. split; [exact HI|].
    apply (impl_kp xrules x_gates); auto using x_ask, x_reply, x_message, x_ack, x_waitm, x_broadcast, x_srvask; try (intros; exact Logic.I).
    destruct a; cbn; auto; destruct n; auto.
  - intros t l Hs. apply (code_kp xrules x_gates); auto using x_ask, x_reply, x_message, x_ack, x_waitm, x_broadcast, x_srvask, x_server; try (intros; exact Logic.I).
    + cbn. auto.
    + intros. apply x_upgrade; auto.
    + intros. apply x_dial; auto.
    + intros. apply x_next; assumption.
  - intros t w Ls l HI Ht _. eapply inv_labels, HI.
  - intros t w Ls x rest HI Hsp Ht. exists tt. split.
    + pose proof (iv_spawn _ _ HI) as Hs. rewrite Hsp in Hs. specialize (Hs x ltac:(left)). destruct x; cbn in *; auto.
    + eapply inv_labels, inv_calm; [exact HI| |apply (iv_held _ _ HI)]. constructor; auto. cbn. intros y Hy _. rewrite Hsp. right. exact Hy.
  - intros t w Ls x HI Hs Ht. exists tt. split; [destruct x; try discriminate; exact Logic.I|]. eapply inv_labels, HI.
  - intros w Ls e HI _. eapply inv_calm; [exact HI|apply env_calm|apply held_env, HI].
Qed.
(** The operations that want the lock. *)
Definition wants (o : op) : Prop :=
  match lock with None => o = ONsLock c \/ o = ONsRLock c | Some n => o = ORoomLock n \/ o = ORoomRLock n end.
Lemma wants_blocked t w o : held w -> wants o -> ostep t w o = Blocked.
Proof.
  unfold held, wants. destruct lock as [n|]; intros [_ H] [->| ->]; cbn [ostep]; unfold rw_can_lock, rw_can_rlock; rewrite H; reflexivity.
Qed.

(** Both are stuck. *)
Lemma hung_stuck s (u : tid) o kt ku : reachable G s -> s_th s !! t0 = Some (Do (OSelect ch None) kt) -> s_th s !! u = Some (Do o ku) -> wants o ->
  Inv (s_w s) ∅ -> (forall t' q, s_th s !! t' = Some q -> t' <> t0 -> t' <> u -> exists x, q = code G x /\ xstart x) -> stuck G s t0 /\ stuck G s u.
Proof.
  intros Hr Ht Hu Ho' HI Ho.
  set (T := <[t0 := Do (OSelect ch None) kt]> ({[u := Do o ku]} : gmap tid (prog (option tcode)))).
  assert (HT : forall t' q w Ls, T !! t' = Some q -> Inv w Ls -> tstep G t' w q = TBlocked).
  { intros t' q w Ls H HI'. unfold T in H. apply lookup_insert_Some in H as [[<- <-]|[_ H]]; [|apply lookup_singleton_Some in H as [<- <-]].
    - cbn [tstep ostep]. unfold select_reply. rewrite (iv_buf _ _ HI'). unfold pick. cbn [app]. destruct (seed w mod length []); reflexivity.
    - unfold tstep. rewrite (wants_blocked _ _ _ (iv_held _ _ HI') Ho'). reflexivity. }
  assert (HR : respects_others XS G Inv T) by (apply hung_respects; unfold T; rewrite lookup_insert; eauto).
  assert (HF : frozen XS Inv T s).
  { pose (Ls := (fun _ => tt) <$> s_th s).
    exists Ls. split; [eapply inv_labels, HI|].
    split; [apply (th_fresh G), Hr|]. split; [intros t' H; unfold Ls; rewrite lookup_fmap, H; reflexivity|]. split.
      + intros t' q H. unfold T in H. apply lookup_insert_Some in H as [[<- <-]|[_ H]]; [exact Ht|]. apply lookup_singleton_Some in H as [<- <-]. exact Hu.
      + intros t' q H Hn. unfold T in Hn. apply lookup_insert_None in Hn as [Hn1 Hn2]. apply lookup_singleton_None in Hn1.
        exists tt. split; [unfold Ls; rewrite lookup_fmap, H; reflexivity|]. destruct (Ho t' q H) as (x & -> & Hx); [congruence..|].
        apply (ro_code XS G Inv T HR), Hx. }
  split; (eapply (frozen_stuck XS xmono G Inv T HR HT); [exact HF|]).
  - unfold T. rewrite lookup_insert. eauto.
  - destruct (decide (t0 = u)) as [->|D]; unfold T; [rewrite lookup_insert|rewrite lookup_insert_ne, lookup_singleton by exact D]; eauto.
Qed.
End hung.
