(** * AllProofs.v : C62, LeaveAll and DisconnectAll. *)
From Coq Require Import ZArith.
From stdpp Require Import gmap strings list relations.
From RecordUpdate Require Import RecordUpdate.
From Verif Require Import Go Errors Message World Lang Code Sem ExecProofs Spec_Conn Spec_View Spec_Wire CodecProofs SeqProofs ConnProofs LocalProofs Spec_All.

Lemma converse_exec {B} t (p q : prog B) w w' rs : exec t p w = exec t q w' -> converse t p w rs = converse t q w' rs.
Proof. intros H. destruct rs; cbn [converse]; rewrite H; reflexivity. Qed.
Lemma converse_done {B} t (p : prog B) w rs w' b : exec t p w = XDone w' b -> converse t p w rs = Ended w' b rs.
Proof. intros H. destruct rs; cbn [converse]; rewrite H; reflexivity. Qed.
Lemma converse_wait {B} t (p : prog B) w w' ch x k : exec t p w = XBlocked w' (OSelect ch x) k -> converse t p w [] = Waiting w'.
Proof. intros H. cbn [converse]. rewrite H. reflexivity. Qed.
Lemma converse_reply {B} t (p : prog B) w w' ch x k r rs : exec t p w = XBlocked w' (OSelect ch x) k ->
  converse t p w (r :: rs) = converse t (Do (OSelect ch x) k) (reply_in ch r w') rs.
Proof. intros H. cbn [converse]. rewrite H. reflexivity. Qed.

Lemma fire_rooms A ns m s : cs_rooms (fire A ns m s) = cs_rooms s.
Proof. unfold fire. destruct (callback _ _ _) as [[? ?]|]; reflexivity. Qed.
Lemma unsub_rooms R ns s : cs_rooms (unsubscribed R ns s) = cs_rooms s.
Proof. unfold unsubscribed. destruct (_ && _); reflexivity. Qed.

Section all.
Context (G : cfg) (c : cid) (A : app) (S : setting G c A).

(** One Ask in any world in which it can be sent. *)
Record sendable (W : world) (x : ctxref) : Prop := Sendable {
  sd_inside : c_inside (conn_of W c) = false;
  sd_open : c_closed (conn_of W c) = false;
  sd_sock : c_sockclosed (conn_of W c) = false;
  sd_wfail : c_wfail (conn_of W c) = None;
  sd_ctx : ctx_live W x }.

Definition asked_world (tok : string) (m : message) (W : world) : world :=
  send_world c (wire_of (set_wait tok m)) (ask_world c tok W).

Lemma Ask_blocks t W x m : sendable W x -> printable m ->
  let tok := genWait (g_client G c) (w_now W) in
  exec t (canWrite G c (set_wait tok m)) (ask_world c tok W) = XDone (ask_world c tok W) true ->
  exec t (Ask G c x m) W = XBlocked (asked_world tok m W) (OSelect (w_next W) x) (ask_k c x tok).
Proof.
  intros [Hin Hop Hso Hwf Hx] Hp tok HC. unfold Ask.
  rewrite (exec_opb t (OIsInside c) _ _ W false) by (cbn [ostep]; rewrite Hin; reflexivity).
  unfold ask. rewrite (app_mixed _ _ _ S).
  rewrite (exec_opb t (OIsClosed c) _ _ W false) by (cbn [ostep]; rewrite Hop; reflexivity).
  rewrite (exec_opb t (OCtxLate x) _ _ W false).
  2:{ cbn [ostep]. f_equal. destruct x as [k|]; [|reflexivity]. cbn in Hx. destruct (w_ctxs W !! k) as [xc|]; [|reflexivity].
      destruct Hx as [_ Hx]. destruct (x_deadline xc); [|reflexivity]. apply Z.ltb_ge. exact Hx. }
  rewrite (exec_opb t (ONewChan 1) _ _ _ _ eq_refl).
  rewrite (exec_opb t ONow _ _ _ _ eq_refl).
  change (IsClient G c) with (g_client G c). change (w_now (W <| w_chans ::= _ |> <| w_next ::= _ |>)) with (w_now W). fold tok.
  rewrite (exec_opb t (OLog (LAsk c tok)) _ _ _ _ eq_refl).
  change (if false then opr (OSpawn (TReadNext c (w_next W))) else opr (OWaitPut c tok (w_next W)))
    with (opr (OWaitPut c tok (w_next W))).
  rewrite (exec_opb t (OWaitPut c tok (w_next W)) _ _ (ask_world c tok W) tt eq_refl).
  assert (Hk : conn_of (ask_world c tok W) c = conn_of W c <| c_waiting ::= <[tok := w_next W]> |>).
  { unfold ask_world. rewrite conn_upd_eq. reflexivity. }
  rewrite (exec_bind_done t (Write G c (set_wait tok m)) _ _ (asked_world tok m W) true).
  2:{ unfold Write. rewrite (exec_bind_done _ _ _ _ _ _ HC). cbn [negb]. unfold asked_world, wire_of.
      destruct (serialize_printable (set_wait tok m) Hp) as [b Hb]. rewrite Hb.
      unfold write. rewrite (exec_opb t (OSockWrite c (if m_setBinary (set_wait tok m) then BinaryMessage else TextMessage) b) _ _
        (send_world c (if m_setBinary (set_wait tok m) then BinaryMessage else TextMessage, b) (ask_world c tok W)) None); [reflexivity|].
      cbn [ostep]. rewrite Hk. cbn. rewrite Hso, Hwf. reflexivity. }
  cbn [negb].
  assert (Hc : chan_of (asked_world tok m W) (w_next W) = chan0 1).
  { unfold chan_of, asked_world, send_world, ask_world. cbn. rewrite lookup_insert. reflexivity. }
  assert (E0 : select_reply (asked_world tok m W) (w_next W) x = []).
  { unfold select_reply. rewrite Hc. cbn [ch_buf chan0]. rewrite app_nil_r.
    destruct x as [k|]; [|reflexivity]. change (w_ctxs (asked_world tok m W)) with (w_ctxs W).
    cbn in Hx. destruct (w_ctxs W !! k); [|reflexivity]. destruct Hx as [-> _]. reflexivity. }
  cbn [opr bind exec ostep]. unfold pick. rewrite E0. cbn [length].
  destruct (seed (asked_world tok m W) mod 0); reflexivity.
Qed.

(** The world after the Ask got its reply. *)
Definition took_world (ch : chid) (tok : string) (r : message) (W : world) : world :=
  (upd_conn c (fun k => k <| c_waiting ::= delete tok |>)
    (upd_chan ch (fun y => y <| ch_buf ::= @tl message |> <| ch_taken ::= Datatypes.S |>) (pop_seed (reply_in ch r W))))
  <| w_log ::= cons (LAskReply c tok r false) |>.

Lemma Ask_resumes t W x ch tok r : ctx_live W x ->
  exec t (Do (OSelect ch x) (ask_k c x tok)) (reply_in ch r W) = XDone (took_world ch tok r W) (r, m_err r).
Proof.
  intros Hx. cbn [exec ostep].
  assert (E : select_reply (reply_in ch r W) ch x = [inr r]).
  { unfold select_reply. assert (ch_buf (chan_of (reply_in ch r W) ch) = [r]) as ->.
    { unfold reply_in. rewrite chan_upd_eq. reflexivity. }
    change (w_ctxs (reply_in ch r W)) with (w_ctxs W).
    destruct x as [k|]; [|reflexivity]. cbn in Hx. destruct (w_ctxs W !! k); [|reflexivity]. destruct Hx as [-> _]. reflexivity. }
  unfold pick. rewrite E. cbn [length]. rewrite Nat.mod_1_r. cbn [nth_error ask_k]. reflexivity.
Qed.

Lemma plain_took ch tok r w : plain c w (took_world ch tok r w).
Proof.
  set (w2 := upd_conn c (fun k => k <| c_waiting ::= delete tok |>)
    (upd_chan ch (fun y => y <| ch_buf ::= @tl message |> <| ch_taken ::= Datatypes.S |>) (pop_seed (reply_in ch r w)))).
  assert (E : conn_of w2 c = conn_of w c <| c_waiting ::= delete tok |>) by (unfold w2; rewrite conn_upd_eq; reflexivity).
  assert (E' : conn_of (took_world ch tok r w) c = conn_of w c <| c_waiting ::= delete tok |>) by exact E.
  split; rewrite ?E'; auto.
  intros c' Hc. change (w_conns (took_world ch tok r w)) with (w_conns w2). unfold w2. rewrite upd_conn_ne by exact Hc. reflexivity.
Qed.
Lemma took_conn ch tok r w : conn_of (took_world ch tok r w) c = conn_of w c <| c_waiting ::= delete tok |>.
Proof.
  set (w2 := upd_conn c (fun k => k <| c_waiting ::= delete tok |>)
    (upd_chan ch (fun y => y <| ch_buf ::= @tl message |> <| ch_taken ::= Datatypes.S |>) (pop_seed (reply_in ch r w)))).
  assert (E : conn_of w2 c = conn_of w c <| c_waiting ::= delete tok |>) by (unfold w2; rewrite conn_upd_eq; reflexivity).
  exact E.
Qed.
Lemma at_took ch tok r w s nm : at_ G c w s nm -> at_ G c (took_world ch tok r w) s nm.
Proof.
  intros H. pose proof (a_quiet _ _ _ _ _ H) as [Hm Q]. pose proof (took_conn ch tok r w) as E. split.
  - split; [rewrite E; unfold took_world; cbn; apply lookup_insert|]. rewrite E. destruct Q. split; cbn; auto.
  - rewrite <- (a_view _ _ _ _ _ H). unfold view. rewrite E. reflexivity.
  - rewrite E. apply (a_nm _ _ _ _ _ H).
Qed.
Lemma asked_conn tok m w : conn_of (asked_world tok m w) c = conn_of w c <| c_waiting ::= <[tok := w_next w]> |> <| c_out ::= fun l => l ++ [wire_of (set_wait tok m)] |>.
Proof. unfold asked_world. rewrite send_conn. unfold ask_world. rewrite conn_upd_eq. reflexivity. Qed.
Lemma at_asked tok m w s nm : at_ G c w s nm -> at_ G c (asked_world tok m w) (push (wire_of (set_wait tok m)) s) nm.
Proof. intros H. apply at_send, at_ask, H. Qed.
Lemma plain_asked tok m w : plain c w (asked_world tok m w).
Proof. eapply plain_trans; [apply ask_world_plain|apply only_send_plain]. Qed.

(** What stays the same during the whole conversation. *)
Record stays (x : ctxref) (w w' : world) : Prop := Stays {
  st_inside : c_inside (conn_of w' c) = c_inside (conn_of w c);
  st_now : w_now w' = w_now w;
  st_ctxs : w_ctxs w' = w_ctxs w;
  st_id : c_id (conn_of w' c) = c_id (conn_of w c);
  st_others : others c w w' }.
Lemma stays_refl x w : stays x w w. Proof. split; auto. apply others_refl. Qed.
Lemma stays_trans x w1 w2 w3 : stays x w1 w2 -> stays x w2 w3 -> stays x w1 w3.
Proof. intros [] []. split; try congruence. eapply others_trans; eassumption. Qed.
Lemma only_stays x w w' : only c w w' -> stays x w w'.
Proof. intros O. split; try apply O. apply only_others, O. Qed.
Lemma stays_asked x tok m w : stays x w (asked_world tok m w).
Proof.
  split; try (rewrite asked_conn; reflexivity); try reflexivity. apply plain_z, plain_asked.
Qed.
Lemma stays_took x ch tok r w : stays x w (took_world ch tok r w).
Proof.
  split; try (rewrite took_conn; reflexivity); try reflexivity. apply plain_z, plain_took.
Qed.
Lemma stays_live x w w' : stays x w w' -> ctx_live w x -> ctx_live w' x.
Proof. intros [_ E1 E2 _ _]. unfold ctx_live. rewrite E1, E2. auto. Qed.

(** *** LeaveAll: the room mutex is held. *)
Lemma asked_mu n l tok m w : asked_world tok m (mu_world n l w) = mu_world n l (asked_world tok m w).
Proof. reflexivity. Qed.
Lemma took_mu n l ch tok r w : took_world ch tok r (mu_world n l w) = mu_world n l (took_world ch tok r w).
Proof. reflexivity. Qed.
Lemma mu_rooms n l w n' : o_rooms (ns_of (mu_world n l w) n') = o_rooms (ns_of w n').
Proof.
  destruct (decide (n_id n' = n_id n)) as [E|E].
  - unfold mu_world, ns_of, upd_ns. cbn. rewrite E, lookup_insert. unfold ns_of. destruct (w_nss w !! n_id n); reflexivity.
  - unfold mu_world. rewrite ns_upd_ne by exact E. reflexivity.
Qed.
Lemma view_mu n l w : view (mu_world n l w) c = view w c.
Proof.
  unfold view. f_equal. apply map_eq. intros name. rewrite !lookup_fmap.
  change (conn_of (mu_world n l w) c) with (conn_of w c). destruct (_ !! name); [|reflexivity]. cbn. f_equal. apply mu_rooms.
Qed.

Lemma mu_canWrite t n l room tok w s nm rs : at_ G c w s nm -> nm !! n_name n = Some n ->
  cs_rooms s !! n_name n = Some rs -> room ∈ rs ->
  exec t (canWrite G c (set_wait tok (leave_all_msg (n_name n) room))) (mu_world n l w) = XDone (mu_world n l w) true.
Proof.
  intros H En Ers Hr. unfold canWrite.
  rewrite (exec_opb t (OIsClosed c) _ _ (mu_world n l w) false).
  2:{ cbn [ostep]. change (conn_of (mu_world n l w) c) with (conn_of w c). rewrite (q_open _ _ _ (a_quiet _ _ _ _ _ H)). reflexivity. }
  rewrite (exec_bind_done _ _ _ _ (mu_world n l w) tt).
  2:{ unfold IsClient. destruct (g_client G c) eqn:E; [reflexivity|].
      apply unwait_exec. change (conn_of (mu_world n l w) c) with (conn_of w c). apply (q_ready _ _ _ (a_quiet _ _ _ _ _ H)), E. }
  change (m_locked (set_wait tok (leave_all_msg (n_name n) room))) with true.
  change (isConnect (set_wait tok (leave_all_msg (n_name n) room))) with false.
  change (isDisconnect (set_wait tok (leave_all_msg (n_name n) room))) with false.
  change (m_namespace (set_wait tok (leave_all_msg (n_name n) room))) with (n_name n).
  change (m_room (set_wait tok (leave_all_msg (n_name n) room))) with room.
  change (isRoomJoin (set_wait tok (leave_all_msg (n_name n) room))) with false.
  change (isRoomLeft (set_wait tok (leave_all_msg (n_name n) room))) with false.
  change (m_fromExplicit (set_wait tok (leave_all_msg (n_name n) room))) with ""%string.
  cbn [orb negb andb].
  rewrite (exec_bind_done _ _ _ _ (mu_world n l w) true); [reflexivity|].
  cbn [bind]. rewrite (exec_opb t (OGetNs c (n_name n)) _ _ (mu_world n l w) (Some n)).
  2:{ cbn [ostep]. change (conn_of (mu_world n l w) c) with (conn_of w c). rewrite (a_nm _ _ _ _ _ H), En. reflexivity. }
  destruct (is_empty room); cbn [bind negb andb]; [reflexivity|].
  rewrite (exec_opb t (OHasRoom n room) _ _ (mu_world n l w) true); [reflexivity|].
  cbn [ostep]. rewrite mu_rooms. destruct (at_ns _ _ _ _ _ _ _ H En) as (_ & _ & _ & _ & _ & E). rewrite Ers in E. injection E as ->.
  rewrite bool_decide_eq_true_2 by exact Hr. reflexivity.
Qed.

Lemma leave_loop {B} t x n l nm (f : option gerr -> prog B) : nm !! n_name n = Some n ->
  forall order replies w s rs, at_ G c w s nm -> c_inside (conn_of w c) = false -> ctx_live w x ->
  cs_rooms s !! n_name n = Some rs -> NoDup order -> (forall r, r ∈ order -> r ∈ rs) ->
  let body := fun room => askRoomLeave G n x (leave_all_msg (n_name n) room) false in
  let tok := genWait (g_client G c) (w_now w) in
  exists w', at_ G c w' (fst (leave_all A tok (n_name n) order replies s)) nm /\ stays x w w' /\
    converse t (bind (for_each order body) f) (mu_world n l w) replies =
    match snd (leave_all A tok (n_name n) order replies s) with
    | None => Waiting (mu_world n l w')
    | Some (e, unused) => converse t (f e) (mu_world n l w') unused
    end.
Proof.
  intros En order. induction order as [|room order IH]; intros replies w s rs H Hin Hx Ers Hnd Hsub body tok.
  { exists w. split; [exact H|]. split; [apply stays_refl|]. reflexivity. }
  assert (Hc : n_conn n = c) by (eapply at_ns; eassumption).
  destruct (at_ns _ _ _ _ _ _ _ H En) as (_ & _ & E1 & Hr1 & Hr2 & Hr3).
  assert (Hroom : room ∈ rs) by (apply Hsub; left).
  set (W := mu_world n l w). set (m := leave_all_msg (n_name n) room).
  set (K := fun r : message * option gerr =>
    match snd r with
    | Some e => Ret (Some e)
    | None =>
        bind (fireEvent G n m) (fun err =>
        match err with
        | Some e => Ret (Some e)
        | None =>
            bind (opr (ODelRoom n room)) (fun _ =>
            bind (fireEvent G n (set_event OnRoomLeft m)) (fun _ => Ret None))
        end)
    end).
  assert (EB : forall W', (room ∈ o_rooms (ns_of W' n)) -> exec t (body room) W' = exec t (bind (Ask G c x m) K) W').
  { intros W' HW. unfold body, askRoomLeave. cbn [bind]. rewrite Hc.
    change (m_room (leave_all_msg (n_name n) room)) with room.
    rewrite (exec_opb t (OHasRoom n room) _ _ W' true) by (cbn [ostep]; rewrite bool_decide_eq_true_2 by exact HW; reflexivity).
    reflexivity. }
  assert (Sd : sendable W x).
  { split; try (change (conn_of W c) with (conn_of w c); apply (a_quiet _ _ _ _ _ H)); assumption. }
  assert (EA : exec t (Ask G c x m) W = XBlocked (mu_world n l (asked_world tok m w)) (OSelect (w_next w) x) (ask_k c x tok)).
  { rewrite (Ask_blocks t W x m Sd Logic.I); [reflexivity|].
    change (ask_world c (genWait (g_client G c) (w_now W)) W) with (mu_world n l (ask_world c tok w)).
    change (genWait (g_client G c) (w_now W)) with tok.
    eapply mu_canWrite; [apply at_ask, H|exact En|exact Ers|exact Hroom]. }
  assert (EF : exec t (bind (for_each (room :: order) body) f) W =
    XBlocked (mu_world n l (asked_world tok m w)) (OSelect (w_next w) x)
      (fun r => bind (bind (bind (ask_k c x tok r) K) (fun r => match r with Some v => Ret (Some v) | None => for_each order body end)) f)).
  { cbn [for_each]. rewrite !exec_bind, EB.
    - rewrite exec_bind, EA. reflexivity.
    - unfold W. rewrite mu_rooms. rewrite Ers in Hr3. injection Hr3 as <-. exact Hroom. }
  pose proof (at_asked tok m _ _ _ H) as H1. pose proof (stays_asked x tok m w) as T1.
  cbn [leave_all]. fold m. destruct replies as [|r rest].
  { exists (asked_world tok m w). split; [exact H1|]. split; [exact T1|]. cbn [snd]. eapply converse_wait, EF. }
  rewrite (converse_reply _ _ _ _ _ _ _ _ _ EF).
  set (k3 := fun r0 : res (OSelect (w_next w) x) => bind (bind (bind (ask_k c x tok r0) K) (fun r => match r with Some v => Ret (Some v) | None => for_each order body end)) f).
  change (Do (OSelect (w_next w) x) k3) with
    (bind (bind (bind (Do (OSelect (w_next w) x) (ask_k c x tok)) K) (fun r => match r with Some v => Ret (Some v) | None => for_each order body end)) f).
  clear k3.
  set (w2 := took_world (w_next w) tok r (asked_world tok m w)).
  pose proof (at_took (w_next w) tok r _ _ _ H1) as H2. fold w2 in H2.
  assert (T2 : stays x w w2) by (eapply stays_trans; [exact T1|apply stays_took]).
  assert (ER : exec t (Do (OSelect (w_next w) x) (ask_k c x tok)) (reply_in (w_next w) r (mu_world n l (asked_world tok m w)))
     = XDone (mu_world n l w2) (r, m_err r)).
  { rewrite Ask_resumes; [reflexivity|]. exact (stays_live x w _ T1 Hx). }
  destruct (m_err r) as [e|] eqn:EV.
  { exists w2. split; [exact H2|]. split; [exact T2|]. cbn [snd fst]. apply converse_exec.
    rewrite !exec_bind, ER. cbn [xbind]. unfold K at 1. cbn [snd]. reflexivity. }
  pose proof (at_fire G c A n m _ _ _ H2 Hc) as H3. pose proof (only_fire c A n m w2 Hc) as O3.
  assert (T3 : stays x w (fire_world A n m w2)) by (eapply stays_trans; [exact T2|apply only_stays, O3]).
  destruct (answer A (n_name n) m) as [e|] eqn:EN.
  { exists (fire_world A n m w2). split; [exact H3|]. split; [exact T3|]. cbn [snd fst]. apply converse_exec.
    rewrite !exec_bind, ER. cbn [xbind]. unfold K at 1. cbn [snd].
    rewrite (exec_bind_done _ _ _ _ _ _ (fireEvent_exec G c A (app_of _ _ _ S) t n m _ Hc)), EN, fire_mu. reflexivity. }
  pose proof (at_rooms_world G c _ _ _ n (fun s => s ∖ {[room]}) H3 En) as H4.
  pose proof (only_rooms G c _ n (fun s => s ∖ {[room]}) _ _ H3 En) as O4.
  pose proof (at_fire G c A n (set_event OnRoomLeft m) _ _ _ H4 Hc) as H5.
  pose proof (only_fire c A n (set_event OnRoomLeft m) (rooms_world n (fun s => s ∖ {[room]}) (fire_world A n m w2)) Hc) as O5.
  set (w5 := fire_world A n (set_event OnRoomLeft m) (rooms_world n (fun s => s ∖ {[room]}) (fire_world A n m w2))) in *.
  assert (T5 : stays x w w5).
  { eapply stays_trans; [exact T3|]. eapply stays_trans; [apply only_stays, O4|apply only_stays, O5]. }
  destruct (IH rest w5 _ (rs ∖ {[room]}) H5) as (w6 & H6 & T6 & E6).
  { rewrite (st_inside _ _ _ T5). exact Hin. }
  { eapply stays_live; eassumption. }
  { rewrite fire_rooms. change (alter (fun s0 : gset string => s0 ∖ {[room]}) (n_name n) (cs_rooms (fire A (n_name n) m (push (wire_of (set_wait tok m)) s))) !! n_name n = Some (rs ∖ {[room]})).
    rewrite fire_rooms, lookup_alter. change (cs_rooms (push (wire_of (set_wait tok m)) s)) with (cs_rooms s). rewrite Ers. reflexivity. }
  { apply NoDup_cons in Hnd. apply Hnd. }
  { intros r' Hr'. apply NoDup_cons in Hnd as [Hn _]. apply elem_of_difference. split; [apply Hsub; right; exact Hr'|].
    intros E. apply elem_of_singleton in E. subst. contradiction. }
  fold m in E6. rewrite (st_now _ _ _ T5) in H6, E6. fold tok in H6, E6.
  exists w6. split; [exact H6|]. split; [eapply stays_trans; [exact T5|exact T6]|].
  rewrite <- E6. apply converse_exec.
  rewrite (exec_bind t (bind (bind (Do _ _) _) _) f), (exec_bind t (bind (Do _ _) _)), (exec_bind t (Do _ _)), ER. cbn [xbind].
  unfold K at 1. cbn [snd].
  rewrite (exec_bind_done _ _ _ _ _ _ (fireEvent_exec G c A (app_of _ _ _ S) t n m _ Hc)), EN, fire_mu.
  rewrite (exec_opb t (ODelRoom n room) _ _ (rooms_world n (fun s => s ∖ {[room]}) (mu_world n l (fire_world A n m w2))) tt eq_refl).
  rewrite (exec_bind_done _ _ _ _ _ _ (fireEvent_exec G c A (app_of _ _ _ S) t n (set_event OnRoomLeft m) _ Hc)), rooms_mu, fire_mu.
  cbn [exec xbind]. rewrite exec_bind. reflexivity.
Qed.

Lemma leave_all_run t x n w replies : quiet G w c -> ctx_live w x -> c_inside (conn_of w c) = false ->
  c_nss (conn_of w c) !! n_name n = Some n ->
  exists order rs w', cs_rooms (view w c) !! n_name n = Some rs /\ Permutation order (elements rs) /\
    let r := leave_all A (genWait (g_client G c) (w_now w)) (n_name n) order replies (view w c) in
    view w' c = fst r /\ others c w w' /\
    converse t (LeaveAll G (Some n) x) w replies =
      match snd r with
      | None => Waiting w'
      | Some (e, unused) => Ended w' e unused
      end /\
    (snd r <> None -> quiet G w' c /\ c_nss (conn_of w' c) = c_nss (conn_of w c)).
Proof.
  intros Q Hx Hin En. pose proof (at_intro _ _ _ Q) as H.
  destruct (at_ns _ _ _ _ _ _ _ H En) as (Hc & _ & E1 & Hr1 & Hr2 & Hr3).
  set (order := permute (seed w) (elements (o_rooms (ns_of w n)))).
  assert (Hperm : Permutation order (elements (o_rooms (ns_of w n)))) by apply permute_perm.
  set (f := fun r : option gerr => bind (opr (ORoomUnlock n)) (fun _ => Ret r)).
  destruct (leave_loop t x n (RW (Some t) []) _ f En order replies (pop_seed w) (view w c) (o_rooms (ns_of w n))) as (w' & H' & T & E).
  { apply at_pop, H. } { exact Hin. } { exact Hx. } { exact Hr3. }
  { rewrite Hperm. apply NoDup_elements. }
  { intros r. rewrite Hperm. apply elem_of_elements. }
  change (w_now (pop_seed w)) with (w_now w) in H', E.
  set (r := leave_all A (genWait (g_client G c) (w_now w)) (n_name n) order replies (view w c)) in *.
  assert (EL : converse t (LeaveAll G (Some n) x) w replies =
    converse t (bind (for_each order (fun room => askRoomLeave G n x (leave_all_msg (n_name n) room) false)) f) (mu_world n (RW (Some t) []) (pop_seed w)) replies).
  { apply converse_exec. unfold LeaveAll.
    rewrite (exec_opb t (ORoomLock n) _ _ (mu_world n (RW (Some t) []) w) tt) by (cbn [ostep]; rewrite Hr2; reflexivity).
    rewrite (exec_opb t (ORoomRange n) _ _ (mu_world n (RW (Some t) []) (pop_seed w)) order).
    2:{ cbn [ostep]. rewrite mu_rooms. reflexivity. }
    reflexivity. }
  assert (HO : forall l, others c w w' -> others c w (mu_world n l w')).
  { intros l O. eapply others_trans; [exact O|]. split; auto.
    intros id o Eo Ho. unfold mu_world, upd_ns. cbn.
    destruct (at_ns _ _ _ _ _ _ _ H' En) as (_ & _ & E1' & Hr1' & _ & _).
    destruct (decide (n_id n = id)) as [<-|Hd]; [|rewrite lookup_insert_ne by exact Hd; exact Eo].
    rewrite E1' in Eo. injection Eo as <-. rewrite Hr1' in Ho. congruence. }
  assert (O : others c w w').
  { eapply others_trans; [apply only_others, only_pop|apply T]. }
  destruct (snd r) as [[e unused]|] eqn:ES.
  - exists order, (o_rooms (ns_of w n)), w'. split; [exact Hr3|]. split; [exact Hperm|]. fold r. cbn zeta. rewrite ES.
    split; [apply (a_view _ _ _ _ _ H')|]. split; [exact O|]. split.
    2:{ intros _. split; [apply H'|]. rewrite (a_nm _ _ _ _ _ H'). reflexivity. }
    rewrite EL, E. apply converse_done. unfold f.
    destruct (at_ns _ _ _ _ _ _ _ H' En) as (_ & _ & E1' & Hr1' & Hr2' & _).
    rewrite (exec_opb t (ORoomUnlock n) _ _ w' tt); [reflexivity|].
    cbn [ostep]. unfold mu_world at 1. rewrite ns_upd_eq. cbn. rewrite Nat.eqb_refl. f_equal.
    unfold mu_world. rewrite upd_ns_twice. apply upd_ns_id; [exact E1'|].
    destruct (ns_of w' n) as [a b d]; cbn in *. unfold set; cbn. subst. reflexivity.
  - exists order, (o_rooms (ns_of w n)), (mu_world n (RW (Some t) []) w'). split; [exact Hr3|]. split; [exact Hperm|]. fold r. cbn zeta. rewrite ES.
    split; [rewrite view_mu; apply (a_view _ _ _ _ _ H')|]. split; [apply HO, O|]. split; [rewrite EL, E; reflexivity|]. congruence.
Qed.

(** *** DisconnectAll: the mutex of the namespaces is held. *)
Definition nsmu_world (l : rwlock) (w : world) : world := upd_conn c (fun k => k <| c_nsmu := l |>) w.
Lemma conn_nsmu l w : conn_of (nsmu_world l w) c = conn_of w c <| c_nsmu := l |>.
Proof. apply conn_upd_eq. Qed.
Lemma upd_conn_log e f w : upd_conn c f (w <| w_log ::= cons e |>) = upd_conn c f w <| w_log ::= cons e |>.
Proof. reflexivity. Qed.
Lemma nsmu_comm l f w : (forall k, f (k <| c_nsmu := l |>) = f k <| c_nsmu := l |>) ->
  upd_conn c f (nsmu_world l w) = nsmu_world l (upd_conn c f w).
Proof. intros H. unfold nsmu_world. rewrite !upd_conn_twice. apply upd_conn_ext. apply H. Qed.
Lemma ask_nsmu l tok w : ask_world c tok (nsmu_world l w) = nsmu_world l (ask_world c tok w).
Proof.
  unfold ask_world. change (w_next (nsmu_world l w)) with (w_next w).
  rewrite <- nsmu_comm by reflexivity. reflexivity.
Qed.
Lemma asked_nsmu l tok m w : asked_world tok m (nsmu_world l w) = nsmu_world l (asked_world tok m w).
Proof. unfold asked_world. rewrite ask_nsmu. unfold send_world. apply nsmu_comm. reflexivity. Qed.
Lemma took_nsmu l ch tok r w : took_world ch tok r (nsmu_world l w) = nsmu_world l (took_world ch tok r w).
Proof.
  unfold took_world.
  change (upd_chan ch (fun y => y <| ch_buf ::= @tl message |> <| ch_taken ::= Datatypes.S |>) (pop_seed (reply_in ch r (nsmu_world l w))))
    with (nsmu_world l (upd_chan ch (fun y => y <| ch_buf ::= @tl message |> <| ch_taken ::= Datatypes.S |>) (pop_seed (reply_in ch r w)))).
  rewrite nsmu_comm by reflexivity. reflexivity.
Qed.
Lemma fire_nsmu l n m w : fire_world A n m (nsmu_world l w) = nsmu_world l (fire_world A n m w).
Proof. unfold fire_world. destruct (callback _ _ _) as [[? ?]|]; reflexivity. Qed.
Lemma leave_nsmu l n local order w : leave_world A n local order (nsmu_world l w) = nsmu_world l (leave_world A n local order w).
Proof.
  revert w; induction order as [|r order IH]; intros w; [reflexivity|]. cbn [leave_world].
  rewrite fire_nsmu. change (rooms_world n (fun s => s ∖ {[r]}) (nsmu_world l (fire_world A n (set_event OnRoomLeave (leave_msg n local r)) w)))
    with (nsmu_world l (rooms_world n (fun s => s ∖ {[r]}) (fire_world A n (set_event OnRoomLeave (leave_msg n local r)) w))).
  rewrite fire_nsmu. apply IH.
Qed.
Lemma delns_nsmu l name w : delns_world c name (nsmu_world l w) = nsmu_world l (delns_world c name w).
Proof. apply nsmu_comm. reflexivity. Qed.
Lemma view_nsmu l w : view (nsmu_world l w) c = view w c.
Proof. unfold view. rewrite conn_nsmu. reflexivity. Qed.

Definition notify_world (ns : string) (w : world) : world :=
  if negb (g_client G c) && usesStackExchange G then w <| w_log ::= cons (LExch (XUnsubscribe c ns)) |> else w.
Lemma notify_exec t w m : exec t (notifyNamespaceDisconnect G c m) w = XDone (notify_world (m_namespace m) w) tt.
Proof.
  unfold notifyNamespaceDisconnect, notify_world, IsClient, exch_call. destruct (g_client G c); [reflexivity|].
  destruct (usesStackExchange G); reflexivity.
Qed.
Lemma notify_nsmu l ns w : notify_world ns (nsmu_world l w) = nsmu_world l (notify_world ns w).
Proof. unfold notify_world. destruct (_ && _); reflexivity. Qed.
Lemma at_notify w s nm m : at_ G c w s nm ->
  at_ G c (notify_world (m_namespace m) w) (unsubscribed (role_of G c w) (m_namespace m) s) nm /\ only c w (notify_world (m_namespace m) w).
Proof.
  intros H. destruct (notifyDisconnect_runs G c 0 w _ _ m H) as (w' & E & H' & O). rewrite notify_exec in E. injection E as <-. auto.
Qed.

Lemma forceLeaveAll_exec t n local W : n_conn n = c -> o_mu (ns_of W n) = rw0 -> w_nss W !! n_id n = Some (ns_of W n) ->
  (forall order w', w' = leave_world A n local order (pop_seed W) -> w_nss w' !! n_id n = Some (ns_of w' n) /\ o_mu (ns_of w' n) = rw0) ->
  let order := permute (seed W) (elements (o_rooms (ns_of W n))) in
  exec t (forceLeaveAll G n local) W = XDone (leave_world A n local order (pop_seed W)) tt.
Proof.
  intros Hc Hmu E1 HL order. unfold forceLeaveAll.
  rewrite (exec_opb t (ORoomLock n) _ _ (mu_world n (RW (Some t) []) W) tt) by (cbn [ostep]; rewrite Hmu; reflexivity).
  rewrite (exec_opb t (ORoomRange n) _ _ (mu_world n (RW (Some t) []) (pop_seed W)) order).
  2:{ cbn [ostep]. rewrite mu_rooms. reflexivity. }
  rewrite (exec_bind_done _ _ _ _ _ _ (leave_loop_exec G c A (app_of _ _ _ S) t n local order _ Hc)).
  rewrite leave_mu.
  cbn [opr exec ostep]. unfold mu_world at 1. rewrite ns_upd_eq. cbn. rewrite Nat.eqb_refl. f_equal.
  unfold mu_world. rewrite upd_ns_twice.
  destruct (HL order _ eq_refl) as [E1' H2'].
  apply upd_ns_id; [exact E1'|]. destruct (ns_of (leave_world A n local order (pop_seed W)) n) as [a b d]; cbn in *. unfold set; cbn. subst. reflexivity.
Qed.

(** The room orders belong to the rooms of the state. *)
Definition room_orders (s : cstate) (order : list (string * list string)) : Prop :=
  Forall (fun e => exists rs, cs_rooms s !! fst e = Some rs /\ Permutation (snd e) (elements rs)) order.

Lemma disc_loop {B} t x l (f : option gerr -> prog B) :
  forall nss replies w s nm, at_ G c w s nm -> c_inside (conn_of w c) = false -> ctx_live w x ->
  NoDup nss.*1 -> (forall e, e ∈ nss -> nm !! fst e = Some (snd e)) ->
  let body := fun e : string * nsref => askDisconnect G c x (bye_all_msg (fst e)) false in
  let tok := genWait (g_client G c) (w_now w) in
  exists order w' nm', order.*1 = nss.*1 /\ room_orders s order /\
    let r := disconnect_all (role_of G c w) A tok order replies s in
    at_ G c w' (fst r) nm' /\ stays x w w' /\
    converse t (bind (for_each nss body) f) (nsmu_world l w) replies =
    match snd r with
    | None => Waiting (nsmu_world l w')
    | Some (e, unused) => converse t (f e) (nsmu_world l w') unused
    end.
Proof.
  induction nss as [|[ns n] nss IH]; intros replies w s nm H Hin Hx Hnd Hnm body tok.
  { exists [], w, nm. split; [reflexivity|]. split; [constructor|]. split; [exact H|]. split; [apply stays_refl|]. reflexivity. }
  assert (En : nm !! ns = Some n) by (apply (Hnm (ns, n)); left).
  destruct (at_ns _ _ _ _ _ _ _ H En) as (Hc & Hname & E1 & Hr1 & Hr2 & Hr3). subst ns.
  set (W := nsmu_world l w). set (m := bye_all_msg (n_name n)).
  cbn [fmap list_fmap] in Hnd. apply NoDup_cons in Hnd as [Hnin Hnd]. cbn [fst] in Hnin.
  (* if it stops here *)
  assert (Hrest : exists order0, order0.*1 = nss.*1 /\ room_orders s order0).
  { clear IH Hnd Hnin body. induction nss as [|[ns' n'] nss IH']; [exists []; split; [reflexivity|constructor]|].
    destruct IH' as (o & Eo & Ho). { intros e He. apply Hnm. apply elem_of_cons in He as [->|He]; [left|right; right; exact He]. }
    assert (En' : nm !! ns' = Some n') by (apply (Hnm (ns', n')); right; left).
    destruct (at_ns _ _ _ _ _ _ _ H En') as (_ & _ & _ & _ & _ & Hr3').
    exists ((ns', elements (o_rooms (ns_of w n'))) :: o). split; [cbn; f_equal; exact Eo|].
    constructor; [|exact Ho]. cbn. eauto. }
  destruct Hrest as (order0 & Eo0 & Ho0).
  set (K := fun r : message * option gerr =>
    match snd r with
    | Some e => Ret (Some e)
    | None =>
        bind (forceLeaveAll G n true) (fun _ =>
        bind (opr (ODelNs c (n_name n))) (fun _ =>
        bind (fireEvent G n m) (fun _ =>
        bind (notifyNamespaceDisconnect G c m) (fun _ => Ret None))))
    end).
  assert (EB : exec t (body (n_name n, n)) W = exec t (bind (Ask G c x m) K) W).
  { unfold body, askDisconnect. cbn [bind fst].
    change (m_namespace (bye_all_msg (n_name n))) with (n_name n).
    rewrite (exec_opb t (OGetNs c (n_name n)) _ _ W (Some n)).
    2:{ cbn [ostep]. unfold W. rewrite conn_nsmu. cbn. rewrite (a_nm _ _ _ _ _ H), En. reflexivity. }
    reflexivity. }
  assert (Sd : sendable W x).
  { split; [unfold W; rewrite conn_nsmu; cbn; first [exact Hin|apply (a_quiet _ _ _ _ _ H)] ..|exact Hx]. }
  assert (EA : exec t (Ask G c x m) W = XBlocked (nsmu_world l (asked_world tok m w)) (OSelect (w_next w) x) (ask_k c x tok)).
  { rewrite (Ask_blocks t W x m Sd Logic.I); [unfold W; rewrite asked_nsmu; reflexivity|].
    change (genWait (g_client G c) (w_now W)) with tok. unfold W. rewrite ask_nsmu.
    pose proof (at_ask G c tok _ _ _ H) as Ha. set (wa := ask_world c tok w) in *.
    unfold canWrite.
    rewrite (exec_opb t (OIsClosed c) _ _ (nsmu_world l wa) false).
    2:{ cbn [ostep]. rewrite conn_nsmu. cbn. rewrite (q_open _ _ _ (a_quiet _ _ _ _ _ Ha)). reflexivity. }
    rewrite (exec_bind_done _ _ _ _ (nsmu_world l wa) tt).
    2:{ unfold IsClient. destruct (g_client G c) eqn:E; [reflexivity|].
        apply unwait_exec. rewrite conn_nsmu. cbn. apply (q_ready _ _ _ (a_quiet _ _ _ _ _ Ha)), E. }
    reflexivity. }
  set (g := fun r : option gerr => match r with Some v => Ret (Some v) | None => for_each nss body end).
  assert (EF : exec t (bind (for_each ((n_name n, n) :: nss) body) f) W =
    XBlocked (nsmu_world l (asked_world tok m w)) (OSelect (w_next w) x) (fun r => bind (bind (bind (ask_k c x tok r) K) g) f)).
  { cbn [for_each]. rewrite !exec_bind, EB. rewrite exec_bind, EA. reflexivity. }
  pose proof (at_asked tok m _ _ _ H) as H1. pose proof (stays_asked x tok m w) as T1.
  destruct replies as [|r rest].
  { exists ((n_name n, elements (o_rooms (ns_of w n))) :: order0), (asked_world tok m w), nm.
    split; [cbn; f_equal; exact Eo0|]. split; [constructor; [cbn; eauto|exact Ho0]|]. cbn [disconnect_all fst snd]. fold m.
    split; [exact H1|]. split; [exact T1|]. eapply converse_wait, EF. }
  rewrite (converse_reply _ _ _ _ _ _ _ _ _ EF).
  set (k3 := fun r0 : res (OSelect (w_next w) x) => bind (bind (bind (ask_k c x tok r0) K) g) f).
  change (Do (OSelect (w_next w) x) k3) with (bind (bind (bind (Do (OSelect (w_next w) x) (ask_k c x tok)) K) g) f).
  clear k3.
  set (w2 := took_world (w_next w) tok r (asked_world tok m w)).
  pose proof (at_took (w_next w) tok r _ _ _ H1) as H2. fold w2 in H2.
  assert (T2 : stays x w w2) by (eapply stays_trans; [exact T1|apply stays_took]).
  assert (ER : exec t (Do (OSelect (w_next w) x) (ask_k c x tok)) (reply_in (w_next w) r (nsmu_world l (asked_world tok m w)))
     = XDone (nsmu_world l w2) (r, m_err r)).
  { rewrite Ask_resumes; [rewrite took_nsmu; reflexivity|]. exact (stays_live x w _ T1 Hx). }
  destruct (m_err r) as [e|] eqn:EV.
  { exists ((n_name n, elements (o_rooms (ns_of w n))) :: order0), w2, nm.
    split; [cbn; f_equal; exact Eo0|]. split; [constructor; [cbn; eauto|exact Ho0]|]. cbn [disconnect_all]. rewrite EV. cbn [fst snd]. fold m.
    split; [exact H2|]. split; [exact T2|]. apply converse_exec.
    rewrite !exec_bind, ER. reflexivity. }
  assert (Er : o_rooms (ns_of w2 n) = o_rooms (ns_of w n)) by reflexivity.
  set (ro := permute (seed (nsmu_world l w2)) (elements (o_rooms (ns_of (nsmu_world l w2) n)))).
  assert (Hro : Permutation ro (elements (o_rooms (ns_of w n)))) by (unfold ro; rewrite permute_perm; reflexivity).
  pose proof (at_pop G c _ _ _ H2) as H2p.
  destruct (at_leave G c A n true ro (pop_seed w2) _ nm H2p En) as [H3 O3].
  set (w3 := leave_world A n true ro (pop_seed w2)) in *.
  pose proof (at_delns G c _ _ _ (n_name n) H3) as H4. pose proof (only_delns c w3 (n_name n)) as O4.
  set (w4 := delns_world c (n_name n) w3) in *.
  pose proof (at_fire G c A n m _ _ _ H4 Hc) as H5. pose proof (only_fire c A n m w4 Hc) as O5.
  set (w5 := fire_world A n m w4) in *.
  destruct (at_notify _ _ _ m H5) as [H6 O6]. set (w6 := notify_world (m_namespace m) w5) in *.
  assert (T6 : stays x w w6).
  { eapply stays_trans; [exact T2|]. apply only_stays. eapply only_trans; [apply only_pop|]. eapply only_trans; [exact O3|].
    eapply only_trans; [exact O4|]. eapply only_trans; [exact O5|exact O6]. }
  assert (HR : role_of G c w5 = role_of G c w).
  { apply role_eq. rewrite <- (st_id _ _ _ T6). symmetry. apply O6. }
  assert (HR6 : role_of G c w6 = role_of G c w) by (apply role_eq, T6).
  rewrite HR in H6. change (m_namespace m) with (n_name n) in H6.
  destruct (IH rest w6 _ _ H6) as (order & w7 & nm7 & Eo & Ho & H7 & T7 & E7).
  { rewrite (st_inside _ _ _ T6). exact Hin. }
  { eapply stays_live; eassumption. }
  { exact Hnd. }
  { intros e He. rewrite lookup_delete_ne. { apply Hnm. right. exact He. }
    intros E. apply Hnin. rewrite E. apply elem_of_list_fmap. eauto. }
  rewrite HR6, (st_now _ _ _ T6) in H7, E7. fold tok in H7, E7.
  exists ((n_name n, ro) :: order), w7, nm7.
  split; [cbn; f_equal; exact Eo|]. split.
  { constructor; [cbn; eauto|]. unfold room_orders in Ho. rewrite Forall_forall in Ho |- *. intros e He.
    destruct (Ho e He) as (rs & Ers & Hp). exists rs. split; [|exact Hp].
    rewrite unsub_rooms, fire_rooms in Ers.
    change (delete (n_name n) (cs_rooms (leave_rooms A (n_name n) true ro (push (wire_of (set_wait tok m)) s))) !! fst e = Some rs) in Ers.
    rewrite leave_rooms_calls in Ers. change (delete (n_name n) (alter (fun rs0 => rs0 ∖ list_to_set ro) (n_name n) (cs_rooms s)) !! fst e = Some rs) in Ers.
    rewrite delete_alter in Ers. change (cs_rooms (push (wire_of (set_wait tok m)) s)) with (cs_rooms s) in Ers.
    apply lookup_delete_Some in Ers. apply Ers. }
  cbn [disconnect_all]. rewrite EV. fold m. split; [exact H7|]. split; [eapply stays_trans; [exact T6|exact T7]|].
  rewrite <- E7. apply converse_exec.
  rewrite (exec_bind t (bind (bind (Do _ _) _) _) f), (exec_bind t (bind (Do _ _) _)), (exec_bind t (Do _ _)), ER. cbn [xbind].
  unfold K at 1. cbn [snd].
  rewrite (exec_bind_done t (forceLeaveAll G n true) _ _ (nsmu_world l w3) tt).
  2:{ rewrite forceLeaveAll_exec.
      - fold ro. change (pop_seed (nsmu_world l w2)) with (nsmu_world l (pop_seed w2)). rewrite leave_nsmu. reflexivity.
      - exact Hc.
      - exact Hr2.
      - exact E1.
      - intros order' w' ->. change (pop_seed (nsmu_world l w2)) with (nsmu_world l (pop_seed w2)). rewrite leave_nsmu.
        destruct (at_leave G c A n true order' (pop_seed w2) _ nm H2p En) as [H3' _].
        destruct (at_ns _ _ _ _ _ _ _ H3' En) as (_ & _ & E1' & _ & Hr2' & _). split; [exact E1'|exact Hr2']. }
  rewrite (exec_opb t (ODelNs c (n_name n)) _ _ (nsmu_world l w4) tt) by (unfold w4; rewrite <- delns_nsmu; reflexivity).
  rewrite (exec_bind_done _ _ _ _ _ _ (fireEvent_exec G c A (app_of _ _ _ S) t n m _ Hc)), fire_nsmu. fold w5.
  rewrite (exec_bind_done _ _ _ _ _ _ (notify_exec t _ m)), notify_nsmu. fold w6.
  cbn [exec xbind]. unfold g at 1. rewrite exec_bind. reflexivity.
Qed.

Lemma disconnect_all_run t x w replies : quiet G w c -> ctx_live w x -> c_inside (conn_of w c) = false ->
  exists order w', Permutation order.*1 (elements (dom (cs_rooms (view w c)))) /\ room_orders (view w c) order /\
    let r := disconnect_all (role_of G c w) A (genWait (g_client G c) (w_now w)) order replies (view w c) in
    view w' c = fst r /\ others c w w' /\
    converse t (DisconnectAll G c x) w replies =
      match snd r with
      | None => Waiting w'
      | Some (e, unused) => Ended w' e unused
      end /\
    (snd r <> None -> quiet G w' c).
Proof.
  intros Q Hx Hin. pose proof (at_intro _ _ _ Q) as H.
  set (nss := permute (seed w) (map_to_list (c_nss (conn_of w c)))).
  assert (Hperm : Permutation nss (map_to_list (c_nss (conn_of w c)))) by apply permute_perm.
  set (f := fun r : option gerr => bind (opr (ONsUnlock c)) (fun _ => Ret r)).
  destruct (disc_loop t x (RW (Some t) []) f nss replies (pop_seed w) (view w c) (c_nss (conn_of w c))) as (order & w' & nm' & Eo & Ho & H' & T & E).
  { apply at_pop, H. } { exact Hin. } { exact Hx. }
  { rewrite Hperm. apply NoDup_fst_map_to_list. }
  { intros [k n]. rewrite Hperm. apply elem_of_map_to_list. }
  change (w_now (pop_seed w)) with (w_now w) in H', E. change (role_of G c (pop_seed w)) with (role_of G c w) in H', E.
  set (r := disconnect_all (role_of G c w) A (genWait (g_client G c) (w_now w)) order replies (view w c)) in *.
  assert (EL : converse t (DisconnectAll G c x) w replies =
    converse t (bind (for_each nss (fun e => askDisconnect G c x (bye_all_msg (fst e)) false)) f) (nsmu_world (RW (Some t) []) (pop_seed w)) replies).
  { apply converse_exec. unfold DisconnectAll. rewrite (app_mixed _ _ _ S).
    rewrite (exec_opb t (ONsLock c) _ _ (nsmu_world (RW (Some t) []) w) tt).
    2:{ cbn [ostep]. rewrite (q_nsmu _ _ _ Q). reflexivity. }
    rewrite (exec_opb t (ONsRange c) _ _ (nsmu_world (RW (Some t) []) (pop_seed w)) nss).
    2:{ cbn [ostep]. rewrite conn_nsmu. reflexivity. }
    reflexivity. }
  assert (Hdom : Permutation order.*1 (elements (dom (cs_rooms (view w c))))).
  { rewrite Eo, Hperm. cbn. rewrite dom_fmap_L. apply NoDup_Permutation; [apply NoDup_fst_map_to_list|apply NoDup_elements|].
    intros k. rewrite elem_of_elements, elem_of_dom. rewrite elem_of_list_fmap. split.
    - intros ([k' n] & -> & Hk). apply elem_of_map_to_list in Hk. cbn. eauto.
    - intros [n Hn]. exists (k, n). split; [reflexivity|]. apply elem_of_map_to_list. exact Hn. }
  assert (O : others c w w').
  { eapply others_trans; [apply only_others, only_pop|apply T]. }
  assert (Om : forall l w0, others c w0 (nsmu_world l w0)).
  { intros l w0. split; rewrite ?conn_nsmu; auto. intros c' Hc'. apply upd_conn_ne, Hc'. }
  destruct (snd r) as [[e unused]|] eqn:ES.
  - exists order, w'. split; [exact Hdom|]. split; [exact Ho|]. fold r. cbn zeta. rewrite ES.
    split; [apply (a_view _ _ _ _ _ H')|]. split; [exact O|]. split; [|intros _; apply H'].
    rewrite EL, E. apply converse_done. unfold f.
    rewrite (exec_opb t (ONsUnlock c) _ _ w' tt); [reflexivity|].
    cbn [ostep]. rewrite conn_nsmu. cbn. rewrite Nat.eqb_refl. f_equal.
    unfold nsmu_world. rewrite upd_conn_twice. apply upd_conn_id; [apply H'|].
    pose proof (q_nsmu _ _ _ (a_quiet _ _ _ _ _ H')) as Hq. destruct (conn_of w' c); cbn in *. unfold set; cbn. subst. reflexivity.
  - exists order, (nsmu_world (RW (Some t) []) w'). split; [exact Hdom|]. split; [exact Ho|]. fold r. cbn zeta. rewrite ES.
    split; [rewrite view_nsmu; apply (a_view _ _ _ _ _ H')|]. split; [eapply others_trans; [exact O|apply Om]|]. split; [rewrite EL, E; reflexivity|]. congruence.
Qed.

End all.

(** *** What the reference says *)
Lemma leave_all_result A tok ns : forall order replies s s' e unused rs,
  cs_rooms s !! ns = Some rs -> NoDup order -> (forall r, r ∈ order <-> r ∈ rs) ->
  leave_all A tok ns order replies s = (s', Some (e, unused)) ->
  exists rs', cs_rooms s' = <[ns := rs']> (cs_rooms s) /\ rs' ⊆ rs /\ (e = None <-> rs' = ∅) /\
    match e with
    | None => True
    | Some e => exists used room r, replies = used ++ r :: unused /\ (forall u, u ∈ used -> m_err u = None) /\ room ∈ rs' /\
        (m_err r = Some e \/ m_err r = None /\ answer A ns (leave_all_msg ns room) = Some e)
    end.
Proof.
  induction order as [|room order IH]; intros replies s s' e unused rs Ers Hnd Hsub H; cbn [leave_all] in H.
  { injection H as <- <- <-. exists rs. rewrite insert_id by exact Ers. split; [reflexivity|]. split; [set_solver|].
    split; [|exact Logic.I]. split; [|reflexivity]. intros _. apply sets.set_eq. intros r. rewrite <- Hsub. set_solver. }
  assert (Hroom : room ∈ rs) by (apply Hsub; left).
  destruct replies as [|r rest]; [discriminate H|].
  destruct (m_err r) as [e'|] eqn:EV.
  { injection H as <- <- <-. exists rs. cbn. rewrite insert_id by exact Ers. split; [reflexivity|]. split; [set_solver|]. split.
    - split; [discriminate|]. intros ->. set_solver.
    - exists [], room, r. split; [reflexivity|]. split; [intros u Hu; inversion Hu|]. split; [exact Hroom|]. left. exact EV. }
  destruct (answer A ns (leave_all_msg ns room)) as [e'|] eqn:EN.
  { injection H as <- <- <-. exists rs. rewrite fire_rooms. cbn. rewrite insert_id by exact Ers. split; [reflexivity|]. split; [set_solver|]. split.
    - split; [discriminate|]. intros ->. set_solver.
    - exists [], room, r. split; [reflexivity|]. split; [intros u Hu; inversion Hu|]. split; [exact Hroom|]. right. auto. }
  apply NoDup_cons in Hnd as [Hnin Hnd].
  assert (EC : forall s0, cs_rooms s0 = cs_rooms s ->
    cs_rooms (fire A ns (set_event OnRoomLeft (leave_all_msg ns room)) (s0 <| cs_rooms ::= alter (fun rs => rs ∖ {[room]}) ns |>)) = <[ns := rs ∖ {[room]}]> (cs_rooms s)).
  { intros s0 E0. rewrite fire_rooms. cbn. rewrite E0. apply map_eq. intros i. destruct (decide (ns = i)) as [<-|Hd].
    - rewrite lookup_alter, lookup_insert, Ers. reflexivity.
    - rewrite lookup_alter_ne, lookup_insert_ne by exact Hd. reflexivity. }
  specialize (EC (fire A ns (leave_all_msg ns room) (push (wire_of (set_wait tok (leave_all_msg ns room))) s))).
  rewrite fire_rooms in EC. specialize (EC eq_refl).
  edestruct (fun q1 q3 => IH rest _ s' e unused (rs ∖ {[room]}) q1 Hnd q3 H) as (rs' & E' & Hs & He & Hm).
  { rewrite EC. apply lookup_insert. }
  { intros r'. rewrite elem_of_difference, elem_of_singleton, <- Hsub, elem_of_cons. split; [|intros [[?|?] ?]; [contradiction|assumption]].
    intros Hr. split; [right; exact Hr|]. intros ->. contradiction. }
  exists rs'. split; [rewrite E', EC, insert_insert; reflexivity|]. split; [set_solver|]. split; [exact He|].
  destruct e as [e'|]; [|exact Logic.I]. destruct Hm as (used & room' & r' & -> & Hu & Hr & Hm).
  exists (r :: used), room', r'. split; [reflexivity|]. split; [|auto].
  intros u Hu'. apply elem_of_cons in Hu' as [->|Hu']; auto.
Qed.

Lemma leave_all_agreed A tok ns : forall order replies s, length order <= length replies ->
  (forall r, r ∈ order -> answer A ns (leave_all_msg ns r) = None) ->
  (forall r, r ∈ firstn (length order) replies -> m_err r = None) ->
  snd (leave_all A tok ns order replies s) = Some (None, skipn (length order) replies).
Proof.
  induction order as [|room order IH]; intros replies s Hl Ha Hr; [reflexivity|].
  destruct replies as [|r rest]; [cbn in Hl; lia|]. cbn [leave_all length skipn firstn] in *.
  rewrite (Hr r) by left. rewrite (Ha room) by left. apply IH; [lia|intros; apply Ha; right; assumption|intros; apply Hr; right; assumption].
Qed.

Lemma unsub_fire_leave R A ns m rooms s :
  cs_rooms (unsubscribed R ns (fire A ns m (leave_rooms A ns true rooms s <| cs_rooms ::= delete ns |>))) = delete ns (cs_rooms s).
Proof. rewrite unsub_rooms, fire_rooms, leave_rooms_calls. cbn. apply delete_alter. Qed.

Lemma disconnect_all_result R A tok : forall order replies s s' e unused,
  NoDup order.*1 -> (forall ns, ns ∈ order.*1 <-> is_Some (cs_rooms s !! ns)) ->
  disconnect_all R A tok order replies s = (s', Some (e, unused)) ->
  cs_rooms s' ⊆ cs_rooms s /\ (e = None <-> cs_rooms s' = ∅) /\
    match e with
    | None => length replies = size (cs_rooms s) + length unused
    | Some e => exists used r, replies = used ++ r :: unused /\ (forall u, u ∈ used -> m_err u = None) /\ m_err r = Some e /\
        size (cs_rooms s) = size (cs_rooms s') + length used
    end.
Proof.
  induction order as [|[ns rooms] order IH]; intros replies s s' e unused Hnd Hsub H; cbn [disconnect_all] in H.
  { injection H as <- <- <-. split; [reflexivity|].
    assert (E : cs_rooms s = ∅).
    { apply map_eq. intros i. rewrite lookup_empty. destruct (cs_rooms s !! i) eqn:E; [|reflexivity].
      exfalso. assert (Hi : is_Some (cs_rooms s !! i)) by eauto. apply Hsub in Hi. inversion Hi. }
    split; [split; [intros _; exact E|reflexivity]|]. rewrite E. reflexivity. }
  destruct replies as [|r rest]; [discriminate H|].
  assert (Hns : is_Some (cs_rooms s !! ns)) by (apply Hsub; left).
  destruct (m_err r) as [e'|] eqn:EV.
  { injection H as <- <- <-. cbn. split; [reflexivity|]. split.
    - split; [discriminate|]. intros E. rewrite E in Hns. destruct Hns as [? Hns]. discriminate Hns.
    - exists [], r. split; [reflexivity|]. split; [intros u Hu; inversion Hu|]. split; [exact EV|]. cbn. lia. }
  cbn [fmap list_fmap] in Hnd. apply NoDup_cons in Hnd as [Hnin Hnd].
  set (s1 := unsubscribed R ns _) in H.
  assert (EC : cs_rooms s1 = delete ns (cs_rooms s)) by (unfold s1; rewrite unsub_fire_leave; reflexivity).
  destruct (fun q => IH _ s1 _ _ _ Hnd q H) as (H1 & H2 & H3).
  { intros i. rewrite EC. destruct (decide (ns = i)) as [<-|Hd].
    - rewrite lookup_delete. split; [intros Hi; contradiction|intros [? Hi]; discriminate Hi].
    - rewrite lookup_delete_ne by exact Hd. rewrite <- Hsub. cbn. rewrite elem_of_cons. split; [auto|].
      intros [Hi|Hi]; [cbn in Hi; congruence|exact Hi]. }
  rewrite EC in H1, H3. split; [etrans; [exact H1|apply delete_subseteq]|]. split; [exact H2|].
  destruct Hns as [rs Hns].
  assert (Esz : size (cs_rooms s) = Datatypes.S (size (delete ns (cs_rooms s)))).
  { rewrite <- (insert_delete (cs_rooms s) ns rs Hns) at 1. apply map_size_insert_None, lookup_delete. }
  destruct e as [e'|].
  - destruct H3 as (used & r' & -> & Hu & Hr & Hs). exists (r :: used), r'. split; [reflexivity|]. split.
    { intros u Hu'. apply elem_of_cons in Hu' as [->|Hu']; auto. }
    split; [exact Hr|]. cbn. lia.
  - cbn. lia.
Qed.

Lemma disconnect_all_agreed R A tok : forall order replies s, length order <= length replies ->
  (forall r, r ∈ firstn (length order) replies -> m_err r = None) ->
  snd (disconnect_all R A tok order replies s) = Some (None, skipn (length order) replies).
Proof.
  induction order as [|[ns rooms] order IH]; intros replies s Hl Hr; [reflexivity|].
  destruct replies as [|r rest]; [cbn in Hl; lia|]. cbn [disconnect_all length skipn firstn] in *.
  rewrite (Hr r) by left. apply IH; [lia|intros; apply Hr; right; assumption].
Qed.

(*@file Prop_All.v
From Coq Require Import ZArith.
From stdpp Require Import gmap strings list relations.
From RecordUpdate Require Import RecordUpdate.
From Verif Require Import Go Errors Message World Lang Code Sem Spec_Conn Spec_View Spec_Wire Spec_All Examples CastProofs ApiProofs.
@*)

(*@prop C62. LeaveAll, called outside of a callback on a connected NSConn of an undisturbed connection, in a conversation
    with any peer (any replies): it does exactly what [leave_all] of Spec_All.v does with its rooms in some order: one
    request per room, each left only after the peer and then the own callback agreed, and the first refusal ends the
    call.  Nothing of other connections is touched, and when it ends the connection is undisturbed again (no lock is
    kept). @*)
Lemma l_C62_leave_all : forall G c A t x n w replies,
  setting G c A -> quiet G w c -> ctx_live w x -> c_inside (conn_of w c) = false -> c_nss (conn_of w c) !! n_name n = Some n ->
  exists order rs w', cs_rooms (view w c) !! n_name n = Some rs /\ Permutation order (elements rs) /\
    let r := leave_all A (genWait (g_client G c) (w_now w)) (n_name n) order replies (view w c) in
    view w' c = fst r /\ others c w w' /\
    converse t (LeaveAll G (Some n) x) w replies =
      match snd r with
      | None => Waiting w'
      | Some (e, unused) => Ended w' e unused
      end /\
    (snd r <> None -> quiet G w' c /\ c_nss (conn_of w' c) = c_nss (conn_of w c)).
Proof. intros G c A t x n w replies S. apply leave_all_run, S. Qed.

(*@prop C62. So, when LeaveAll returns: the rooms that are joined then were joined before, other namespaces are as they
    were; the error is nil exactly if no room is left joined; and an error is that of the last reply, all earlier
    replies having agreed, or that of the own OnRoomLeave callback, about a room that stays joined. @*)
Lemma l_C62_leave_result : forall G c A t x n w replies w' e unused,
  setting G c A -> quiet G w c -> ctx_live w x -> c_inside (conn_of w c) = false -> c_nss (conn_of w c) !! n_name n = Some n ->
  converse t (LeaveAll G (Some n) x) w replies = Ended w' e unused ->
  exists rs rs', cs_rooms (view w c) !! n_name n = Some rs /\ cs_rooms (view w' c) = <[n_name n := rs']> (cs_rooms (view w c)) /\
    rs' ⊆ rs /\ (e = None <-> rs' = ∅) /\
    match e with
    | None => True
    | Some e => exists used room r, replies = used ++ r :: unused /\ (forall u, u ∈ used -> m_err u = None) /\ room ∈ rs' /\
        (m_err r = Some e \/ m_err r = None /\ answer A (n_name n) (leave_all_msg (n_name n) room) = Some e)
    end.
Proof.
  intros G c A t x n w replies w' e unused S Q Hx Hin En HE.
  destruct (leave_all_run G c A S t x n w replies Q Hx Hin En) as (order & rs & w1 & Ers & Hp & Ev & _ & EC & _).
  rewrite HE in EC. destruct (leave_all A (genWait (g_client G c) (w_now w)) (n_name n) order replies (view w c)) as [s [[e1 u1]|]] eqn:EL;
    cbn [fst snd] in *; [|discriminate EC].
  injection EC as <- <- <-.
  destruct (fun q1 q2 => leave_all_result A _ _ order replies (view w c) s e unused rs Ers q1 q2 EL) as (rs' & E & H).
  { rewrite Hp. apply NoDup_elements. }
  { intros r. rewrite Hp. apply elem_of_elements. }
  exists rs, rs'. split; [exact Ers|]. split; [rewrite Ev; exact E|]. exact H.
Qed.

(*@prop C62. If the own callback lets every room go and the peer agrees as often as there are rooms, LeaveAll returns nil. @*)
Lemma l_C62_leave_agreed : forall G c A t x n w replies rs,
  setting G c A -> quiet G w c -> ctx_live w x -> c_inside (conn_of w c) = false -> c_nss (conn_of w c) !! n_name n = Some n ->
  cs_rooms (view w c) !! n_name n = Some rs ->
  (forall room, room ∈ rs -> answer A (n_name n) (leave_all_msg (n_name n) room) = None) ->
  length replies = size rs -> (forall r, r ∈ replies -> m_err r = None) ->
  exists w', converse t (LeaveAll G (Some n) x) w replies = Ended w' None [] /\ quiet G w' c.
Proof.
  intros G c A t x n w replies rs S Q Hx Hin En Ers Ha Hl Hr.
  destruct (leave_all_run G c A S t x n w replies Q Hx Hin En) as (order & rs1 & w1 & Ers1 & Hp & _ & _ & EC & HQ).
  rewrite Ers in Ers1. injection Ers1 as <-.
  assert (Elen : length order = length replies) by (rewrite Hl, Hp; reflexivity).
  rewrite (leave_all_agreed A _ _ order replies) in EC, HQ.
  2,5: lia. 2,4: intros r Hr'; apply Ha; rewrite Hp in Hr'; apply elem_of_elements, Hr'.
  2,3: intros r Hr'; apply Hr; rewrite Elen, firstn_all in Hr'; exact Hr'.
  exists w1. rewrite EC, Elen, skipn_all. split; [reflexivity|]. apply HQ. discriminate.
Qed.

(*@prop C62. DisconnectAll, likewise: it does exactly what [disconnect_all] of Spec_All.v does with the connected
    namespaces in some order: one request per namespace, each left with all its rooms only after the peer agreed; the
    first refusal ends the call. @*)
Lemma l_C62_disconnect_all : forall G c A t x w replies,
  setting G c A -> quiet G w c -> ctx_live w x -> c_inside (conn_of w c) = false ->
  exists order w', Permutation order.*1 (elements (dom (cs_rooms (view w c)))) /\
    Forall (fun e => exists rs, cs_rooms (view w c) !! fst e = Some rs /\ Permutation (snd e) (elements rs)) order /\
    let r := disconnect_all (role_of G c w) A (genWait (g_client G c) (w_now w)) order replies (view w c) in
    view w' c = fst r /\ others c w w' /\
    converse t (DisconnectAll G c x) w replies =
      match snd r with
      | None => Waiting w'
      | Some (e, unused) => Ended w' e unused
      end /\
    (snd r <> None -> quiet G w' c).
Proof. intros G c A t x w replies S. apply disconnect_all_run, S. Qed.

(*@prop C62. So, when DisconnectAll returns: the namespaces that are connected then were connected before, with the same
    rooms; the error is nil exactly if none is; an error is that of the last reply, all earlier ones having agreed; and
    every agreement disconnected one namespace. @*)
Lemma l_C62_disconnect_result : forall G c A t x w replies w' e unused,
  setting G c A -> quiet G w c -> ctx_live w x -> c_inside (conn_of w c) = false ->
  converse t (DisconnectAll G c x) w replies = Ended w' e unused ->
  cs_rooms (view w' c) ⊆ cs_rooms (view w c) /\ (e = None <-> cs_rooms (view w' c) = ∅) /\
    match e with
    | None => length replies = size (cs_rooms (view w c)) + length unused
    | Some e => exists used r, replies = used ++ r :: unused /\ (forall u, u ∈ used -> m_err u = None) /\ m_err r = Some e /\
        size (cs_rooms (view w c)) = size (cs_rooms (view w' c)) + length used
    end.
Proof.
  intros G c A t x w replies w' e unused S Q Hx Hin HE.
  destruct (disconnect_all_run G c A S t x w replies Q Hx Hin) as (order & w1 & Hp & _ & Ev & _ & EC & _).
  rewrite HE in EC. destruct (disconnect_all (role_of G c w) A (genWait (g_client G c) (w_now w)) order replies (view w c)) as [s [[e1 u1]|]] eqn:EL;
    cbn [fst snd] in *; [|discriminate EC].
  injection EC as <- <- <-. rewrite Ev.
  apply (disconnect_all_result (role_of G c w) A (genWait (g_client G c) (w_now w)) order replies (view w c) s e unused); [| |exact EL].
  { rewrite Hp. apply NoDup_elements. }
  { intros ns. rewrite Hp, elem_of_elements. apply elem_of_dom. }
Qed.

(*@prop C62. If the peer agrees as often as there are namespaces, DisconnectAll returns nil. @*)
Lemma l_C62_disconnect_agreed : forall G c A t x w replies,
  setting G c A -> quiet G w c -> ctx_live w x -> c_inside (conn_of w c) = false ->
  length replies = size (cs_rooms (view w c)) -> (forall r, r ∈ replies -> m_err r = None) ->
  exists w', converse t (DisconnectAll G c x) w replies = Ended w' None [] /\ quiet G w' c /\ cs_rooms (view w' c) = ∅.
Proof.
  intros G c A t x w replies S Q Hx Hin Hl Hr.
  destruct (disconnect_all_run G c A S t x w replies Q Hx Hin) as (order & w1 & Hp & _ & _ & _ & EC & HQ).
  assert (Elen : length order = length replies).
  { rewrite Hl, <- size_dom. rewrite <- (fmap_length fst order), Hp. reflexivity. }
  rewrite (disconnect_all_agreed _ A _ order replies) in EC, HQ.
  2,4: lia. 2,3: intros r Hr'; apply Hr; rewrite Elen, firstn_all in Hr'; exact Hr'.
  rewrite Elen, skipn_all in EC.
  exists w1. split; [exact EC|]. split; [apply HQ; discriminate|].
  eapply l_C62_disconnect_result; [exact S|exact Q|exact Hx|exact Hin|exact EC|reflexivity].
Qed.

Lemma leave_all_ends A tok ns : forall order replies s, length order <= length replies -> snd (leave_all A tok ns order replies s) <> None.
Proof.
  induction order as [|room order IH]; intros replies s Hl; [discriminate|].
  destruct replies as [|r rest]; [cbn in Hl; lia|]. cbn [leave_all length] in *.
  destruct (m_err r); [discriminate|]. destruct (answer A ns _); [discriminate|]. apply IH. lia.
Qed.
Lemma disconnect_all_ends R A tok : forall order replies s, length order <= length replies -> snd (disconnect_all R A tok order replies s) <> None.
Proof.
  induction order as [|[ns rooms] order IH]; intros replies s Hl; [discriminate|].
  destruct replies as [|r rest]; [cbn in Hl; lia|]. cbn [disconnect_all length] in *.
  destruct (m_err r); [discriminate|]. apply IH. lia.
Qed.

(*@prop C46, the part that holds. A LeaveAll outside of a callback on an undisturbed connection, whose reader is free to deliver the answers,
    ends if there are as many answers (of any kind) as rooms, and leaves the connection undisturbed, with no lock taken. @*)
Lemma l_C46_leave_partial : forall G c A t x n w replies rs,
  setting G c A -> quiet G w c -> ctx_live w x -> c_inside (conn_of w c) = false -> c_nss (conn_of w c) !! n_name n = Some n ->
  cs_rooms (view w c) !! n_name n = Some rs -> size rs <= length replies ->
  exists w' e unused, converse t (LeaveAll G (Some n) x) w replies = Ended w' e unused /\ quiet G w' c.
Proof.
  intros G c A t x n w replies rs S Q Hx Hin En Ers Hl.
  destruct (leave_all_run G c A S t x n w replies Q Hx Hin En) as (order & rs1 & w1 & Ers1 & Hp & _ & _ & EC & HQ).
  rewrite Ers in Ers1. injection Ers1 as <-.
  assert (HN := leave_all_ends A (genWait (g_client G c) (w_now w)) (n_name n) order replies (view w c)).
  specialize (HN ltac:(rewrite Hp; exact Hl)).
  destruct (snd (leave_all _ _ _ order replies (view w c))) as [[e unused]|]; [|contradiction].
  exists w1, e, unused. split; [exact EC|]. apply HQ. discriminate.
Qed.

(*@prop C46, likewise: a DisconnectAll ends if there are as many answers as namespaces. @*)
Lemma l_C46_disconnect_partial : forall G c A t x w replies,
  setting G c A -> quiet G w c -> ctx_live w x -> c_inside (conn_of w c) = false ->
  size (cs_rooms (view w c)) <= length replies ->
  exists w' e unused, converse t (DisconnectAll G c x) w replies = Ended w' e unused /\ quiet G w' c.
Proof.
  intros G c A t x w replies S Q Hx Hin Hl.
  destruct (disconnect_all_run G c A S t x w replies Q Hx Hin) as (order & w1 & Hp & _ & _ & _ & EC & HQ).
  assert (HN := disconnect_all_ends (role_of G c w) A (genWait (g_client G c) (w_now w)) order replies (view w c)).
  specialize (HN ltac:(rewrite <- (fmap_length fst order), Hp; change (size (dom (cs_rooms (view w c))) <= length replies); rewrite size_dom; exact Hl)).
  destruct (snd (disconnect_all _ _ _ order replies (view w c))) as [[e unused]|]; [|contradiction].
  exists w1, e, unused. split; [exact EC|]. apply HQ. discriminate.
Qed.

(*@ex
(** C62. In the reachable world [exM], connection 1 is in rooms "open" and "jail" of "chat"; its callback does not let go of
    "jail".  With a peer that agrees twice, LeaveAll returns the callback's error and "jail" stays joined; the
    hypotheses of the theorems hold.  DisconnectAll with a peer that agrees once ends without any namespace; with a
    peer that refuses, it returns the peer's error and everything stays. *)
Example C62_example :
  let w := s_w exM in let n := NsRef 1 "chat" 1 in
  setting exG 1 exA /\ quiet exG w 1 /\ ctx_live w None /\ c_inside (conn_of w 1) = false /\ c_nss (conn_of w 1) !! n_name n = Some n /\
  cs_rooms (view w 1) = {["chat" := {["open"; "jail"]}]} /\
  match converse 50 (LeaveAll exG (Some n) None) w [no_message; no_message] with
  | Ended w' e _ => e = Some (EUser 2 "no way out") /\ exists rs, cs_rooms (view w' 1) = {["chat" := rs]} /\ "jail" ∈ rs
  | _ => False
  end /\
  match converse 50 (DisconnectAll exG 1 None) w [no_message; no_message] with
  | Ended w' e u => e = None /\ u = [no_message] /\ cs_rooms (view w' 1) = ∅
  | _ => False
  end /\
  match converse 50 (DisconnectAll exG 1 None) w [set_err (Some EBadRoom) no_message] with
  | Ended w' e u => e = Some EBadRoom /\ cs_rooms (view w' 1) = {["chat" := {["open"; "jail"]}]}
  | _ => False
  end /\
  match converse 50 (DisconnectAll exG 1 None) w [] with Waiting _ => True | _ => False end.
Proof.
  cbn zeta. split; [apply ex_setting|]. split; [apply quietb_ok; vm_compute; reflexivity|]. split; [exact Logic.I|].
  split; [vm_compute; reflexivity|]. split; [vm_compute; reflexivity|]. split; [decide_eq|].
  split.
  { assert (H : match converse 50 (LeaveAll exG (Some (NsRef 1 "chat" 1)) None) (s_w exM) [no_message; no_message] with
      | Ended w' e _ => e = Some (EUser 2 "no way out") /\ (bool_decide (cs_rooms (view w' 1) = {["chat" := {["jail"]}]}) ||
          bool_decide (cs_rooms (view w' 1) = {["chat" := {["open"; "jail"]}]})) = true
      | _ => False end) by (vm_compute; split; reflexivity).
    destruct (converse 50 (LeaveAll exG (Some (NsRef 1 "chat" 1)) None) (s_w exM) [no_message; no_message]) as [w' e u| |]; [|exact H|exact H].
    destruct H as [H1 H2]. split; [exact H1|]. apply orb_true_iff in H2 as [H2|H2]; apply bool_decide_eq_true in H2; rewrite H2;
      eexists; (split; [reflexivity|]); set_solver. }
  split.
  { assert (H : match converse 50 (DisconnectAll exG 1 None) (s_w exM) [no_message; no_message] with
      | Ended w' e u => e = None /\ u = [no_message] /\ bool_decide (cs_rooms (view w' 1) = ∅) = true
      | _ => False end) by (vm_compute; repeat split; reflexivity).
    destruct (converse 50 (DisconnectAll exG 1 None) (s_w exM) [no_message; no_message]) as [w' e u| |]; [|exact H|exact H].
    destruct H as (H1 & H2 & H3). apply bool_decide_eq_true in H3. auto. }
  split.
  { assert (H : match converse 50 (DisconnectAll exG 1 None) (s_w exM) [set_err (Some EBadRoom) no_message] with
      | Ended w' e u => e = Some EBadRoom /\ bool_decide (cs_rooms (view w' 1) = {["chat" := {["open"; "jail"]}]}) = true
      | _ => False end) by (vm_compute; repeat split; reflexivity).
    destruct (converse 50 (DisconnectAll exG 1 None) (s_w exM) [set_err (Some EBadRoom) no_message]) as [w' e u| |]; [|exact H|exact H].
    destruct H as (H1 & H3). apply bool_decide_eq_true in H3. auto. }
  vm_compute. exact Logic.I.
Qed.
@*)
