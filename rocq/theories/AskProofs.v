(** * AskProofs.v : what an Ask leaves behind and what an Ask inside a callback
    returns (C24, C25, C26). *)
From Coq Require Import ZArith.
From stdpp Require Import gmap strings list relations.
From RecordUpdate Require Import RecordUpdate.
From Verif Require Import Go Errors Message World Lang Code Sem ExecProofs Spec_Conn Spec_View Spec_Wire CodecProofs WireProofs SeqProofs ConnProofs LocalProofs Examples Scenes.

(*@file Prop_Ask.v
From Coq Require Import ZArith.
From stdpp Require Import gmap strings list relations.
From RecordUpdate Require Import RecordUpdate.
From Verif Require Import Go Errors Message World Lang Code Sem Spec_Conn Spec_View Spec_Wire CodecProofs Examples Scenes AskProofs. @*)

Lemma pick_one {B} w (r : B) : pick w [r] = Some r.
Proof. unfold pick. cbn [length]. rewrite Nat.mod_1_r. reflexivity. Qed.

(*@prop C24. An Ask is sent and waits with a waiter registered for its token.
    Whatever has happened to the world when the reply comes: Ask returns the
    reply, and afterwards no waiter for its token is registered and the other
    waiters are as they were. @*)
Lemma l_C24_replied_partial : forall G c A t x m w,
  setting G c A -> quiet G w c -> c_inside (conn_of w c) = false -> ctx_live w x -> m_err m = None ->
  may_send (role_of G c w) (cs_rooms (view w c)) m = true ->
  let token := genWait (g_client G c) (w_now w) in
  exists ch w1 k,
    exec t (Ask G c x m) w = XBlocked w1 (OSelect ch x) k /\
    c_waiting (conn_of w1 c) !! token = Some ch /\
    forall w2 reply, select_reply w2 ch x = [inr reply] ->
      exists w3, exec t (Do (OSelect ch x) k) w2 = XDone w3 (reply, m_err reply) /\
        c_waiting (conn_of w3 c) !! token = None /\
        (forall tok, tok <> token -> c_waiting (conn_of w3 c) !! tok = c_waiting (conn_of w2 c) !! tok) /\
        (forall c', c' <> c -> conn_of w3 c' = conn_of w2 c').
Proof.
  intros G c A t x m w S Q Hin Hx Hp0 Hmay token. pose proof (at_intro G c w Q) as H.
  assert (Hp : printable m) by (unfold printable; rewrite Hp0; exact I).
  destruct (ask_blocks G c A S t w _ _ x m H Hx Hp Hin) as (w1 & E1 & H1 & P1 & W1); [exact Hmay|].
  exists (w_next w), w1, (ask_k c x token). split; [exact E1|]. split; [apply W1|].
  intros w2 reply Hr. cbn [exec ostep]. rewrite Hr, pick_one. cbn [ask_k opr bind exec ostep].
  eexists. split; [reflexivity|].
  match goal with |- context [conn_of ?w3 c] => change (conn_of w3 c) with (conn_of (upd_conn c (fun k => k <| c_waiting ::= delete token |>)
    (upd_chan (w_next w) (fun y => y <| ch_buf ::= @tl message |> <| ch_taken ::= Datatypes.S |>) (pop_seed w2))) c);
    change (forall c', c' <> c -> conn_of w3 c' = _) with (forall c', c' <> c -> conn_of (upd_conn c (fun k => k <| c_waiting ::= delete token |>)
    (upd_chan (w_next w) (fun y => y <| ch_buf ::= @tl message |> <| ch_taken ::= Datatypes.S |>) (pop_seed w2))) c' = conn_of w2 c') end.
  rewrite conn_upd_eq. split; [apply lookup_delete|]. split.
  - intros tok Hne. cbn. rewrite lookup_delete_ne by congruence. reflexivity.
  - intros c' Hne. unfold conn_of. rewrite upd_conn_ne by exact Hne. reflexivity.
Qed.

(*@prop C24 does not hold when the context ends first: Ask returns an error and
    the waiter stays registered. @*)
Lemma l_C24_context_refuted : forall G c A t x m w,
  setting G c A -> quiet G w c -> c_inside (conn_of w c) = false -> ctx_live w x -> m_err m = None ->
  may_send (role_of G c w) (cs_rooms (view w c)) m = true ->
  let token := genWait (g_client G c) (w_now w) in
  exists ch w1 k,
    exec t (Ask G c x m) w = XBlocked w1 (OSelect ch x) k /\
    c_waiting (conn_of w1 c) !! token = Some ch /\
    forall w2 e, select_reply w2 ch x = [inl e] -> c_waiting (conn_of w2 c) !! token = Some ch ->
      exists w3 err, exec t (Do (OSelect ch x) k) w2 = XDone w3 (no_message, Some err) /\
        c_waiting (conn_of w3 c) !! token = Some ch.
Proof.
  intros G c A t x m w S Q Hin Hx Hp0 Hmay token. pose proof (at_intro G c w Q) as H.
  assert (Hp : printable m) by (unfold printable; rewrite Hp0; exact I).
  destruct (ask_blocks G c A S t w _ _ x m H Hx Hp Hin) as (w1 & E1 & H1 & P1 & W1); [exact Hmay|].
  exists (w_next w), w1, (ask_k c x token). split; [exact E1|]. split; [apply W1|].
  intros w2 e Hr Hw. cbn [exec ostep]. rewrite Hr, pick_one. cbn [ask_k opr bind exec ostep].
  eexists _, _. split; [reflexivity|]. exact Hw.
Qed.

(*@prop C25. What does hold: if the context of a waiting Ask ends, Ask returns
    at once, with the write error if the connection has been closed meanwhile
    and with the error of the context otherwise. @*)
Lemma l_C25_context_partial : forall G c A t x m w,
  setting G c A -> quiet G w c -> c_inside (conn_of w c) = false -> ctx_live w x -> m_err m = None ->
  may_send (role_of G c w) (cs_rooms (view w c)) m = true ->
  exists ch w1 k,
    exec t (Ask G c x m) w = XBlocked w1 (OSelect ch x) k /\
    forall w2 e, select_reply w2 ch x = [inl e] ->
      exists w3, exec t (Do (OSelect ch x) k) w2 = XDone w3 (no_message, Some (if c_closed (conn_of w2 c) then EWrite else e)).
Proof.
  intros G c A t x m w S Q Hin Hx Hp0 Hmay. pose proof (at_intro G c w Q) as H.
  assert (Hp : printable m) by (unfold printable; rewrite Hp0; exact I).
  destruct (ask_blocks G c A S t w _ _ x m H Hx Hp Hin) as (w1 & E1 & H1 & P1 & W1); [exact Hmay|].
  exists (w_next w), w1, (ask_k c x (genWait (g_client G c) (w_now w))). split; [exact E1|].
  intros w2 e Hr. cbn [exec ostep]. rewrite Hr, pick_one. cbn [ask_k opr bind exec ostep].
  eexists. reflexivity.
Qed.

(*@prop C24 does not hold when the message may not be sent: Ask returns the
    write error at once and leaves a waiter behind. @*)
Lemma l_C24_refused_refuted : forall G c A t x m w,
  setting G c A -> quiet G w c -> c_inside (conn_of w c) = false -> ctx_live w x -> m_err m = None ->
  may_send (role_of G c w) (cs_rooms (view w c)) m = false ->
  let token := genWait (g_client G c) (w_now w) in
  exists w1 ch, exec t (Ask G c x m) w = XDone w1 (no_message, Some EWrite) /\
    c_waiting (conn_of w1 c) !! token = Some ch.
Proof.
  intros G c A t x m w S Q Hin Hx Hp0 Hmay token. pose proof (at_intro G c w Q) as H.
  assert (Hp : printable m) by (unfold printable; rewrite Hp0; exact I). unfold Ask.
  rewrite (exec_opb t (OIsInside c) _ _ w false) by (cbn [ostep]; rewrite Hin; reflexivity).
  unfold ask. rewrite (app_mixed _ _ _ S).
  rewrite (exec_opb t (OIsClosed c) _ _ w false) by (cbn [ostep]; rewrite (q_open _ _ _ (a_quiet _ _ _ _ _ H)); reflexivity).
  rewrite (exec_opb t (OCtxLate x) _ _ w false).
  2:{ cbn [ostep]. f_equal. destruct x as [k|]; [|reflexivity]. cbn in Hx. destruct (w_ctxs w !! k) as [xc|]; [|reflexivity].
      destruct Hx as [_ Hx]. destruct (x_deadline xc); [|reflexivity]. apply Z.ltb_ge. exact Hx. }
  rewrite (exec_opb t (ONewChan 1) _ _ _ _ eq_refl).
  rewrite (exec_opb t ONow _ _ _ _ eq_refl).
  change (IsClient G c) with (g_client G c). change (w_now (w <| w_chans ::= _ |> <| w_next ::= _ |>)) with (w_now w). fold token.
  rewrite (exec_opb t (OLog (LAsk c token)) _ _ _ _ eq_refl).
  change (if false then opr (OSpawn (TReadNext c (w_next w))) else opr (OWaitPut c token (w_next w)))
    with (opr (OWaitPut c token (w_next w))).
  rewrite (exec_opb t (OWaitPut c token (w_next w)) _ _ (ask_world c token w) tt eq_refl).
  pose proof (at_ask G c token _ _ _ H) as H1.
  assert (HR : role_of G c (ask_world c token w) = role_of G c w).
  { unfold role_of, ask_world. rewrite conn_upd_eq. reflexivity. }
  assert (E2 : exec t (Write G c (set_wait token m)) (ask_world c token w) = XDone (ask_world c token w) false).
  { unfold Write. rewrite (exec_bind_done _ _ _ _ _ _ (canWrite_exec G c t _ _ _ _ H1)), HR.
    change (may_send (role_of G c w) (cs_rooms (view w c)) (set_wait token m)) with (may_send (role_of G c w) (cs_rooms (view w c)) m).
    rewrite Hmay. reflexivity. }
  rewrite (exec_bind_done _ _ _ _ _ _ E2). cbn [negb exec]. eexists _, _. split; [reflexivity|].
  unfold ask_world. rewrite conn_upd_eq. cbn. apply lookup_insert.
Qed.

(*@ex
(** The client side of the example asks about namespace chat, of which the
    first world is a member and the second is not. *)
Example C24_example : setting exG 1 exA /\ quiet exG (s_w exM) 1 /\ c_inside (conn_of (s_w exM) 1) = false /\
  ctx_live (s_w exM) None /\ m_err hello_msg = None /\
  may_send (role_of exG 1 (s_w exM)) (cs_rooms (view (s_w exM) 1)) hello_msg = true /\
  quiet exG (s_w exS) 1 /\ c_inside (conn_of (s_w exS) 1) = false /\
  may_send (role_of exG 1 (s_w exS)) (cs_rooms (view (s_w exS) 1)) hello_msg = false.
Proof.
  split; [apply ex_setting|]. split; [apply quietb_ok; vm_compute; reflexivity|]. split; [vm_compute; reflexivity|].
  split; [exact I|]. split; [reflexivity|]. split; [vm_compute; reflexivity|]. split; [apply quietb_ok; vm_compute; reflexivity|].
  split; vm_compute; reflexivity.
Qed.
@*)

(** The rest of a Server.Ask once its message was handed over. *)
Definition srvask_k (token : string) (r : gerr + message) : prog (message * option gerr) :=
  match r with
  | inl e => Ret (no_message, Some e)
  | inr receive => bind (opr (OSWaitDel token)) (fun _ => bind (opr (OLog (LServerReply token receive))) (fun _ => Ret (receive, m_err receive)))
  end.
Lemma srvask_exec G x m w t : g_exch G = None -> g_sync G = true -> s_bcaccepted (w_srv w) <= s_bcsent (w_srv w) ->
  let token := genWait false (w_now w) in
  exists w1, exec t (ServerAsk G x m) w =
      XBlocked w1 (OBcAccepted (S (s_bcsent (w_srv w)))) (fun _ => Do (OSelect (w_next w) x) (srvask_k token)) /\
    s_waiting (w_srv w1) !! token = Some (w_next w) /\ s_bcast (w_srv w1) = s_bcast (w_srv w) ++ [[set_wait token m]].
Proof.
  intros Hx Hs Hb token. unfold ServerAsk, Broadcast, usesStackExchange. rewrite Hx, Hs.
  cbn [bind opr exec ostep]. fold token.
  match goal with |- context [if ?b then _ else _] => destruct b eqn:E end.
  { apply Nat.leb_le in E. cbn in E. lia. }
  eexists. split; [reflexivity|]. split; [cbn; apply lookup_insert|reflexivity].
Qed.
(*@prop C24.  The same for Server.Ask without a StackExchange: it hands its message to the loop of the server, with a waiter
    registered for its token, and waits.  Whatever has happened when the reply comes, it returns the reply and leaves no waiter for its token. @*)
Lemma l_C24_server_partial : forall G x m w t,
  g_exch G = None -> g_sync G = true -> s_bcaccepted (w_srv w) <= s_bcsent (w_srv w) ->
  let token := genWait false (w_now w) in
  exists ch w1 n k1 k,
    exec t (ServerAsk G x m) w = XBlocked w1 (OBcAccepted n) k1 /\
    s_waiting (w_srv w1) !! token = Some ch /\ s_bcast (w_srv w1) = s_bcast (w_srv w) ++ [[set_wait token m]] /\
    (forall w2, n <= s_bcaccepted (w_srv w2) -> exec t (Do (OBcAccepted n) k1) w2 = exec t (Do (OSelect ch x) k) w2) /\
    (forall w3 reply, select_reply w3 ch x = [inr reply] ->
      exists w4, exec t (Do (OSelect ch x) k) w3 = XDone w4 (reply, m_err reply) /\
        s_waiting (w_srv w4) !! token = None /\
        (forall tok, tok <> token -> s_waiting (w_srv w4) !! tok = s_waiting (w_srv w3) !! tok)).
Proof.
  intros G x m w t Hx Hs Hb token. destruct (srvask_exec G x m w t Hx Hs Hb) as (w1 & E & H1 & H2). fold token in E, H1, H2.
  exists (w_next w), w1, (S (s_bcsent (w_srv w))), (fun _ => Do (OSelect (w_next w) x) (srvask_k token)), (srvask_k token). split; [exact E|]. split; [exact H1|]. split; [exact H2|]. split.
  - intros w2 Hn. cbn [exec ostep]. apply Nat.leb_le in Hn. rewrite Hn. reflexivity.
  - intros w3 reply Hr. cbn [exec ostep]. rewrite Hr, pick_one. cbn [srvask_k opr bind exec ostep]. eexists. split; [reflexivity|]. split; [cbn; apply lookup_delete|].
    intros tok Hne. apply lookup_delete_ne. congruence.
Qed.
(*@prop C24 does not hold for Server.Ask either when the context ends first: it returns the error of the context and its waiter
    stays registered. @*)
Lemma l_C24_server_context_refuted : forall G x m w t,
  g_exch G = None -> g_sync G = true -> s_bcaccepted (w_srv w) <= s_bcsent (w_srv w) ->
  let token := genWait false (w_now w) in
  exists ch w1 n k1 k,
    exec t (ServerAsk G x m) w = XBlocked w1 (OBcAccepted n) k1 /\ s_waiting (w_srv w1) !! token = Some ch /\
    (forall w2, n <= s_bcaccepted (w_srv w2) -> exec t (Do (OBcAccepted n) k1) w2 = exec t (Do (OSelect ch x) k) w2) /\
    (forall w3 e, select_reply w3 ch x = [inl e] -> exists w4, exec t (Do (OSelect ch x) k) w3 = XDone w4 (no_message, Some e) /\
      s_waiting (w_srv w4) = s_waiting (w_srv w3)).
Proof.
  intros G x m w t Hx Hs Hb token. destruct (srvask_exec G x m w t Hx Hs Hb) as (w1 & E & H1 & H2). fold token in E, H1, H2.
  exists (w_next w), w1, (S (s_bcsent (w_srv w))), (fun _ => Do (OSelect (w_next w) x) (srvask_k token)), (srvask_k token). split; [exact E|]. split; [exact H1|]. split.
  - intros w2 Hn. cbn [exec ostep]. apply Nat.leb_le in Hn. rewrite Hn. reflexivity.
  - intros w3 e Hr. cbn [exec ostep]. rewrite Hr, pick_one. cbn [srvask_k opr bind exec ostep]. eexists. split; reflexivity.
Qed.

(*@prop C25.  An Ask whose context has a deadline that is over for more than a second (conn.go:954-958) fails at once with the deadline error; on a closed connection it fails
    at once with the write error.  In both cases nothing changes. @*)
Lemma l_C25_at_once_partial : forall G c t k xc d m w,
  onlyNative G c = false ->
  (c_closed (conn_of w c) = false -> w_ctxs w !! k = Some xc -> x_deadline xc = Some d -> (d < w_now w - 1000000000)%Z ->
   exec t (Ask G c (Some k) m) w = XDone w (no_message, Some EDeadline)) /\
  (c_closed (conn_of w c) = true -> forall x, exec t (Ask G c x m) w = XDone w (m, Some (EClose (-1) (Some EWrite)))).
Proof.
  intros G c t k xc d m w Hn. split.
  - intros Hc Hk Hd Hl. unfold Ask. rewrite (exec_opb t (OIsInside c) _ _ w (c_inside (conn_of w c))) by reflexivity. unfold ask. rewrite Hn.
    rewrite (exec_opb t (OIsClosed c) _ _ w false) by (cbn [ostep]; rewrite Hc; reflexivity).
    rewrite (exec_opb t (OCtxLate (Some k)) _ _ w true); [reflexivity|]. cbn [ostep]. rewrite Hk, Hd. f_equal. apply Z.ltb_lt. exact Hl.
  - intros Hc x. unfold Ask. rewrite (exec_opb t (OIsInside c) _ _ w (c_inside (conn_of w c))) by reflexivity. unfold ask. rewrite Hn.
    rewrite (exec_opb t (OIsClosed c) _ _ w true) by (cbn [ostep]; rewrite Hc; reflexivity). reflexivity.
Qed.
(*@prop C24.  The same with the asynchronous broadcaster. @*)
Lemma l_C24_server_async_partial : forall G x m w t,
  g_exch G = None -> g_sync G = false -> b_mu (w_srv w) = None -> b_gen (w_srv w) ∉ b_closed (w_srv w) -> ctx_live w x ->
  let token := genWait false (w_now w) in
  exists ch w1 k,
    exec t (ServerAsk G x m) w = XBlocked w1 (OSelect ch x) k /\
    s_waiting (w_srv w1) !! token = Some ch /\
    (forall w3 reply, select_reply w3 ch x = [inr reply] ->
      exists w4, exec t (Do (OSelect ch x) k) w3 = XDone w4 (reply, m_err reply) /\
        s_waiting (w_srv w4) !! token = None /\
        (forall tok, tok <> token -> s_waiting (w_srv w4) !! tok = s_waiting (w_srv w3) !! tok)).
Proof.
  intros G x m w t He Hs Hb Hg Hx token. unfold ServerAsk, Broadcast, broadcast, usesStackExchange. rewrite He, Hs.
  rewrite (exec_opb t ONow _ _ w _ eq_refl). fold token. rewrite (exec_opb t (ONewChan 0) _ _ _ _ eq_refl).
  rewrite (exec_opb t (OSWaitPut token (w_next w)) _ _ _ tt eq_refl). cbn [bind].
  match goal with |- context [exec t _ ?w'] => set (wa := w') end.
  set (wb := upd_srv (fun s => s <| b_mu := Some t |>) wa).
  set (wc := upd_srv (fun s => s <| b_msgs := [set_wait token m] |>) wb <| w_log ::= cons (LBcast [set_wait token m]) |>).
  set (wd := upd_srv (fun s => s <| b_mu := None |>) wc).
  set (we := upd_srv (fun s => s <| b_gen ::= Datatypes.S |>) wd).
  set (wf := upd_srv (fun s => s <| b_closed ::= fun d => {[b_gen (w_srv w)]} ∪ d |>) we).
  match goal with |- context [exec t (bind ?p ?f) wa] => assert (Eb : exec t p wa = XDone wf tt) end.
  { rewrite (exec_opb t OBLock _ _ wb tt) by (cbn [ostep]; change (b_mu (w_srv wa)) with (b_mu (w_srv w)); rewrite Hb; reflexivity).
    rewrite (exec_opb t (OBSet [set_wait token m]) _ _ wc tt eq_refl).
    rewrite (exec_opb t OBUnlock _ _ wd tt) by (cbn [ostep]; change (b_mu (w_srv wc)) with (Some t); cbv beta iota; rewrite Nat.eqb_refl; reflexivity).
    rewrite (exec_opb t OBSwap _ _ we (b_gen (w_srv w)) eq_refl).
    cbn [opr exec ostep]. rewrite bool_decide_eq_false_2 by exact Hg. reflexivity. }
  rewrite (exec_bind_done _ _ _ _ _ _ Eb). cbn [bind opr exec ostep].
  match goal with |- context [pick ?w' (select_reply ?w1 ?ch x)] => assert (E0 : select_reply w1 ch x = []) end.
  { unfold select_reply, chan_of. match goal with |- context [w_chans ?w1] => change (w_chans w1) with (<[w_next w := chan0 0]> (w_chans w)) end.
    rewrite lookup_insert. cbn [default ch_buf chan0]. rewrite app_nil_r. destruct x as [kx|]; [|reflexivity]. cbn in Hx.
    match goal with |- context [w_ctxs ?w1] => change (w_ctxs w1) with (w_ctxs w) end. destruct (w_ctxs w !! kx); [|reflexivity]. destruct Hx as [-> _]. reflexivity. }
  unfold pick at 1. rewrite E0. cbn [length lookup list_lookup].
  eexists (w_next w), _, (srvask_k token). split; [destruct (seed _ mod 0); reflexivity|]. split; [cbn; apply lookup_insert|].
  intros w3 reply Hr. cbn [exec ostep]. rewrite Hr, pick_one. cbn [srvask_k opr bind exec ostep]. eexists. split; [reflexivity|]. split; [cbn; apply lookup_delete|].
  intros tok Hne. apply lookup_delete_ne. congruence.
Qed.
Definition askS : sys := play (scene true (fun _ => Ret tt)) [Go 0] (init (scene true (fun _ => Ret tt))).
(*@exl In reachable worlds of a server with the synchronous broadcaster the loop has accepted every broadcast, and with the asynchronous one
    its lock is free. @*)
Lemma x_C24_server_example : reachable (scene true (fun _ => Ret tt)) askS /\
  g_exch (scene true (fun _ => Ret tt)) = None /\ g_sync (scene true (fun _ => Ret tt)) = true /\ s_bcaccepted (w_srv (s_w askS)) <= s_bcsent (w_srv (s_w askS)) /\
  reachable exG exM /\ g_exch exG = None /\ g_sync exG = false /\ b_mu (w_srv (s_w exM)) = None /\ b_gen (w_srv (s_w exM)) ∉ b_closed (w_srv (s_w exM)) /\ ctx_live (s_w exM) None /\
  onlyNative exG 1 = false.
Proof.
  split; [apply play_reachable|]. split; [reflexivity|]. split; [reflexivity|]. split; [apply Nat.leb_le; vm_compute; reflexivity|].
  split; [apply play_reachable|]. split; [reflexivity|]. split; [reflexivity|]. split; [vm_compute; reflexivity|].
  split; [apply (bool_decide_eq_false_1 (b_gen (w_srv (s_w exM)) ∈ b_closed (w_srv (s_w exM)))); vm_compute; reflexivity|]. split; [exact Logic.I|vm_compute; reflexivity].
Qed.

(** An Ask inside a callback: nobody is registered for the token, a goroutine
    that reads the next frame is started. *)
Lemma ask_inside_blocks G c A t x m w :
  setting G c A -> quiet G w c -> c_inside (conn_of w c) = true -> ctx_live w x -> m_err m = None ->
  may_send (role_of G c w) (cs_rooms (view w c)) m = true ->
  let token := genWait (g_client G c) (w_now w) in
  let ch := w_next w in
  let k (r : gerr + message) := match r with
    | inl e => bind (opr (OIsClosed c)) (fun closed => Ret (no_message, Some (if closed : bool then EWrite else e)))
    | inr receive => bind (Ret tt) (fun _ => bind (opr (OLog (LAskReply c token receive true))) (fun _ => Ret (receive, m_err receive)))
    end in
  exists w1, exec t (Ask G c x m) w = XBlocked w1 (OSelect ch x) k /\
    w_spawn w1 = w_spawn w ++ [TReadNext c ch] /\
    c_waiting (conn_of w1 c) = c_waiting (conn_of w c) /\
    chan_of w1 ch = chan0 1 /\ w_log w1 = LAsk c token :: w_log w /\ quiet G w1 c.
Proof.
  intros S Q Hin Hx Hp0 Hmay token ch k. pose proof (at_intro G c w Q) as H.
  assert (Hp : printable m) by (unfold printable; rewrite Hp0; exact I). unfold Ask.
  rewrite (exec_opb t (OIsInside c) _ _ w true) by (cbn [ostep]; rewrite Hin; reflexivity).
  unfold ask. rewrite (app_mixed _ _ _ S).
  rewrite (exec_opb t (OIsClosed c) _ _ w false) by (cbn [ostep]; rewrite (q_open _ _ _ (a_quiet _ _ _ _ _ H)); reflexivity).
  rewrite (exec_opb t (OCtxLate x) _ _ w false).
  2:{ cbn [ostep]. f_equal. destruct x as [kx|]; [|reflexivity]. cbn in Hx. destruct (w_ctxs w !! kx) as [xc|]; [|reflexivity].
      destruct Hx as [_ Hx]. destruct (x_deadline xc); [|reflexivity]. apply Z.ltb_ge. exact Hx. }
  rewrite (exec_opb t (ONewChan 1) _ _ _ _ eq_refl).
  rewrite (exec_opb t ONow _ _ _ _ eq_refl).
  change (IsClient G c) with (g_client G c). change (w_now (w <| w_chans ::= _ |> <| w_next ::= _ |>)) with (w_now w). fold token.
  rewrite (exec_opb t (OLog (LAsk c token)) _ _ _ _ eq_refl).
  change (if true then opr (OSpawn (TReadNext c (w_next w))) else opr (OWaitPut c token (w_next w)))
    with (opr (OSpawn (TReadNext c (w_next w)))).
  set (wa := w <| w_chans ::= <[w_next w := chan0 1]> |> <| w_next ::= Datatypes.S |> <| w_log ::= cons (LAsk c token) |>
    <| w_spawn ::= fun l => l ++ [TReadNext c (w_next w)] |>).
  rewrite (exec_opb t (OSpawn (TReadNext c (w_next w))) _ _ wa tt eq_refl).
  assert (H1 : at_ G c wa (view w c) (c_nss (conn_of w c))).
  { destruct Q as [Hm Q]. split; [|reflexivity|reflexivity]. split; [exact Hm|]. change (conn_of wa c) with (conn_of w c). destruct Q. split; auto.
    intros id o E. specialize (q_fresh_ _ _ E). change (w_next wa) with (Datatypes.S (w_next w)). lia. }
  assert (HR : role_of G c wa = role_of G c w) by reflexivity.
  assert (E2 : exec t (Write G c (set_wait token m)) wa = XDone (send_world c (wire_of (set_wait token m)) wa) true).
  { unfold Write. rewrite (exec_bind_done _ _ _ _ _ _ (canWrite_exec G c t _ _ _ _ H1)), HR.
    change (may_send (role_of G c w) (cs_rooms (view w c)) (set_wait token m)) with (may_send (role_of G c w) (cs_rooms (view w c)) m).
    rewrite Hmay. cbn [negb]. unfold wire_of. destruct (serialize_printable (set_wait token m) Hp) as [b Hb]. rewrite Hb.
    rewrite (write_exec G c t _ b _ (a_quiet _ _ _ _ _ H1)). reflexivity. }
  assert (Hch : chan_of (send_world c (wire_of (set_wait token m)) wa) ch = chan0 1).
  { change (default (chan0 0) (<[w_next w := chan0 1]> (w_chans w) !! w_next w) = chan0 1). rewrite lookup_insert. reflexivity. }
  rewrite (exec_bind_done _ _ _ _ _ _ E2). cbn [negb].
  exists (send_world c (wire_of (set_wait token m)) wa). split; [|split; [reflexivity|split; [|split; [exact Hch|split; [reflexivity|]]]]].
  - assert (E0 : select_reply (send_world c (wire_of (set_wait token m)) wa) ch x = []).
    { unfold select_reply. rewrite Hch. cbn [ch_buf chan0]. rewrite app_nil_r.
      destruct x as [kx|]; [|reflexivity]. cbn in Hx. change (w_ctxs (send_world c (wire_of (set_wait token m)) wa)) with (w_ctxs w).
      destruct (w_ctxs w !! kx); [|reflexivity]. destruct Hx as [-> _]. reflexivity. }
    cbn [opr bind exec ostep]. unfold pick. fold ch. rewrite E0. cbn [length].
    destruct (seed _ mod 0); reflexivity.
  - unfold send_world. rewrite conn_upd_eq. reflexivity.
  - pose proof (a_quiet _ _ _ _ _ H1) as [Hm Q1]. unfold send_world. split; [rewrite conn_upd_eq; apply lookup_insert|].
    rewrite conn_upd_eq. destruct Q1. split; auto.
Qed.

(*@prop C26 does not hold.  An Ask inside a callback waits with no waiter
    registered for its token and a new goroutine reads the next frame of the
    connection.  Whatever that frame is, it is taken away from the reader, no
    callback runs for it, and the Ask returns it as its reply. @*)
Lemma l_C26_refuted : forall G c A t t' x m w,
  setting G c A -> quiet G w c -> c_inside (conn_of w c) = true -> ctx_live w x -> m_err m = None ->
  may_send (role_of G c w) (cs_rooms (view w c)) m = true ->
  let token := genWait (g_client G c) (w_now w) in
  exists ch w1 k,
    exec t (Ask G c x m) w = XBlocked w1 (OSelect ch x) k /\
    w_spawn w1 = w_spawn w ++ [TReadNext c ch] /\
    c_waiting (conn_of w1 c) = c_waiting (conn_of w c) /\
    forall typ b rest w2, chan_of w2 ch = chan_of w1 ch -> ctx_live w2 x ->
      c_sockclosed (conn_of w2 c) = false -> c_in (conn_of w2 c) = (typ, b) :: rest ->
      let reply := deserialize G c typ b in
      exists w3 w4, exec t' (code G (TReadNext c ch)) w2 = XDone w3 None /\
        exec t (Do (OSelect ch x) k) w3 = XDone w4 (reply, m_err reply) /\
        c_in (conn_of w4 c) = rest /\ w_log w4 = LAskReply c token reply true :: w_log w2.
Proof.
  intros G c A t t' x m w S Q Hin Hx Hp Hmay token.
  destruct (ask_inside_blocks G c A t x m w S Q Hin Hx Hp Hmay) as (w1 & E1 & Hs & Hw & Hch & Hl & _).
  eexists _, w1, _. split; [exact E1|]. split; [exact Hs|]. split; [exact Hw|].
  intros typ b rest w2 Hc2 Hx2 Hsc Hi reply. rewrite Hch in Hc2.
  set (w2a := upd_conn c (fun k => k <| c_in ::= @tl (mtype * string) |>) w2).
  set (w3 := upd_chan (w_next w) (fun y => y <| ch_buf := [reply] |> <| ch_sent := 1 |>) w2a).
  assert (Hc3 : chan_of w3 (w_next w) = chan0 1 <| ch_buf := [reply] |> <| ch_sent := 1 |>).
  { unfold w3, chan_of, upd_chan at 1. cbn. rewrite lookup_insert. cbn. change (chan_of w2a) with (chan_of w2). rewrite Hc2. reflexivity. }
  eexists w3, _. split; [|split; [|split]].
  - cbn [code]. unfold read_next. cbn [opr bind exec ostep]. rewrite Hsc, Hi. fold w2a. unfold send. cbn [opr bind exec ostep].
    change (chan_of w2a (w_next w)) with (chan_of w2 (w_next w)). rewrite Hc2. cbn [ch_buf chan0 bind exec ostep ch_sent].
    change (upd_chan _ _ w2a) with w3. rewrite Hc3. reflexivity.
  - cbn [exec ostep]. assert (Er : select_reply w3 (w_next w) x = [inr reply]).
    { unfold select_reply. rewrite Hc3. cbn [ch_buf]. destruct x as [kx|]; [|reflexivity]. change (w_ctxs w3) with (w_ctxs w2). cbn in Hx2.
      destruct (w_ctxs w2 !! kx); [|reflexivity]. destruct Hx2 as [-> _]. reflexivity. }
    rewrite Er, pick_one. cbn [bind opr exec ostep]. reflexivity.
  - match goal with |- c_in (conn_of ?w4 c) = _ => change (conn_of w4 c) with (conn_of w2a c) end. unfold w2a. rewrite conn_upd_eq. cbn. rewrite Hi. reflexivity.
  - reflexivity.
Qed.

(*@prop C26, for as much of it as holds: if the frame that comes next is the
    other side's reply [r] to the request, then the Ask returns it: its token,
    names and body, and the error it carries. @*)
Lemma l_C26_next_partial : forall G c A t t' x m w r b,
  setting G c A -> quiet G w c -> c_inside (conn_of w c) = true -> ctx_live w x -> m_err m = None ->
  may_send (role_of G c w) (cs_rooms (view w c)) m = true ->
  let token := genWait (g_client G c) (w_now w) in
  m_wait r = token -> ~ sent_raw r -> m_fromExplicit r = "" ->
  safe_name (m_namespace r) -> safe_name (m_room r) -> safe_name (m_event r) ->
  (forall e, m_err r = Some e -> err_text e <> Ok "" \/ exists b, e = EReply b) -> serializeMessage r = Ok b ->
  exists ch w1 k,
    exec t (Ask G c x m) w = XBlocked w1 (OSelect ch x) k /\
    w_spawn w1 = w_spawn w ++ [TReadNext c ch] /\
    forall typ rest w2, chan_of w2 ch = chan_of w1 ch -> ctx_live w2 x ->
      c_sockclosed (conn_of w2 c) = false -> c_in (conn_of w2 c) = (typ, b) :: rest ->
      exists w3 w4 reply err, exec t' (code G (TReadNext c ch)) w2 = XDone w3 None /\
        exec t (Do (OSelect ch x) k) w3 = XDone w4 (reply, err) /\
        m_wait reply = token /\ m_namespace reply = m_namespace r /\ m_room reply = m_room r /\ m_event reply = m_event r /\
        delivered (g_known G) (m_body r) (m_err r) (m_body reply) err /\ c_in (conn_of w4 c) = rest.
Proof.
  intros G c A t t' x m w r b S Q Hin Hx Hp Hmay token Hw Hraw Hfe H1 H2 H3 He Hb.
  destruct (l_C26_refuted G c A t t' x m w S Q Hin Hx Hp Hmay) as (ch & w1 & k & E1 & Hs & _ & Hgo).
  exists ch, w1, k. split; [exact E1|]. split; [exact Hs|]. intros typ rest w2 Hc Hx2 Hsc Hi.
  destruct (Hgo typ b rest w2 Hc Hx2 Hsc Hi) as (w3 & w4 & E3 & E4 & Hr & _).
  assert (Hg : good_token (m_wait r)) by (rewrite Hw; apply genWait_good).
  destruct (l_C01_wire_round_trip (g_known G) typ (allowNative G c) r b Hraw Hfe Hg H1 H2 H3 He Hb) as (_ & D1 & D2 & D3 & D4 & _ & _ & D5).
  unfold deserialize in E4. rewrite (app_mixed _ _ _ S) in E4.
  eexists w3, w4, _, _. split; [exact E3|]. split; [exact E4|]. rewrite <- Hw. auto 10.
Qed.

(*@prop C26, for as much of it as holds: an Ask inside a callback does not wait
    for ever on a connection that ends.  If the next read fails, then the
    Ask returns the error. @*)
Lemma l_C26_ends_partial : forall G c A t t' x m w,
  setting G c A -> quiet G w c -> c_inside (conn_of w c) = true -> ctx_live w x -> m_err m = None ->
  may_send (role_of G c w) (cs_rooms (view w c)) m = true ->
  exists ch w1 k,
    exec t (Ask G c x m) w = XBlocked w1 (OSelect ch x) k /\
    w_spawn w1 = w_spawn w ++ [TReadNext c ch] /\
    forall e w2, chan_of w2 ch = chan_of w1 ch -> ctx_live w2 x ->
      (if c_sockclosed (conn_of w2 c) then e = use_of_closed else c_in (conn_of w2 c) = [] /\ c_inend (conn_of w2 c) = Some e) ->
      exists w3 w4 reply, exec t' (code G (TReadNext c ch)) w2 = XDone w3 None /\
        exec t (Do (OSelect ch x) k) w3 = XDone w4 (reply, Some e) /\ m_isError reply = true /\ m_body reply = "".
Proof.
  intros G c A t t' x m w S Q Hin Hx Hp Hmay.
  destruct (ask_inside_blocks G c A t x m w S Q Hin Hx Hp Hmay) as (w1 & E1 & Hs & Hw & Hch & Hl & _).
  eexists _, w1, _. split; [exact E1|]. split; [exact Hs|].
  intros e w2 Hc2 Hx2 Hend. rewrite Hch in Hc2.
  set (reply := set_isError true (set_err (Some e) no_message)).
  set (w3 := upd_chan (w_next w) (fun y => y <| ch_buf := [reply] |> <| ch_sent := 1 |>) w2).
  assert (Hc3 : chan_of w3 (w_next w) = chan0 1 <| ch_buf := [reply] |> <| ch_sent := 1 |>).
  { unfold w3, chan_of, upd_chan at 1. cbn. rewrite lookup_insert. cbn. rewrite Hc2. reflexivity. }
  assert (Er : ostep t' w2 (ORead c) = Goes w2 (inl e : gerr + mtype * string)).
  { cbn [ostep]. destruct (c_sockclosed (conn_of w2 c)); [subst e; reflexivity|]. destruct Hend as [-> ->]. reflexivity. }
  eexists w3, _, reply. split; [|split; [|split; reflexivity]].
  - cbn [code]. unfold read_next. cbn [opr bind exec]. rewrite Er. fold reply. unfold send. cbn [opr bind exec ostep].
    rewrite Hc2. cbn [ch_buf chan0 bind exec ostep ch_sent].
    change (upd_chan _ _ w2) with w3. rewrite Hc3. reflexivity.
  - cbn [exec ostep]. assert (Es : select_reply w3 (w_next w) x = [inr reply]).
    { unfold select_reply. rewrite Hc3. cbn [ch_buf]. destruct x as [kx|]; [|reflexivity]. change (w_ctxs w3) with (w_ctxs w2). cbn in Hx2.
      destruct (w_ctxs w2 !! kx); [|reflexivity]. destruct Hx2 as [-> _]. reflexivity. }
    rewrite Es, pick_one. cbn [bind opr exec ostep]. reflexivity.
Qed.

(** A client-side application in which the callback of event "go" asks. *)
Definition nosy_events : gmap string handler :=
  <["go" := fun _ _ => Call (AAsk 2 None hello_msg) (fun _ => Ret None)]>
  {["news" := fun _ _ => Ret None]}.
Definition nosy : cfg := {|
  g_client := fun c => Nat.eqb c 2;
  g_namespaces := fun _ => {["chat" := nosy_events]};
  g_connid := fun c => "id-1";
  g_uuid := "u";
  g_ptr := fun c => "0x1";
  g_known := knownErrors0;
  g_exch := None;
  g_sync := true;
  g_firealways := false;
  g_onconnect := None;
  g_ondisconnect := None;
  g_do := fun _ _ => Ret tt;
  g_user := fun _ => call (AConnect 2 None "chat") |}.
Definition nosy_run : list cmd :=
  [Go 0; Act1 (Env (EGo (TDial 2))); Go 1; Act1 Start; Go 2; Act1 (Env (EDeliver 2 TextMessage "Aid-1")); Go 2; Go 1;
   Act1 (Env (EGo (TUser 0))); Go 3; Act1 (Env (EDeliver 2 TextMessage "$0;chat;;_OnNamespaceConnect;0;0;")); Go 2; Go 3;
   Act1 (Env (ETick 7)); Act1 (Env (EDeliver 2 TextMessage ";chat;;go;0;0;")); Go 2; Act1 Start;
   Act1 (Env (EDeliver 2 TextMessage ";chat;;news;0;0;extra")); Act1 (Env (EDeliver 2 TextMessage "$7;chat;;echo;0;0;answer")); Go 4; Go 2].
(*@ex
(** A client asks inside the callback of event "go"; event "news" arrives before
    the answer: the Ask returns the news, for which no callback runs, and then
    the answer is handled as an event nobody listens to. *)
Example C26_example : reachable nosy (play nosy nosy_run (init nosy)) /\
  let log := w_log (s_w (play nosy nosy_run (init nosy))) in
  answers log = [("$7", "extra", true); ("$0", "", false)] /\
  map (fun e : string * string * message => snd (fst e)) (fired_of 2 log) = ["go"] /\
  c_in (conn_of (s_w (play nosy nosy_run (init nosy))) 2) = [].
Proof. split; [apply play_reachable|]. split; [vm_compute; reflexivity|]. split; vm_compute; reflexivity. Qed.
(** If the answer comes first, the Ask returns it, and then the news is handled. *)
Example C26_next_example :
  let s := play nosy (take 17 nosy_run ++ [Act1 (Env (EDeliver 2 TextMessage "$7;chat;;echo;0;0;answer")); Act1 (Env (EDeliver 2 TextMessage ";chat;;news;0;0;extra")); Go 4; Go 2]) (init nosy) in
  reachable nosy s /\ answers (w_log (s_w s)) = [("$7", "answer", true); ("$0", "", false)] /\
  map (fun e : string * string * message => snd (fst e)) (fired_of 2 (w_log (s_w s))) = ["news"; "go"].
Proof. split; [apply play_reachable|]. split; vm_compute; reflexivity. Qed.
(** If the connection ends first, the Ask returns with the error of the read. *)
Example C26_ends_example :
  let s := play nosy (take 17 nosy_run ++ [Act1 (Env (EReadEnd 2 use_of_closed)); Go 4; Go 2]) (init nosy) in
  reachable nosy s /\ answers (w_log (s_w s)) = [("$7", "", true); ("$0", "", false)] /\ s_th s !! (2 : tid) = None.
Proof. split; [apply play_reachable|]. split; vm_compute; reflexivity. Qed.
(** The hypotheses of C26_refuted hold for a member whose reader runs a callback; those of C26_next_partial for an answer to it. *)
Example C26_hypotheses : let w := upd_conn 1 (fun k => k <| c_inside := true |>) (s_w exM) in
  setting exG 1 exA /\ quiet exG w 1 /\ c_inside (conn_of w 1) = true /\
  ctx_live w None /\ m_err hello_msg = None /\ may_send (role_of exG 1 w) (cs_rooms (view w 1)) hello_msg = true /\
  let r := set_wait (genWait (g_client exG 1) (w_now w)) (set_body "answer" hello_msg) in
  ~ sent_raw r /\ m_fromExplicit r = "" /\ safe_name (m_namespace r) /\ safe_name (m_room r) /\ safe_name (m_event r) /\
  m_err r = None /\ exists b, serializeMessage r = Ok b.
Proof.
  split; [apply ex_setting|]. split; [apply quietb_ok; vm_compute; reflexivity|]. split; [vm_compute; reflexivity|].
  split; [exact I|]. split; [reflexivity|]. split; [vm_compute; reflexivity|].
  split; [intros [H _]; revert H; vm_compute; discriminate|]. split; [reflexivity|].
  split; [apply unescape_escape_iff; reflexivity|]. split; [apply unescape_escape_iff; reflexivity|]. split; [apply unescape_escape_iff; reflexivity|].
  split; [reflexivity|]. eexists. vm_compute. reflexivity.
Qed.
@*)
