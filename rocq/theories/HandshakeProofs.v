(** * HandshakeProofs.v : the handshake of Dial and Upgrade (C29), one undisturbed run. *)
From Coq Require Import ZArith Ascii.
From stdpp Require Import gmap strings list relations.
From RecordUpdate Require Import RecordUpdate.
From Verif Require Import Go Errors Message World Lang Code Sem ExecProofs Spec_Ready.
From Verif Require Import Spec_App Spec_Conn Spec_View SeqProofs Examples Scenes.

Lemma conn_log w f c : conn_of (w <| w_log ::= f |>) c = conn_of w c.
Proof. reflexivity. Qed.
Lemma conn_pop w c : conn_of (pop_seed w) c = conn_of w c.
Proof. reflexivity. Qed.

Lemma conns_log w f : w_conns (w <| w_log ::= f |>) = w_conns w.
Proof. reflexivity. Qed.
Lemma conns_pop w : w_conns (pop_seed w) = w_conns w.
Proof. reflexivity. Qed.
Lemma log_upd c f w : w_log (upd_conn c f w) = w_log w.
Proof. reflexivity. Qed.
Lemma log_pop w : w_log (pop_seed w) = w_log w.
Proof. reflexivity. Qed.
Lemma log_log w f : w_log (w <| w_log ::= f |>) = f (w_log w).
Proof. reflexivity. Qed.

Section handshake.
Context (G : cfg) (a b : cid) (Hab : a <> b) (Ha : g_client G a = true) (Hna : onlyNative G a = false).

(** *** Dial *)
Definition wa1 (w : world) : world := w <| w_conns ::= <[a := conn0 <| c_id := "" |>]> |> <| w_spawn ::= fun l => l ++ [TReader a] |>.
Definition wa2 (w : world) : world := upd_conn a (fun k => k <| c_out ::= fun l => l ++ [(TextMessage, "M")] |>) (wa1 w).
Definition wa3 (w : world) : world := upd_conn a (fun k => k <| c_wait ::= fun x => x <| w_locked := true |> |>) (wa2 w).
(** The client side while Dial waits. *)
Definition k3 : conn := conn0 <| c_out := [(TextMessage, "M")] |> <| c_wait := Waiter true false None false |>.
Lemma conn_wa1 w : conn_of (wa1 w) a = conn0.
Proof. unfold conn_of, wa1. cbn. rewrite lookup_insert. reflexivity. Qed.
Lemma conn_wa2 w : conn_of (wa2 w) a = conn0 <| c_out := [(TextMessage, "M")] |>.
Proof. unfold wa2. rewrite conn_upd_eq, conn_wa1. reflexivity. Qed.
Lemma conn_wa3 w : conn_of (wa3 w) a = k3.
Proof. unfold wa3. rewrite conn_upd_eq, conn_wa2. reflexivity. Qed.
Lemma other_wa3 w c : c <> a -> w_conns (wa3 w) !! c = w_conns w !! c.
Proof. intros H. unfold wa3, wa2. rewrite !upd_conn_ne by exact H. unfold wa1. cbn. rewrite lookup_insert_ne by congruence. reflexivity. Qed.
Definition dial_end (err : option gerr) : prog unit :=
  match err with Some e => opr (OLog (LDial a (Some e) "")) | None => bind (opr (OGetId a)) (fun id => opr (OLog (LDial a None id))) end.
Definition dial_k : prog unit :=
  bind (bind (opr (OWErr a)) (fun err => match err with Some e => bind (Close G a) (fun _ => Ret (Some e)) | None => Ret None end)) dial_end.
Lemma dial_blocks t w : w_conns w !! a = None ->
  exists k, exec t (Dial G a) w = XBlocked (wa3 w) (OWRecv a) k /\
    (forall w', w_chclosed (c_wait (conn_of w' a)) = true -> exec t (Do (OWRecv a) k) w' = exec t dial_k w').
Proof.
  intros Hw. eexists. split.
  - unfold Dial, newConn, IsClient. rewrite Ha, Hna.
    rewrite (exec_opb t (ONewConn a "" false) _ _ (w <| w_conns ::= <[a := conn0 <| c_id := "" |>]> |>) tt) by (cbn [ostep]; rewrite Hw; reflexivity).
    rewrite (exec_opb t (OSpawn (TReader a)) _ _ (wa1 w) tt) by reflexivity.
    unfold sendClientACK. rewrite Hna. unfold write.
    cbn [opr bind exec].
    assert (E : ostep t (wa1 w) (OSockWrite a TextMessage "M") = Goes (wa2 w) None).
    { cbn [ostep]. rewrite conn_wa1. reflexivity. }
    cbv zeta. unfold ackBinary. rewrite E. cbn [negb bind]. unfold wait. cbn [opr bind exec].
    assert (E2 : ostep t (wa2 w) (OWReady a) = Goes (wa2 w) false) by (cbn [ostep]; rewrite conn_wa2; reflexivity).
    rewrite E2. cbn [opr bind exec].
    assert (E3 : ostep t (wa2 w) (OWCasLock a) = Goes (wa3 w) true) by (cbn [ostep]; rewrite conn_wa2; reflexivity).
    rewrite E3. cbn [opr bind exec].
    assert (E4 : ostep t (wa3 w) (OWRecv a) = Blocked) by (cbn [ostep]; rewrite conn_wa3; reflexivity).
    rewrite E4. reflexivity.
  - intros w' Hc. cbn [exec ostep]. rewrite Hc. reflexivity.
Qed.

(** *** The server's answer *)
Context (Hb : g_client G b = false).
Definition wb1 (w : world) : world := upd_conn b (fun k => k <| c_in ::= @tl (mtype * string) |>) (upd_conn b (fun k => k <| c_in ::= fun l => l ++ [(TextMessage, "M")] |> <| c_got ::= fun l => l ++ [(TextMessage, "M")] |>) w).
Definition wb2 (w : world) : world := pop_seed (upd_conn b (fun k => k <| c_acked := true |>) (wb1 w <| w_log ::= cons (LAcked b) |>)).
Lemma arrives_eq c f w : w_conns w !! c = Some (conn_of w c) -> c_inend (conn_of w c) = None ->
  arrives c f w = upd_conn c (fun k => k <| c_in ::= fun l => l ++ [f] |> <| c_got ::= fun l => l ++ [f] |>) w.
Proof. intros H1 H2. unfold arrives. cbn [env_step]. rewrite H1, H2. destruct f. reflexivity. Qed.
Lemma conn_wb1 w : c_in (conn_of w b) = [] -> conn_of (wb1 w) b = conn_of w b <| c_got ::= fun l => l ++ [(TextMessage, "M")] |>.
Proof. intros H. unfold wb1. rewrite conn_upd_eq, conn_upd_eq. destruct (conn_of w b). cbn in *. rewrite H. reflexivity. Qed.
Ltac got := repeat match goal with |- context [?proj (set c_got ?f ?k)] => progress change (proj (set c_got f k)) with (proj k) end.
Lemma server_reads t w v : expecting G w b v -> exists p, exec t (reader_step G b) (arrives b (TextMessage, "M") w) = exec t p (wb1 w) /\
  p = match v with
      | Some e => match err_text e with
                  | Ok text => bind (write G b (String "H" text) false) (fun _ => Ret false)
                  | Panic why => Crash why
                  end
      | None => bind (opr (OLog (LAcked b))) (fun _ => bind (opr (OSetAcked b true)) (fun _ => bind (handleQueue G b) (fun _ =>
                  bind (opr (OGetId b)) (fun id => write G b (String "A" id) false))))
      end.
Proof.
  intros [X1 X2 X3 X4 X5 X6 X7 X8 X9]. eexists. split; [|reflexivity]. rewrite arrives_eq by (apply X3 || exact X9).
  unfold reader_step. rewrite (exec_opb t (ORead b) _ _ (wb1 w) (inr (TextMessage, "M"))).
  2: { cbn [ostep]. rewrite conn_upd_eq. cbn. rewrite (q_sock _ _ _ X3), X8. reflexivity. }
  cbn [is_empty]. rewrite (exec_opb t (OIsAcked b) _ _ (wb1 w) false).
  2: { cbn [ostep]. rewrite conn_wb1 by exact X8; got. rewrite X5. reflexivity. }
  cbn [negb]. unfold handleACK. cbn [Ascii.eqb ackBinary Bool.eqb]. unfold wait. cbn [bind opr exec ostep].
  rewrite conn_wb1 by exact X8; got. rewrite (q_ready _ _ _ X3 X1). cbn [bind opr exec ostep]. rewrite conn_wb1 by exact X8; got. rewrite X4. reflexivity.
Qed.
Lemma server_accepts t w : expecting G w b None ->
  exec t (reader_step G b) (arrives b (TextMessage, "M") w) = XDone (send_world b (TextMessage, String "A" (c_id (conn_of w b))) (wb2 w)) true /\
  c_out (conn_of (send_world b (TextMessage, String "A" (c_id (conn_of w b))) (wb2 w)) b) = c_out (conn_of w b) ++ [(TextMessage, String "A" (c_id (conn_of w b)))].
Proof.
  intros X. destruct (server_reads t w None X) as (p & E & ->). destruct X as [X1 X2 X3 X4 X5 X6 X7 X8 X9].
  assert (H2 : conn_of (wb2 w) b = conn_of w b <| c_got ::= fun l => l ++ [(TextMessage, "M")] |> <| c_acked := true |>).
  { unfold wb2. change (conn_of (pop_seed ?x) b) with (conn_of x b). rewrite conn_upd_eq. change (conn_of (wb1 w <| w_log ::= cons (LAcked b) |>) b) with (conn_of (wb1 w) b).
    rewrite conn_wb1 by exact X8; got. reflexivity. }
  split.
  - rewrite E. cbn [bind opr exec ostep]. unfold handleQueue. cbn [bind opr exec ostep].
    rewrite !conn_upd_eq. change (conn_of (wb1 w <| w_log ::= cons (LAcked b) |>) b) with (conn_of (wb1 w) b).
    rewrite conn_wb1 by exact X8; got. cbn [c_qtext c_qbin set]. 
    change (c_qtext (conn_of w b <| c_acked := true |>)) with (c_qtext (conn_of w b)). change (c_qbin (conn_of w b <| c_acked := true |>)) with (c_qbin (conn_of w b)).
    rewrite X6, X7. cbn [Datatypes.app permute for_all bind opr exec ostep]. fold (wb2 w). rewrite H2.
    unfold write. rewrite (exec_opb t (OSockWrite b TextMessage (String "A" (c_id (conn_of w b)))) _ _ (send_world b (TextMessage, String "A" (c_id (conn_of w b))) (wb2 w)) None); [reflexivity|].
    cbn [ostep]. rewrite H2. cbn. rewrite (q_sock _ _ _ X3), (q_wfail _ _ _ X3). reflexivity.
  - rewrite send_conn, H2. reflexivity.
Qed.
Lemma server_refuses t w e text : expecting G w b (Some e) -> err_text e = Ok text ->
  exec t (reader_step G b) (arrives b (TextMessage, "M") w) = XDone (send_world b (TextMessage, String "H" text) (wb1 w)) false /\
  c_out (conn_of (send_world b (TextMessage, String "H" text) (wb1 w)) b) = c_out (conn_of w b) ++ [(TextMessage, String "H" text)].
Proof.
  intros X Ht. destruct (server_reads t w (Some e) X) as (p & E & ->). destruct X as [X1 X2 X3 X4 X5 X6 X7 X8 X9]. split.
  - rewrite E, Ht. unfold write. cbn [bind opr exec ostep]. rewrite conn_wb1 by exact X8; got. rewrite (q_sock _ _ _ X3), (q_wfail _ _ _ X3). reflexivity.
  - rewrite send_conn, conn_wb1 by exact X8; got. reflexivity.
Qed.

(** *** The client handles it *)
Definition wc1 (f : mtype * string) (w : world) : world := upd_conn a (fun k => k <| c_in ::= @tl (mtype * string) |>) (upd_conn a (fun k => k <| c_in ::= fun l => l ++ [f] |> <| c_got ::= fun l => l ++ [f] |>) w).
Lemma conn_wc1 f w : conn_of w a = k3 -> conn_of (wc1 f w) a = k3 <| c_got := [f] |>.
Proof. intros H. unfold wc1. rewrite conn_upd_eq, conn_upd_eq, H. reflexivity. Qed.
Definition open_gate (v : option gerr) (w : world) : world := upd_conn a (fun k => k <| c_wait := Waiter false true v true |>) w.
Lemma client_unwait t v w : c_wait (conn_of w a) = Waiter true false None false -> exec t (unwait a v) w = XDone (open_gate v w) tt.
Proof.
  intros H. unfold unwait. cbn [bind opr exec ostep]. rewrite H. cbn [bind opr exec ostep w_ready].
  rewrite upd_conn_twice. cbn [bind opr exec ostep]. rewrite conn_upd_eq. cbn. rewrite H. cbn [bind opr exec ostep w_locked].
  rewrite upd_conn_twice, conn_upd_eq. cbn. rewrite H. cbn. rewrite upd_conn_twice. reflexivity.
Qed.
Lemma client_gets t w f : w_conns w !! a = Some k3 -> exec t (reader_step G a) (arrives a f w) =
  exec t (if is_empty (snd f) then Ret true else handleACK G a (fst f) (snd f)) (wc1 f w).
Proof.
  intros H. assert (Hk : conn_of w a = k3) by (unfold conn_of; rewrite H; reflexivity).
  rewrite arrives_eq by (rewrite Hk; assumption || reflexivity).
  unfold reader_step. rewrite (exec_opb t (ORead a) _ _ (wc1 f w) (inr f)).
  2: { cbn [ostep]. rewrite conn_upd_eq, Hk. reflexivity. }
  destruct f as [ty s]. cbn [fst snd]. destruct (is_empty s); [reflexivity|].
  rewrite (exec_opb t (OIsAcked a) _ _ (wc1 (ty, s) w) false); [reflexivity|].
  cbn [ostep]. rewrite conn_wc1 by exact Hk. reflexivity.
Qed.
Definition wd (id : string) (w : world) : world :=
  open_gate None (upd_conn a (fun k => k <| c_acked := true |>) (upd_conn a (fun k => k <| c_id := id |>) (wc1 (TextMessage, String "A" id) w) <| w_log ::= cons (LAcked a) |>)).
Lemma client_accepted t w id : w_conns w !! a = Some k3 ->
  exec t (reader_step G a) (arrives a (TextMessage, String "A" id) w) = XDone (wd id w) true.
Proof.
  intros H. assert (Hk : conn_of w a = k3) by (unfold conn_of; rewrite H; reflexivity).
  rewrite client_gets by exact H. cbn [fst snd is_empty]. unfold handleACK. cbn [Ascii.eqb ackBinary ackIDBinary Bool.eqb bind opr exec ostep].
  rewrite (exec_bind_done _ _ _ _ (wd id w) tt); [reflexivity|]. apply client_unwait.
  rewrite conn_upd_eq. cbn. change (c_wait (conn_of (upd_conn a (fun k => k <| c_id := id |>) (wc1 (TextMessage, String "A" id) w)) a) = Waiter true false None false).
  rewrite conn_upd_eq. cbn. rewrite conn_wc1 by exact Hk. reflexivity.
Qed.
Lemma client_refused t w text : w_conns w !! a = Some k3 ->
  exec t (reader_step G a) (arrives a (TextMessage, String "H" text) w) = XDone (open_gate (Some (ENew text)) (wc1 (TextMessage, String "H" text) w)) false.
Proof.
  intros H. assert (Hk : conn_of w a = k3) by (unfold conn_of; rewrite H; reflexivity).
  rewrite client_gets by exact H. cbn [fst snd is_empty]. unfold handleACK. cbn [Ascii.eqb ackBinary ackIDBinary ackNotOKBinary Bool.eqb bind opr exec ostep].
  rewrite (exec_bind_done _ _ _ _ _ tt (client_unwait t _ _ ltac:(rewrite conn_wc1 by exact Hk; reflexivity))). reflexivity.
Qed.

(** *** Dial goes on *)
Lemma dial_accepted t w : w_err (c_wait (conn_of w a)) = None ->
  exec t dial_k w = XDone (w <| w_log ::= cons (LDial a None (c_id (conn_of w a))) |>) tt.
Proof. intros H. unfold dial_k. cbn [bind opr exec ostep]. rewrite H. reflexivity. Qed.
Lemma close_client t w g : conn_of w a = k3 <| c_got := g |> <| c_wait := Waiter false true (w_err (c_wait (conn_of w a))) true |> -> exists w', exec t (Close G a) w = XDone w' tt /\ w_log w' = w_log w /\
  c_closed (conn_of w' a) = true /\ c_sockclosed (conn_of w' a) = true /\ forall c, c <> a -> conn_of w' c = conn_of w c.
Proof.
  intros H. eexists. split.
  - unfold Close, IsClient. rewrite Ha, Hna. rewrite (exec_opb t (OCasClosed a) _ _ (upd_conn a (fun k => k <| c_closed := true |>) w) true) by (cbn [ostep]; rewrite H; reflexivity).
    cbn [negb]. rewrite (bind_assoc_exec _ _ _ _ _ (upd_conn a (fun k => k <| c_closed := true |> <| c_nsmu := RW (Some t) [] |>) w) tt).
    2: { cbn [opr exec ostep]. rewrite conn_upd_eq, H. cbn. rewrite upd_conn_twice. reflexivity. }
    rewrite (bind_assoc_exec t (opr (ONsRange a)) _ _ _ (upd_conn a (fun k => k <| c_closed := true |> <| c_nsmu := RW (Some t) [] |>) (pop_seed w)) []).
    2: { cbn [opr exec ostep]. rewrite conn_upd_eq, H. cbn. reflexivity. }
    cbn [for_all bind]. rewrite (bind_assoc_exec t (opr (ONsUnlock a)) _ _ _ (upd_conn a (fun k => k <| c_closed := true |> <| c_nsmu := rw0 |>) (pop_seed w)) tt).
    2: { cbn [opr exec ostep]. rewrite conn_upd_eq. cbn. rewrite Nat.eqb_refl, upd_conn_twice. reflexivity. }
    rewrite (exec_opb t (OWaitClear a) _ _ (upd_conn a (fun k => k <| c_closed := true |> <| c_nsmu := rw0 |> <| c_waiting := ∅ |>) (pop_seed w)) tt) by (cbn [ostep]; rewrite upd_conn_twice; reflexivity).
    rewrite (exec_opb t (OSetAcked a false) _ _ (upd_conn a (fun k => k <| c_closed := true |> <| c_nsmu := rw0 |> <| c_waiting := ∅ |> <| c_acked := false |>) (pop_seed w)) tt) by (cbn [ostep]; rewrite upd_conn_twice; reflexivity).
    cbn [bind]. rewrite (exec_opb t (OCloseCh a) _ _ (upd_conn a (fun k => k <| c_closed := true |> <| c_nsmu := rw0 |> <| c_waiting := ∅ |> <| c_acked := false |> <| c_closeCh := true |>) (pop_seed w)) tt).
    2: { cbn [ostep]. rewrite conn_upd_eq. cbn. change (conn_of (pop_seed w) a) with (conn_of w a). rewrite H. cbn. rewrite upd_conn_twice. reflexivity. }
    cbn [opr exec ostep]. rewrite upd_conn_twice. reflexivity.
  - split; [reflexivity|]. rewrite conn_upd_eq. split; [reflexivity|]. split; [reflexivity|]. intros c Hc. rewrite conn_upd_ne by exact Hc. reflexivity.
Qed.
Lemma dial_refused t w g e : w_err (c_wait (conn_of w a)) = Some e -> conn_of w a = k3 <| c_got := g |> <| c_wait := Waiter false true (Some e) true |> ->
  exists w', exec t dial_k w = XDone w' tt /\ w_log w' = LDial a (Some e) "" :: w_log w /\ c_closed (conn_of w' a) = true /\ c_sockclosed (conn_of w' a) = true /\
    forall c, c <> a -> conn_of w' c = conn_of w c.
Proof.
  intros H Hk. destruct (close_client t w g) as (w' & E & L & C1 & C2 & O); [rewrite H; exact Hk|].
  exists (w' <| w_log ::= cons (LDial a (Some e) "") |>). split.
  - unfold dial_k. rewrite (bind_assoc_exec t (opr (OWErr a)) _ _ w w (Some e)) by (cbn [opr exec ostep]; rewrite H; reflexivity).
    cbn beta iota. rewrite (bind_assoc_exec _ _ _ _ _ _ _ E). reflexivity.
  - cbn. rewrite L. auto.
Qed.
End handshake.

(*@file Prop_Handshake.v
From Coq Require Import ZArith Ascii.
From stdpp Require Import gmap strings list relations.
From RecordUpdate Require Import RecordUpdate.
From Verif Require Import Go Errors Message World Lang Code Sem Spec_App Spec_Conn Spec_View Spec_Ready Examples HandshakeProofs. @*)
(*@prop C29.  If OnConnect agreed, an undisturbed handshake ends with a Dial that returns no error and the ID the server
    generated, whatever it is; both ends are acknowledged and have the same ID. @*)
Lemma l_C29_accepted_partial : forall G a b ta tb tr w,
  a <> b -> g_client G a = true -> onlyNative G a = false -> w_conns w !! a = None -> expecting G w b None ->
  let id := c_id (conn_of w b) in
  exists w', handshake G a b ta tb tr w (TextMessage, String "A" id) true w' /\
    w_log w' = LDial a None id :: LAcked a :: LAcked b :: w_log w /\
    c_id (conn_of w' a) = id /\ c_id (conn_of w' b) = id /\ c_acked (conn_of w' a) = true /\ c_acked (conn_of w' b) = true /\
    c_closed (conn_of w' a) = false /\ c_closed (conn_of w' b) = false.
Proof.
  intros G a b ta tb tr w Hab Ha Hna Hw X id.
  destruct (dial_blocks G a Ha Hna ta w Hw) as (k & E1 & Hk).
  assert (Eb : conn_of (wa3 a w) b = conn_of w b) by (unfold conn_of; rewrite other_wa3 by congruence; reflexivity).
  assert (X' : expecting G (wa3 a w) b None).
  { destruct X as [X1 X2 [X3 X3'] X4 X5 X6 X7 X8 X9]. constructor; rewrite ?Eb; auto. split; [rewrite other_wa3, Eb by congruence; exact X3|].
    rewrite Eb. exact X3'. }
  destruct (server_accepts G b tb _ X') as [E2 O2]. rewrite Eb in E2, O2. fold id in E2, O2.
  set (w2 := send_world b (TextMessage, String "A" id) (wb2 b (wa3 a w))) in *.
  assert (L2 : w_conns w2 !! a = Some k3).
  { unfold w2, send_world, wb2. rewrite upd_conn_ne by exact Hab. rewrite conns_pop, upd_conn_ne by exact Hab. rewrite conns_log.
    unfold wb1. rewrite !upd_conn_ne by exact Hab. unfold wa3, upd_conn. cbn. rewrite lookup_insert. f_equal. rewrite conn_wa2. reflexivity. }
  assert (K2 : conn_of w2 a = k3) by (unfold conn_of; rewrite L2; reflexivity).
  pose proof (client_accepted G a tr w2 id L2) as E3.
  assert (K3 : conn_of (wd a id w2) a = k3 <| c_got := [(TextMessage, String "A" id)] |> <| c_id := id |> <| c_acked := true |> <| c_wait := Waiter false true None true |>).
  { unfold wd, open_gate. rewrite conn_upd_eq, conn_upd_eq.
    rewrite conn_log.
    rewrite conn_upd_eq, conn_wc1 by exact K2. reflexivity. }
  exists (wd a id w2 <| w_log ::= cons (LDial a None id) |>). split.
  - exists k, (wa3 a w), (TextMessage, "M"), w2, (wd a id w2). split; [exact E1|]. split; [rewrite conn_wa3; reflexivity|]. split; [exact E2|].
    split; [exact O2|]. split; [exact E3|]. rewrite Hk by (rewrite K3; reflexivity). rewrite (dial_accepted G a) by (rewrite K3; reflexivity). rewrite K3. reflexivity.
  - split.
    { rewrite log_log. unfold wd, open_gate. rewrite !log_upd, log_log, log_upd. unfold wc1. rewrite !log_upd. unfold w2, send_world. rewrite log_upd. unfold wb2.
      rewrite log_pop, log_upd, log_log. unfold wb1, wa3, wa2. rewrite !log_upd. reflexivity. }
    rewrite !conn_log, K3.
    assert (K4 : conn_of (wd a id w2) b = conn_of w2 b).
    { unfold wd, open_gate. rewrite !conn_upd_ne by congruence. rewrite conn_log. rewrite conn_upd_ne by congruence. unfold wc1. rewrite !conn_upd_ne by congruence. reflexivity. }
    rewrite K4. assert (K5 : conn_of w2 b = conn_of w b <| c_got ::= fun l => l ++ [(TextMessage, "M")] |> <| c_acked := true |> <| c_out ::= fun l => l ++ [(TextMessage, String "A" id)] |>).
    { unfold w2. rewrite send_conn. unfold wb2. rewrite conn_pop, conn_upd_eq, conn_log, conn_wb1 by (rewrite Eb; apply (ex_in _ _ _ _ X)). rewrite Eb. reflexivity. }
    rewrite K5. repeat split. apply (q_open _ _ _ (ex_quiet _ _ _ _ X)).
Qed.
(*@prop C29.  If OnConnect refused with an error, an undisturbed handshake ends with a Dial that returns an error with the
    same text, whatever it is; the client side is closed, the server side is not acknowledged and its reader ends. @*)
Lemma l_C29_refused_partial : forall G a b ta tb tr w e text,
  a <> b -> g_client G a = true -> onlyNative G a = false -> w_conns w !! a = None -> expecting G w b (Some e) ->
  err_text e = Ok text ->
  exists w' e', handshake G a b ta tb tr w (TextMessage, String "H" text) false w' /\
    w_log w' = LDial a (Some e') "" :: w_log w /\ err_text e' = Ok text /\
    c_closed (conn_of w' a) = true /\ c_sockclosed (conn_of w' a) = true /\ c_acked (conn_of w' b) = false.
Proof.
  intros G a b ta tb tr w e text Hab Ha Hna Hw X Ht.
  destruct (dial_blocks G a Ha Hna ta w Hw) as (k & E1 & Hk).
  assert (Eb : conn_of (wa3 a w) b = conn_of w b) by (unfold conn_of; rewrite other_wa3 by congruence; reflexivity).
  assert (X' : expecting G (wa3 a w) b (Some e)).
  { destruct X as [X1 X2 [X3 X3'] X4 X5 X6 X7 X8 X9]. constructor; rewrite ?Eb; auto. split; [rewrite other_wa3, Eb by congruence; exact X3|].
    rewrite Eb. exact X3'. }
  destruct (server_refuses G b tb _ e text X' Ht) as [E2 O2]. rewrite Eb in O2.
  set (w2 := send_world b (TextMessage, String "H" text) (wb1 b (wa3 a w))) in *.
  assert (L2 : w_conns w2 !! a = Some k3).
  { unfold w2, send_world, wb1. rewrite !upd_conn_ne by exact Hab. unfold wa3, upd_conn. cbn. rewrite lookup_insert. f_equal. rewrite conn_wa2. reflexivity. }
  assert (K2 : conn_of w2 a = k3) by (unfold conn_of; rewrite L2; reflexivity).
  pose proof (client_refused G a tr w2 text L2) as E3. set (w3 := open_gate a _ _) in E3.
  assert (K3 : conn_of w3 a = k3 <| c_got := [(TextMessage, String "H" text)] |> <| c_wait := Waiter false true (Some (ENew text)) true |>).
  { unfold w3, open_gate. rewrite conn_upd_eq, conn_wc1 by exact K2. reflexivity. }
  destruct (dial_refused G a Ha Hna ta w3 [(TextMessage, String "H" text)] (ENew text)) as (w4 & E4 & L4 & C1 & C2 & O4); [rewrite K3; reflexivity|exact K3|].
  exists w4, (ENew text). split.
  - exists k, (wa3 a w), (TextMessage, "M"), w2, w3. split; [exact E1|]. split; [rewrite conn_wa3; reflexivity|]. split; [exact E2|].
    split; [exact O2|]. split; [exact E3|]. rewrite Hk by (rewrite K3; reflexivity). exact E4.
  - split; [exact L4|]. split; [reflexivity|]. split; [exact C1|]. split; [exact C2|]. rewrite O4 by congruence. unfold w3, open_gate, wc1. rewrite !conn_upd_ne by congruence.
    unfold w2. rewrite send_conn. cbn. rewrite conn_wb1 by (rewrite Eb; apply (ex_in _ _ _ _ X)). rewrite Eb. apply (ex_acked _ _ _ _ X).
Qed.
(*@prop C29, C31.  Opened sequentially, the gate keeps its first result: whatever it is opened with afterwards, a waiter that comes
    then gets the first one, at once. @*)
Lemma l_C31_first_partial : forall c t w e es,
  c_wait (conn_of w c) = waiter0 ->
  exists w', exec t (bind (unwait c e) (fun _ => bind (for_all es (unwait c)) (fun _ => wait c))) w = XDone w' e.
Proof.
  intros c t w e es H. set (w1 := upd_conn c (fun k => k <| c_wait := Waiter false true e false |>) w).
  assert (E : exec t (unwait c e) w = XDone w1 tt).
  { unfold unwait. cbn [bind opr exec ostep]. rewrite H. cbn [bind opr exec ostep w_ready waiter0]. rewrite upd_conn_twice. cbn [bind opr exec ostep]. rewrite conn_upd_eq. cbn. rewrite H. cbn.
    f_equal. unfold w1. apply upd_conn_ext. destruct (conn_of w c). cbn in *. subst. reflexivity. }
  rewrite (exec_bind_done _ _ _ _ _ _ E).
  assert (W1 : c_wait (conn_of w1 c) = Waiter false true e false) by (unfold w1; rewrite conn_upd_eq; reflexivity).
  assert (E2 : exec t (for_all es (unwait c)) w1 = XDone w1 tt).
  { induction es as [|e' es IH]; [reflexivity|]. cbn [for_all]. rewrite (exec_bind_done _ _ _ _ w1 tt); [exact IH|]. apply unwait_exec. rewrite W1. reflexivity. }
  rewrite (exec_bind_done _ _ _ _ _ _ E2). exists w1. unfold wait. cbn [bind opr exec ostep]. rewrite W1. cbn [bind opr exec ostep w_ready]. rewrite W1. reflexivity.
Qed.

(** ** A server that refuses everybody, one that refuses after writing *)
Definition go_away : gerr := EUser 7 "go away".
Definition strictG (talk : bool) : cfg := {|
  g_client := fun c => Nat.eqb c 2;
  g_namespaces := fun _ => lift exA;
  g_connid := fun _ => "id-1";
  g_uuid := "u";
  g_ptr := fun c => "0x1";
  g_known := knownErrors0;
  g_exch := None;
  g_sync := true;
  g_firealways := false;
  g_onconnect := Some (fun c => if talk then bind (call (AWrite c (set_body "hi" (set_event "hello" (set_namespace "chat" no_message))))) (fun _ => Ret (Some go_away))
                                else Ret (Some go_away));
  g_ondisconnect := None;
  g_do := fun _ _ => Ret tt;
  g_user := fun _ => Ret tt |}.
Definition upgrade1 : list cmd :=
  [Go 0; Act1 (Env (EGo (TUpgrade 1))); Go 1; Go 0; Go 1; Act1 Start; Go 2].
(** Connection 1 was refused; the other side has not begun the handshake. *)
Definition strictS (talk : bool) : sys := play (strictG talk) upgrade1 (init (strictG talk)).
Definition acceptG : cfg := {|
  g_client := fun c => Nat.eqb c 2;
  g_namespaces := fun _ => lift exA;
  g_connid := fun _ => "id;1";
  g_uuid := "u";
  g_ptr := fun c => "0x1";
  g_known := knownErrors0;
  g_exch := None;
  g_sync := true;
  g_firealways := false;
  g_onconnect := Some (fun c => Ret None);
  g_ondisconnect := None;
  g_do := fun _ _ => Ret tt;
  g_user := fun _ => Ret tt |}.
Definition acceptS : sys := play acceptG upgrade1 (init acceptG).
Lemma strictG_app b : user_app (fun _ => True) (strictG b).
Proof.
  constructor; try discriminate; try (intros; exact Logic.I).
  - intros. eapply exA_user; eassumption.
  - intros f c [= <-]. destruct b; cbn; auto.
Qed.
(** The refused side's peer begins the handshake. *)
Definition talkS : sys := play (strictG true) (upgrade1 ++ [Act1 (Env (EDeliver 1 TextMessage "M")); Go 2]) (init (strictG true)).
Lemma talkS_reachable : reachable (strictG true) talkS.
Proof. apply play_reachable. Qed.
(** The refused side's peer pretends to be a server. *)
Definition bossS : sys := play (strictG false)
  [Go 0; Act1 (Env (EGo (TUpgrade 1))); Go 1; Go 0; Act1 (Step 1); Act1 (Step 1); Act1 Start;
   Act1 (Env (EDeliver 1 TextMessage "Aboss")); Go 2; Go 1;
   Act1 (Env (EDeliver 1 TextMessage "$1;chat;;_OnNamespaceConnect;0;0;")); Go 2] (init (strictG false)).
Lemma bossS_reachable : reachable (strictG false) bossS.
Proof. apply play_reachable. Qed.
(** A client whose peer answers "M" with "M". *)
Definition echoS : sys := play acceptG
  (Act1 (Env (EGo (TDial 2))) :: repeat (Act1 (Step 1)) 3 ++ [Act1 Start; Act1 (Env (EDeliver 2 TextMessage "M")); Go 2; Go 1]) (init acceptG).
Lemma echoS_reachable : reachable acceptG echoS.
Proof. apply play_reachable. Qed.
Lemma strictS_reachable b : reachable (strictG b) (strictS b).
Proof. apply play_reachable. Qed.
Lemma acceptS_reachable : reachable acceptG acceptS.
Proof. apply play_reachable. Qed.
Definition boss_fire : event := LFire (NsRef 1 "chat" 1) OnNamespaceConnected
  (set_event OnNamespaceConnected (set_namespace "chat" (set_wait "$1" no_message))).
Lemma expecting_ok G w b v : g_client G b = false -> onlyNative G b = false -> quietb G w b = true ->
  w_err (c_wait (conn_of w b)) = v -> c_acked (conn_of w b) = false -> c_qtext (conn_of w b) = [] -> c_qbin (conn_of w b) = [] ->
  c_in (conn_of w b) = [] -> c_inend (conn_of w b) = None -> expecting G w b v.
Proof. intros. constructor; auto. apply quietb_ok. assumption. Qed.
Lemma strict_onconnect : g_onconnect (strictG false) = Some (fun _ => Ret (Some go_away)).
Proof. reflexivity. Qed.
Lemma acceptG_app : user_app (fun _ => True) acceptG.
Proof. constructor; try discriminate; try (intros; exact Logic.I); [intros; eapply exA_user; eassumption|intros f c [= <-]; exact Logic.I]. Qed.
#[local] Opaque strictG acceptG talkS bossS echoS strictS acceptS.
(*@prop C29.  An OnConnect that writes and then fails: Upgrade has returned the error, and afterwards the connection still accepts
    the handshake of its peer and answers with its ID. @*)
Lemma l_C29_talk_refuted : exists G c e s l2 l1,
  user_app (fun _ => True) G /\ g_client G c = false /\ reachable G s /\
  w_log (s_w s) = l2 ++ LAcked c :: l1 /\ LUpgraded c (Some e) ∈ l1 /\
  c_out (conn_of (s_w s) c) = [(TextMessage, String "A" (g_connid G c))] /\ c_closed (conn_of (s_w s) c) = false.
Proof.
  exists (strictG true), 1, go_away, talkS, [], (tl (w_log (s_w talkS))). split; [apply strictG_app|]. split; [vm_compute; reflexivity|]. split; [apply talkS_reachable|].
  split; [vm_compute; reflexivity|]. split; [|vm_compute; auto].
  assert (E : nth_error (tl (w_log (s_w talkS))) 1 = Some (LUpgraded 1 (Some go_away))) by (vm_compute; reflexivity).
  apply nth_error_In in E. apply elem_of_list_In. exact E.
Qed.
(*@prop C29.  A client whose peer is not a neffos server: if it answers the "M" of the handshake with "M", and the reader handles
    it before Dial waits, Dial returns no error, although nobody accepted the connection, and without an ID. @*)
Lemma l_C29_echo_refuted : exists G c s,
  user_app (fun _ => True) G /\ g_client G c = true /\ onlyNative G c = false /\ reachable G s /\ w_log (s_w s) = [LDial c None ""] /\
  c_acked (conn_of (s_w s) c) = false.
Proof.
  exists acceptG, 2, echoS. split; [apply acceptG_app|]. split; [vm_compute; reflexivity|]. split; [vm_compute; reflexivity|]. split; [apply echoS_reachable|]. vm_compute. auto.
Qed.
(*@prop C30.  The code violates C30 on a server: OnConnect refuses everybody and Upgrade has returned the error, but a peer that
    sends the acknowledgment "A"id itself, as only a server should, ends the handshake: callbacks run for its messages,
    the connection stays open, and it has the ID its peer chose. @*)
Lemma l_C30_refuted : exists G c e id s n key m l2 l1,
  user_app (fun _ => True) G /\ g_client G c = false /\ onlyNative G c = false /\ reachable G s /\
  g_onconnect G = Some (fun _ => Ret (Some e)) /\ n_conn n = c /\ from_remote m /\
  w_log (s_w s) = l2 ++ LFire n key m :: l1 /\ LUpgraded c (Some e) ∈ l1 /\
  c_closed (conn_of (s_w s) c) = false /\ c_id (conn_of (s_w s) c) = id /\ id <> g_connid G c.
Proof.
  exists (strictG false), 1, go_away, "boss", bossS, (NsRef 1 "chat" 1), OnNamespaceConnected,
    (set_event OnNamespaceConnected (set_namespace "chat" (set_wait "$1" no_message))), [], (tl (w_log (s_w bossS))).
  split; [apply strictG_app|]. split; [vm_compute; reflexivity|]. split; [vm_compute; reflexivity|]. split; [apply bossS_reachable|].
  split; [apply strict_onconnect|]. split; [reflexivity|]. split; [split; [reflexivity|]; intros [H _]; discriminate H|].
  split; [vm_compute; reflexivity|]. split; [|vm_compute; split; [reflexivity|split; [reflexivity|discriminate]]].
  assert (E : nth_error (tl (w_log (s_w bossS))) 2 = Some (LUpgraded 1 (Some go_away))) by (vm_compute; reflexivity).
  apply nth_error_In in E. apply elem_of_list_In. exact E.
Qed.
(*@exl C29. Both hypotheses hold in reachable states: a server that accepts (with an ID that contains a separator) and one that refuses. @*)
Lemma x_C29_example :
  reachable acceptG acceptS /\ expecting acceptG (s_w acceptS) 1 None /\ w_conns (s_w acceptS) !! 2 = None /\ c_id (conn_of (s_w acceptS) 1) = "id;1" /\
  reachable (strictG false) (strictS false) /\ expecting (strictG false) (s_w (strictS false)) 1 (Some go_away) /\
  w_conns (s_w (strictS false)) !! 2 = None /\ err_text go_away = Ok "go away" /\
  g_client acceptG 2 = true /\ onlyNative acceptG 2 = false.
Proof.
  split; [apply acceptS_reachable|]. split; [apply expecting_ok; vm_compute; reflexivity|]. split; [vm_compute; reflexivity|]. split; [vm_compute; reflexivity|].
  split; [apply strictS_reachable|]. split; [apply expecting_ok; vm_compute; reflexivity|]. vm_compute. auto.
Qed.
(*@exl C31. The gate of a new connection is closed. @*)
Lemma x_C31_first_example : c_wait (conn_of world0 1) = waiter0.
Proof. reflexivity. Qed.
