(** * LetterProofs.v : texts that begin like the handshake (C78). *)
From Coq Require Import ZArith Ascii.
From stdpp Require Import gmap strings list relations.
From RecordUpdate Require Import RecordUpdate.
From Verif Require Import Go Errors Message World Lang Code Sem ExecProofs Spec_App Spec_Ready Spec_Conn Spec_View SeqProofs ConnProofs LocalProofs CloseProofs Examples ReadyProofs.

(*@file Prop_Letter.v
From Coq Require Import ZArith Ascii.
From stdpp Require Import gmap strings list relations.
From Verif Require Import Go Errors Message World Lang Code Sem Spec_App Spec_Ready Spec_Conn Spec_View Examples ReadyProofs LetterProofs. @*)

(*@prop C78, as far as it holds.  Frames that arrive before the handshake are kept, each kind in its order and byte for byte, if none of them is
    empty or starts with one of the letters M, A and H.  (What becomes of them with the handshake is C30.) @*)
Lemma l_C78_kept_partial : forall G c t w fs rest,
  calm G w c -> c_acked (conn_of w c) = false -> c_in (conn_of w c) = fs ++ rest -> Forall (fun f => early (snd f)) fs ->
  exists w1, exec t (reads G c (length fs)) w = XDone w1 true /\ view w1 c = view w c /\ c_acked (conn_of w1 c) = false /\ c_in (conn_of w1 c) = rest /\
    c_qtext (conn_of w1 c) = c_qtext (conn_of w c) ++ map snd (texts fs) /\
    c_qbin (conn_of w1 c) = c_qbin (conn_of w c) ++ map snd (binaries fs).
Proof.
  intros G c t w fs rest C Ha Hin HF. destruct (early_reads G c t fs w rest C Ha Hin HF) as (w1 & E1 & C1 & V1 & A1 & I1 & W1 & D1 & U1 & T1 & B1).
  exists w1. auto 8.
Qed.

(*@prop C78 is violated.  A text that begins with H, sent to a server before the handshake, is taken for a refusal, which only a client can
    get: the reader stops and closes the connection, no callback is called for the text and nothing is answered. @*)
Lemma l_C78_closed_refuted : forall G c A t w typ text rest,
  setting G c A -> calm G w c -> g_client G c = false -> c_acked (conn_of w c) = false -> c_closeCh (conn_of w c) = false ->
  cs_rooms (view w c) = ∅ -> c_in (conn_of w c) = (typ, String "H" text) :: rest ->
  exists w', exec t (code G (TReaderLoop c)) w = XDone w' None /\ c_closed (conn_of w' c) = true /\ c_sockclosed (conn_of w' c) = true /\
    cs_fired (view w' c) = cs_fired (view w c) /\ cs_sent (view w' c) = cs_sent (view w c).
Proof.
  intros G c A t w typ text rest St C Hcl Ha Hch Hrooms Hin.
  set (w2 := upd_conn c (fun k => k <| c_in ::= @tl (mtype * string) |>) w).
  assert (C2 : calm G w2 c) by (apply tame_calm; [tame|exact C]).
  assert (V2 : view w2 c = view w c) by (apply (tame_view G); tame).
  assert (Es : exec t (reader_step G c) w = XDone w2 false).
  { unfold reader_step. rewrite (exec_opb t (ORead c) _ _ w2 (inr (typ, String "H" text))).
    2: { cbn [ostep]. rewrite (q_sock _ _ _ (proj1 C)), Hin. reflexivity. }
    cbn [is_empty]. rewrite (exec_opb t (OIsAcked c) _ _ w2 false).
    2: { cbn [ostep]. unfold w2. rewrite conn_upd_eq. cbn. rewrite Ha. reflexivity. }
    cbn [negb]. unfold handleACK. cbn [Ascii.eqb ackBinary ackIDBinary ackNotOKBinary Bool.eqb].
    assert (Eu : exec t (unwait c (Some (ENew text))) w2 = XDone w2 tt).
    { apply unwait_exec. apply (q_ready _ _ _ (proj1 C2)). exact Hcl. }
    rewrite (exec_bind_done _ _ _ _ _ _ Eu). reflexivity. }
  assert (Hch2 : c_closeCh (conn_of w2 c) = false) by (unfold w2; rewrite conn_upd_eq; exact Hch).
  destruct (l_C21_close G c A t w2 St (proj1 C2) Hch2) as (w' & orders & EC & Hp & _ & _ & Hs & _ & Hf & Hcc & Hsc & _).
  exists w'. split.
  { cbn [code]. rewrite (exec_bind_done _ _ _ _ _ _ Es). cbv iota. rewrite (exec_bind_done _ _ _ _ _ _ EC). reflexivity. }
  split; [exact Hcc|]. split; [exact Hsc|]. rewrite V2, Hrooms, dom_empty_L, elements_empty in Hp.
  apply Permutation_sym, Permutation_nil, map_eq_nil in Hp. subst orders. rewrite Hf, Hs, V2. auto.
Qed.

(*@prop C78 is violated too by a text that begins with A: it is taken for the acknowledgment, which only a client can get.  The rest of the text
    becomes the ID of the connection, and the text is lost: it is not kept, no callback is called for it and nothing is answered. @*)
Lemma l_C78_taken_refuted : forall G c t w typ text rest,
  calm G w c -> g_client G c = false -> c_acked (conn_of w c) = false -> c_in (conn_of w c) = (typ, String "A" text) :: rest ->
  exists w', exec t (code G (TReaderLoop c)) w = XDone w' (Some (TReaderLoop c)) /\ c_id (conn_of w' c) = text /\ c_acked (conn_of w' c) = true /\
    view w' c = view w c /\ c_in (conn_of w' c) = rest /\ c_qtext (conn_of w' c) = c_qtext (conn_of w c) /\ c_qbin (conn_of w' c) = c_qbin (conn_of w c).
Proof.
  intros G c t w typ text rest C Hcl Ha Hin.
  set (w2 := upd_conn c (fun k => k <| c_in ::= @tl (mtype * string) |>) w).
  set (w3 := upd_conn c (fun k => k <| c_acked := true |>) (upd_conn c (fun k => k <| c_id := text |>) w2 <| w_log ::= cons (LAcked c) |>)).
  assert (C3 : calm G w3 c) by (apply tame_calm; [tame|]; apply log_calm, tame_calm; [tame|]; apply tame_calm; [tame|exact C]).
  assert (E3 : conn_of w3 c = conn_of w c <| c_in ::= @tl (mtype * string) |> <| c_id := text |> <| c_acked := true |>).
  { unfold w3. rewrite conn_upd_eq. change (conn_of (upd_conn c (fun k => k <| c_id := text |>) w2 <| w_log ::= cons (LAcked c) |>) c) with (conn_of (upd_conn c (fun k => k <| c_id := text |>) w2) c).
    rewrite conn_upd_eq. unfold w2. rewrite conn_upd_eq. reflexivity. }
  assert (Es : exec t (reader_step G c) w = XDone w3 true).
  { unfold reader_step. rewrite (exec_opb t (ORead c) _ _ w2 (inr (typ, String "A" text))).
    2: { cbn [ostep]. rewrite (q_sock _ _ _ (proj1 C)), Hin. reflexivity. }
    cbn [is_empty]. rewrite (exec_opb t (OIsAcked c) _ _ w2 false).
    2: { cbn [ostep]. unfold w2. rewrite conn_upd_eq. cbn. rewrite Ha. reflexivity. }
    cbn [negb]. unfold handleACK. cbn [Ascii.eqb ackBinary ackIDBinary Bool.eqb]. cbn [bind opr exec ostep]. fold w3.
    assert (Eu : exec t (unwait c None) w3 = XDone w3 tt).
    { apply unwait_exec. apply (q_ready _ _ _ (proj1 C3)). exact Hcl. }
    rewrite (exec_bind_done _ _ _ _ _ _ Eu). reflexivity. }
  exists w3. split.
  { cbn [code]. rewrite (exec_bind_done _ _ _ _ _ _ Es). reflexivity. }
  rewrite E3. cbn. split; [reflexivity|]. split; [reflexivity|]. split.
  { unfold w3. rewrite (tame_view G) by tame. change (view (upd_conn c (fun k => k <| c_id := text |>) w2) c = view w c). rewrite (tame_view G) by tame. apply (tame_view G). tame. }
  rewrite Hin. auto.
Qed.

(** Connection 1 of the example of Examples.v is accepted and has been sent a text before the handshake. *)
Definition letterS (text : string) : sys := play exG
  [Go 0; Act1 (Env (EGo (TUpgrade 1))); Go 1; Act1 Start; Act1 Start; Go 0; Go 2; Go 3; Go 1; Act1 (Env (EDeliver 1 TextMessage text))] (init exG).
Lemma letter_reachable text : reachable exG (letterS text).
Proof. unfold letterS. apply play_reachable. Qed.
(*@exl C78.  "Hello, is anyone there?" and "Anna here" are such texts, and "hello" is one that is kept. @*)
Lemma x_C78_example : let w1 := s_w (letterS "Hello, is anyone there?") in let w2 := s_w (letterS "Anna here") in let w3 := s_w (letterS "hello") in
  reachable exG (letterS "Hello, is anyone there?") /\ reachable exG (letterS "Anna here") /\ reachable exG (letterS "hello") /\
  setting exG 1 exA /\ g_client exG 1 = false /\ onlyNative exG 1 = false /\
  calm exG w1 1 /\ c_acked (conn_of w1 1) = false /\ c_closeCh (conn_of w1 1) = false /\ cs_rooms (view w1 1) = ∅ /\ c_in (conn_of w1 1) = [(TextMessage, String "H" "ello, is anyone there?")] /\
  calm exG w2 1 /\ c_acked (conn_of w2 1) = false /\ c_in (conn_of w2 1) = [(TextMessage, String "A" "nna here")] /\
  calm exG w3 1 /\ c_acked (conn_of w3 1) = false /\ c_in (conn_of w3 1) = [(TextMessage, "hello")] /\ early "hello".
Proof.
  cbv zeta. do 3 (split; [apply letter_reachable|]). split; [apply ex_setting|]. do 2 (split; [vm_compute; reflexivity|]).
  split; [split; [apply quietb_ok; vm_compute; reflexivity|apply idleb_ok; vm_compute; reflexivity]|]. do 2 (split; [vm_compute; reflexivity|]).
  split; [apply map_to_list_empty_iff; vm_compute; reflexivity|].
  split; [vm_compute; reflexivity|].
  split; [split; [apply quietb_ok; vm_compute; reflexivity|apply idleb_ok; vm_compute; reflexivity]|]. do 2 (split; [vm_compute; reflexivity|]).
  split; [split; [apply quietb_ok; vm_compute; reflexivity|apply idleb_ok; vm_compute; reflexivity]|]. do 2 (split; [vm_compute; reflexivity|]).
  repeat split; discriminate.
Qed.
