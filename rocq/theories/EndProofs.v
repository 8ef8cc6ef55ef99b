(** * EndProofs.v : how a connection ends (C63) and when Dial succeeds (C29). *)
(*@file Prop_End.v
From Coq Require Import ZArith Ascii.
From stdpp Require Import gmap strings list relations.
From RecordUpdate Require Import RecordUpdate.
From Verif Require Import Go Errors Message World Lang Code Sem Spec_App Spec_Conn Spec_View Spec_Ident Examples Scenes EndProofs. @*)
From Coq Require Import ZArith Ascii.
From stdpp Require Import gmap strings list relations.
From RecordUpdate Require Import RecordUpdate.
From Verif Require Import Go Errors Message World Lang Code Sem Spec_App Spec_Conn Spec_View Spec_Ident Examples Scenes StuckProofs Dial End.

Lemma stays_gone G c s s' : steps G s s' -> gone c (s_w s) -> gone c (s_w s').
Proof.
  intros Hst Hg. induction Hst as [|s1 s2 s3 [a Ha] _ IH]; [exact Hg|]. apply IH. clear IH s3.
  unfold step in Ha. destruct (s_crash s1) eqn:Ec; [discriminate Ha|]. destruct a as [t| |e].
  - destruct (s_th s1 !! t) as [p|]; [|discriminate Ha]. destruct (tstep G t (s_w s1) p) as [w' p'|w'| |why] eqn:E; try discriminate Ha; injection Ha as <-; cbn; [| |exact Hg].
    + destruct p as [[x|]|o k|a k|why]; cbn in E; try discriminate E; [injection E as <- _; exact Hg| |].
      * destruct (ostep t (s_w s1) o) eqn:Eo; try discriminate E. injection E as <- _. eapply gone_op; eassumption.
      * destruct (valid_api (s_w s1) a); [|discriminate E]. injection E as <- _. exact Hg.
    + destruct p as [[x|]|o k|a k|why]; cbn in E; try discriminate E; [injection E as <-; exact Hg| |].
      * destruct (ostep t (s_w s1) o) eqn:Eo; discriminate E.
      * destruct (valid_api (s_w s1) a); discriminate E.
  - destruct (w_spawn (s_w s1)); [discriminate Ha|]. injection Ha as <-. exact Hg.
  - assert (He : forall e', (if env_ok e' then Some (Sys (env_step e' (s_w s1)) (s_th s1) (s_next s1) None) else None) = Some s2 -> gone c (s_w s2)).
    { intros e' H. destruct (env_ok e'); [|discriminate H]. injection H as <-. apply gone_env, Hg. }
    destruct e as [| | | | | | |x]; try (match type of Ha with context [env_ok ?e0] => exact (He e0 Ha) end). destruct (startable G x); [|discriminate Ha]. injection Ha as <-. exact Hg.
Qed.

(*@prop C63.  In every schedule of any application, whatever the other side sends and whatever fails: if a goroutine reads
    (or is about to read) a connection, then it goes on to do so as long as the connection is open.  So when it has ended,
    for whatever reason, the connection is closed. @*)
Lemma l_C63_reader : forall G c t s s',
  reachable G s -> (s_th s !! t = Some (code G (TReader c)) \/ s_th s !! t = Some (code G (TReaderLoop c))) -> steps G s s' ->
  c_closed (conn_of (s_w s') c) = false -> is_Some (s_th s' !! t).
Proof.
  intros G c t s s' Hr Ht Hst Hc. destruct (s_th s' !! t) eqn:E; [eauto|].
  rewrite (reader_ends G c t s s' Ht (th_fresh G s Hr) Hst E) in Hc. discriminate Hc.
Qed.
(*@prop C63.  In every schedule of any application: if Dial returned an error although there was a connection, because the
    acknowledgment could not be written or the server refused the client or the connection broke, then this connection is closed. @*)
Lemma l_C63_dial_error : forall G c s e i,
  user_app (fun _ => True) G -> reachable G s -> LDial c (Some e) i ∈ w_log (s_w s) -> c_closed (conn_of (s_w s) c) = true.
Proof. exact dial_error_closed. Qed.
(*@prop C63.  In every schedule of any application a closed connection is closed for ever. @*)
Lemma l_C63_for_ever : forall G c s s',
  steps G s s' -> c_closed (conn_of (s_w s) c) = true -> c_closed (conn_of (s_w s') c) = true.
Proof. exact stays_gone. Qed.
(*@prop C29 (missing: a frame that starts with "M" may take the place of the acceptance, see C29_echo_refuted).  In every
    schedule of any application, whatever the other side sends: if Dial of a client (that does not only exchange native
    messages) returned without an error, with the ID i, then before it returned the handshake was completed, by a frame
    "A" followed by i that the server sent; unless it sent a frame that starts with "M". @*)
Lemma l_C29_dial_partial : forall G c s before i after,
  user_app (fun _ => True) G -> g_client G c = true -> onlyNative G c = false -> reachable G s ->
  w_log (s_w s) = after ++ LDial c None i :: before ->
  (LAcked c ∈ before /\ told c i (s_w s)) \/ exists typ rest, In (typ, String "M" rest) (c_got (conn_of (s_w s) c)).
Proof. intros G c s l1 i l2 HA Hc Hn Hr. exact (dial_main G c HA s l2 i l1 Hc Hn Hr). Qed.

(*@exl C29. A Dial that succeeded, with the ID that the server sent. @*)
Lemma x_C29_dial_example :
  user_app (fun _ => True) exG /\ g_client exG 2 = true /\ onlyNative exG 2 = false /\
  let s := play exG [Go 0; Act1 (Env (EGo (TDial 2))); Go 1; Act1 Start; Act1 (Env (EDeliver 2 TextMessage "Aid-1")); Go 2; Go 1] (init exG) in
  reachable exG s /\ (exists after before, w_log (s_w s) = after ++ LDial 2 None "id-1" :: before) /\
  forall typ rest, ~ In (typ, String "M" rest) (c_got (conn_of (s_w s) 2)).
Proof.
  split; [constructor; try discriminate; try (intros; exact Logic.I); intros; eapply exA_user; eassumption|]. split; [reflexivity|]. split; [reflexivity|]. cbn zeta.
  match goal with |- context [play ?G ?l ?s] => set (S0 := play G l s) end. split; [apply play_reachable|].
  assert (Hg : c_got (conn_of (s_w S0) 2) = [(TextMessage, "Aid-1")]) by (vm_compute; reflexivity).
  split; [|intros typ rest; rewrite Hg; intros [H|[]]; discriminate H].
  assert (Hl : w_log (s_w S0) = [LDial 2 None "id-1"] ++ tl (w_log (s_w S0))) by (vm_compute; reflexivity). exists [], (tl (w_log (s_w S0))). exact Hl.
Qed.
(*@exl C63. The reader of a client waits for frames, then the connection breaks: Dial fails, the reader has ended and the connection is closed. @*)
Lemma x_C63_example :
  let s := play exG [Go 0; Act1 (Env (EGo (TDial 2))); Go 1; Act1 Start] (init exG) in
  let s' := play exG [Act1 (Env (EReadEnd 2 EEOF)); Go 2; Go 1] s in
  user_app (fun _ => True) exG /\ reachable exG s /\ steps exG s s' /\ s_th s !! 2 = Some (code exG (TReader 2)) /\ c_closed (conn_of (s_w s) 2) = false /\
  s_th s' !! 2 = None /\ c_closed (conn_of (s_w s') 2) = true /\ LDial 2 (Some EEOF) "" ∈ w_log (s_w s').
Proof.
  cbv zeta. split; [constructor; try discriminate; try (intros; exact Logic.I); intros; eapply exA_user; eassumption|]. split; [apply play_reachable|]. split; [apply play_steps|].
  split; [vm_compute; reflexivity|]. split; [vm_compute; reflexivity|]. split; [vm_compute; reflexivity|]. split; [vm_compute; reflexivity|].
  match goal with |- _ ∈ ?l => assert (Hl : l = LDial 2 (Some EEOF) "" :: tl l) by (vm_compute; reflexivity); rewrite Hl; left end.
Qed.
