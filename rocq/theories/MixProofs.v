(** * MixProofs.v : a callback spoils an Ask of another goroutine (C72). *)
From Coq Require Import ZArith.
From stdpp Require Import gmap strings list relations.
From RecordUpdate Require Import RecordUpdate.
From Verif Require Import Go Errors Message World Lang Code Sem ExecProofs Spec_App Spec_Mix CarelessProofs IdentProofs Examples.

(*@file Prop_Mix.v
From Coq Require Import ZArith.
From stdpp Require Import gmap strings list relations.
From Verif Require Import Go Errors Message World Lang Code Sem Spec_App Spec_Mix CarelessProofs Examples MixProofs. @*)

Definition mixA : gmap string (gmap string handler) :=
  {["chat" := {["news" := ((fun _ _ => Ret None) : handler)]}]}.
Definition question : message := set_namespace "chat" (set_event "time" (set_body "what time is it?" no_message)).
Definition mixG : cfg := alone mixA (Call (AAsk 1 None question) (fun _ => Ret tt)).
(** Namespace chat is connected; an event arrives, and when its callback is about to run
    the goroutine 4 of the application asks, and another event arrives. *)
Definition mixR : list cmd := handshake1 ++ [Act1 (Env (EDeliver 1 TextMessage "$1;chat;;_OnNamespaceConnect;0;0;")); Go 3;
  Act1 (Env (EDeliver 1 TextMessage ";chat;;news;0;0;first")); Act1 (Step 3); Act1 (Step 3); Act1 (Step 3);
  Act1 (Env (EGo (TUser 0))); Go 4; Act1 (Env (EDeliver 1 TextMessage ";chat;;news;0;0;second")); Act1 Start; Go 5; Go 4; Go 3].
Definition mixS : sys := play mixG mixR (init mixG).
Definition fire_body (c : cid) (body : string) (x : event) : bool :=
  match x with LFire n _ m => Nat.eqb (n_conn n) c && String.eqb (m_body m) body | _ => false end.
Lemma handed_over_iff w c body : handed_over w c body <-> existsb (fire_body c body) (w_log w) = true.
Proof.
  rewrite existsb_exists. split.
  - intros (n & key & m & H & H1 & H2). exists (LFire n key m). apply elem_of_list_In in H. split; [exact H|]. unfold fire_body. rewrite H1, H2, Nat.eqb_refl, String.eqb_refl. reflexivity.
  - intros (x & Hx & He). apply elem_of_list_In in Hx. destruct x as [n key m| | | | | | | | | | | | |]; try discriminate He. cbn in He. apply andb_prop in He as [H1 H2].
    apply Nat.eqb_eq in H1. apply String.eqb_eq in H2. exists n, key, m. auto.
Qed.
Definition wrong_reply (c : cid) (x : event) : bool :=
  match x with LAskReply c' tok m _ => Nat.eqb c' c && String.eqb (m_event m) "news" && String.eqb (m_body m) "second" && negb (String.eqb (m_wait m) tok) | _ => false end.

(*@prop C72 is violated.  The callbacks of the application do not use the API at all; a goroutine of the application calls Ask while one of them
    runs.  The Ask returns an event of the other side as if it was the reply (it does not carry the token of the request), no callback was
    called for that event, and none will be: nothing is left to read. @*)
Lemma l_C72_refuted : exists G s c token m inside,
  user_app (fun _ => True) G /\ silent_callbacks G /\ reachable G s /\ s_crash s = None /\
  LAskReply c token m inside ∈ w_log (s_w s) /\ m_wait m <> token /\ m_event m = "news" /\ m_body m = "second" /\
  handed_over (s_w s) c "first" /\ ~ handed_over (s_w s) c "second" /\ c_in (conn_of (s_w s) c) = [] /\ c_closed (conn_of (s_w s) c) = false.
Proof.
  assert (He : existsb (wrong_reply 1) (w_log (s_w mixS)) = true) by (vm_compute; reflexivity).
  apply existsb_exists in He as (x & Hx & He). destruct x as [ | | | | |c tok m inside| | | | | | | |]; try discriminate He.
  cbn in He. apply andb_prop in He as [He H4]. apply andb_prop in He as [He H3]. apply andb_prop in He as [H1 H2].
  apply Nat.eqb_eq in H1 as ->. apply String.eqb_eq in H2, H3. apply negb_true_iff, String.eqb_neq in H4. apply elem_of_list_In in Hx.
  exists mixG, mixS, 1, tok, m, inside. split.
  { constructor; try discriminate; try (intros; exact Logic.I).
    - intros c ns evs ev h n m' Ha Hb. change (mixA !! ns = Some evs) in Ha. unfold mixA in Ha. apply lookup_singleton_Some in Ha as [<- <-].
      apply lookup_singleton_Some in Hb as [<- <-]. cbn. auto.
    - intros k. cbn. split; [exact Logic.I|]. intros r. exact Logic.I. }
  split. { intros c ns evs ev h n m' Ha Hb. change (mixA !! ns = Some evs) in Ha. unfold mixA in Ha. apply lookup_singleton_Some in Ha as [<- <-].
      apply lookup_singleton_Some in Hb as [<- <-]. reflexivity. }
  split; [apply play_reachable|]. split; [vm_compute; reflexivity|]. split; [exact Hx|]. repeat (split; [assumption|]).
  split; [apply handed_over_iff; vm_compute; reflexivity|]. split; [|split; vm_compute; reflexivity].
  intros H. apply handed_over_iff in H. assert (existsb (fire_body 1 "second") (w_log (s_w mixS)) = false) as Hf by (vm_compute; reflexivity). rewrite Hf in H. discriminate H.
Qed.
