(** * SelfProofs.v : a callback that asks while the messages of the handshake are handled (C77). *)
From Coq Require Import ZArith.
From stdpp Require Import gmap strings list relations.
From RecordUpdate Require Import RecordUpdate.
From Verif Require Import Go Errors Message World Lang Code Sem ExecProofs Spec_App Spec_Conn Spec_View Spec_Stuck Spec_Cross Spec_Self Logic Frame Frozen StuckProofs CrossProofs Self Examples Scenes.

(*@file Prop_Self.v
From Coq Require Import ZArith.
From stdpp Require Import gmap strings list relations.
From Verif Require Import Go Errors Message World Lang Code Sem Spec_App Spec_Conn Spec_View Spec_Stuck Spec_Cross Spec_Self Examples Scenes SelfProofs. @*)

(*@prop C77 is violated, in general.  [t] waits without deadline for a reply that can only come through connection [c], and nobody else reads
    [c] for its handlers.  Then [t] waits for ever, whatever else happens: even if the reply arrives, if the connection is closed, or if
    other goroutines use it. @*)
Lemma l_C77_reader_refuted : forall (G : cfg) (s : sys) (t : tid) (c : cid) (ch : chid),
  user_app (not_fed c) G -> reachable G s -> is_Some (w_conns (s_w s) !! c) ->
  at_op s t (OSelect ch None) -> answered_by (s_w s) c ch -> nobody_helps G s t t c ch ->
  stuck G s t.
Proof.
  intros G s t c ch HA Hr Hc [kt Ht] (Ha1 & Ha2 & Ha3 & Ha4) [Ho Hs].
  apply (self_stuck G c ch HA s t kt Hr Ht).
  - constructor; auto. intros x Hx. specialize (Hs x Hx). destruct x; cbn in *; auto.
  - intros t' q Hq Hne. destruct (Ho t' q Hq Hne Hne) as (x & -> & Hx). exists x. split; [reflexivity|]. destruct x; exact Hx.
Qed.

Definition selfG : cfg := {|
  g_client := fun c => Nat.eqb c 2; g_namespaces := fun _ => asks_who; g_connid := fun c => "id-1"; g_uuid := "u"; g_ptr := fun c => "0x1";
  g_known := knownErrors0; g_exch := None; g_sync := false; g_firealways := false; g_onconnect := None; g_ondisconnect := None;
  g_do := fun _ _ => Ret tt; g_user := fun _ => Ret tt |}.
Lemma self_app (allowed : api -> Prop) : (forall n x ev b, allowed (ANSAsk n x ev b)) -> user_app allowed selfG.
Proof.
  intros H. constructor; try discriminate; try (intros; exact Logic.I).
  intros c ns evs ev h n m' Ha Hb. change (asks_who !! ns = Some evs) in Ha. unfold asks_who in Ha. apply lookup_singleton_Some in Ha as [<- <-].
  apply lookup_singleton_Some in Hb as [<- <-]. cbn. split; [apply H|]. auto.
Qed.
Definition D1 (b : string) : cmd := Act1 (Env (EDeliver 1 TextMessage b)).
Definition upgraded : list cmd := [Go 0; Act1 (Env (EGo (TUpgrade 1))); Go 1; Act1 Start; Act1 Start; Go 0; Go 3; Go 1].
(** The same four frames; in the first run the handshake comes last, in the second first. *)
Definition earlyR : list cmd := upgraded ++ [D1 "$1;chat;;_OnNamespaceConnect;0;0;"; Go 3; D1 ";chat;;hello;0;0;"; Go 3; D1 "M"; Go 3; D1 "0;chat;;who;0;0;me"; Go 3].
Definition lateR : list cmd := upgraded ++ [D1 "M"; Go 3; D1 "$1;chat;;_OnNamespaceConnect;0;0;"; Go 3; D1 ";chat;;hello;0;0;"; Go 3; Act1 Start; D1 "0;chat;;who;0;0;me"; Go 4; Go 3].
Definition earlyS : sys := play selfG earlyR (init selfG).
Definition lateS : sys := play selfG lateR (init selfG).
(*@prop C77, two runs of an application that asks who says hello.  A connection gets the same four frames.  If the frame of the handshake comes
    first, the callback is told "me" and gives it back.  If it comes after the hello, the callback asks too, but its reply is never read,
    the handshake is never answered, and the reader of the connection never goes on. @*)
Lemma l_C77_queue_refuted : exists G s s' t ch, (forall c, g_namespaces G c = asks_who) /\ (forall allowed : api -> Prop, (forall n x ev b, allowed (ANSAsk n x ev b)) -> user_app allowed G) /\
  reachable G s /\ s_crash s = None /\
  map snd (c_got (conn_of (s_w s) 1)) = ["M"; "$1;chat;;_OnNamespaceConnect;0;0;"; ";chat;;hello;0;0;"; "0;chat;;who;0;0;me"] /\ c_in (conn_of (s_w s) 1) = [] /\
  c_out (conn_of (s_w s) 1) = [(TextMessage, "Aid-1"); (TextMessage, "$1;;;;;;"); (TextMessage, "0;chat;;who;0;0;"); (TextMessage, ";chat;;hello;0;0;me")] /\
  reachable G s' /\ s_crash s' = None /\
  map snd (c_got (conn_of (s_w s') 1)) = ["$1;chat;;_OnNamespaceConnect;0;0;"; ";chat;;hello;0;0;"; "M"; "0;chat;;who;0;0;me"] /\
  c_in (conn_of (s_w s') 1) = [(TextMessage, "0;chat;;who;0;0;me")] /\ c_closed (conn_of (s_w s') 1) = false /\
  c_out (conn_of (s_w s') 1) = [(TextMessage, "$1;;;;;;"); (TextMessage, "0;chat;;who;0;0;")] /\
  at_op s' t (OSelect ch None) /\ stuck G s' t.
Proof.
  exists selfG, lateS, earlyS, 3, 3. split; [reflexivity|]. split; [exact self_app|]. split; [apply play_reachable|].
  do 4 (split; [vm_compute; reflexivity|]).
  assert (Hr : reachable selfG earlyS) by apply play_reachable. split; [exact Hr|]. do 5 (split; [vm_compute; reflexivity|]).
  assert (Ha : at_op earlyS 3 (OSelect 3 None)) by at_op_tac. split; [exact Ha|].
  apply (l_C77_reader_refuted selfG earlyS 3 1 3); [apply self_app; intros; exact Logic.I|exact Hr| |exact Ha| |].
  - apply has_conn_b. vm_compute. reflexivity.
  - apply answered_b. vm_compute. reflexivity.
  - apply nobody_list. vm_compute. reflexivity.
Qed.
(*@exl C77.  The state of the second run meets the hypotheses of the general theorem. @*)
Lemma x_C77_example : user_app (not_fed 1) selfG /\ reachable selfG earlyS /\ is_Some (w_conns (s_w earlyS) !! 1) /\
  at_op earlyS 3 (OSelect 3 None) /\ answered_by (s_w earlyS) 1 3 /\ nobody_helps selfG earlyS 3 3 1 3.
Proof.
  split; [apply self_app; intros; exact Logic.I|]. split; [apply play_reachable|]. split; [apply has_conn_b; vm_compute; reflexivity|]. split; [at_op_tac|].
  split; [apply answered_b; vm_compute; reflexivity|apply nobody_list; vm_compute; reflexivity].
Qed.
