(** * CarelessProofs.v : NSConns that are nil or of the wrong kind (C64). *)
(*@file Prop_Careless.v
From Coq Require Import ZArith.
From stdpp Require Import gmap strings list relations.
From RecordUpdate Require Import RecordUpdate.
From Verif Require Import Go Errors Message World Lang Code Sem Spec_App Spec_Conn Spec_View Examples CarelessProofs. @*)
From Coq Require Import ZArith.
From stdpp Require Import gmap strings list relations.
From RecordUpdate Require Import RecordUpdate.
From Verif Require Import Go Errors Message World Lang Code Sem Spec_App Spec_Conn Spec_View Examples SafeProofs.

(** An application that declares [A] and has one goroutine. *)
Definition alone (A : gmap string (gmap string handler)) (p : prog unit) : cfg := {|
  g_client := fun c => Nat.eqb c 2; g_namespaces := fun _ => A; g_connid := fun c => "id-1"; g_uuid := "u"; g_ptr := fun c => "0x1";
  g_known := knownErrors0; g_exch := None; g_sync := false; g_firealways := false; g_onconnect := None; g_ondisconnect := None;
  g_do := fun _ _ => Ret tt; g_user := fun _ => p |}.
Definition natives : gmap string (gmap string handler) :=
  {["" := {[OnNativeMessage := fun n m => Call (ADisconnect (Some n) None) (fun _ => Ret None)]}]}.
Definition nil_panic : string := "invalid memory address or nil pointer dereference".
Lemma alone_app A p (allowed : api -> Prop) :
  (forall ns evs ev (h : handler) n m, A !! ns = Some evs -> evs !! ev = Some h -> app_code allowed (fun e => err_ok e = true) (h n m)) ->
  app_code allowed (fun _ => True) p -> application allowed (alone A p).
Proof. intros HA Hp. constructor; try discriminate; try (intros; exact I); cbn; eauto. exact known0_text. Qed.

(*@prop C64.  On a nil NSConn, such as a failed Connect returns, Emit and EmitBinary return false, Ask and JoinRoom an error,
    Room returns nil, and LeaveAll and Disconnect return, in whatever state the process is; nothing changes. @*)
Lemma l_C64_nil : forall G t w x event body room,
  exec t (impl G (AEmit None event body)) w = XDone w false /\
  exec t (impl G (AEmitBinary None event body)) w = XDone w false /\
  (exists e, exec t (impl G (ANSAsk None x event body)) w = XDone w (no_message, Some e)) /\
  (exists e, exec t (impl G (AJoinRoom None x room)) w = XDone w (None, Some e)) /\
  exec t (impl G (ARoom None room)) w = XDone w None /\
  exec t (impl G (ALeaveAll None x)) w = XDone w None /\
  exec t (impl G (ADisconnect None x)) w = XDone w None.
Proof. intros. repeat split; try reflexivity; eexists; reflexivity. Qed.
(*@prop C64 fails for Rooms: an application whose only call besides Connect is Rooms on the NSConn that Connect returned.
    The server refuses the connect, so that this is nil, and the process panics. @*)
Lemma l_C64_rooms_refuted : exists (G : cfg) (s : sys),
  application (fun a => (exists x ns, a = AConnect 2 x ns) \/ exists n, a = ARooms n) G /\ reachable G s /\
  s_crash s = Some "invalid memory address or nil pointer dereference".
Proof.
  exists (alone (lift exA) (Call (AConnect 2 None "nowhere") (fun r => Call (ARooms (fst r)) (fun _ => Ret tt)))). eexists.
  split; [apply alone_app; [intros; eapply exA_app; eassumption|cbn; split; [left; eauto|]; intros; split; [right; eauto|]; auto]|].
  split; [apply (play_reachable _ [Go 0; Act1 (Env (EGo (TDial 2))); Go 1; Act1 Start; Go 2; Act1 (Env (EDeliver 2 TextMessage "Aid-1")); Go 2; Go 1; Act1 (Env (EGo (TUser 0))); Go 3])|].
  vm_compute. reflexivity.
Qed.
(*@prop C64 fails for Broadcast: an application whose only call besides Connect is Broadcast on the NSConn that Connect
    returned.  The connect of the client succeeds, and the process panics, because a client has no server. @*)
Lemma l_C64_broadcast_refuted : exists (G : cfg) (s : sys) n,
  application (fun a => (exists x ns, a = AConnect 2 x ns) \/ exists n msgs, a = ANSBroadcast n false msgs) G /\ reachable G s /\
  c_nss (conn_of (s_w s) 2) !! "chat" = Some n /\ s_crash s = Some "invalid memory address or nil pointer dereference".
Proof.
  exists (alone (lift exA) (Call (AConnect 2 None "chat") (fun r => Call (ANSBroadcast (fst r) false [no_message]) (fun _ => Ret tt)))). eexists. eexists.
  split; [apply alone_app; [intros; eapply exA_app; eassumption|cbn; split; [left; eauto|]; intros; split; [right; eauto|]; auto]|].
  split; [apply (play_reachable _ [Go 0; Act1 (Env (EGo (TDial 2))); Go 1; Act1 Start; Go 2; Act1 (Env (EDeliver 2 TextMessage "Aid-1")); Go 2; Go 1; Act1 (Env (EGo (TUser 0))); Go 3; Act1 (Env (EDeliver 2 TextMessage "$0;;;;0;1;")); Go 2; Go 3])|].
  split; vm_compute; reflexivity.
Qed.
(*@prop C64 fails for Disconnect: a client that exchanges native messages only, and whose callback for them disconnects
    (it succeeds at once, without asking the other side).  The next frame makes the process panic. @*)
Lemma l_C64_native_refuted : exists (G : cfg) (s : sys),
  application (fun a => exists n x, a = ADisconnect (Some n) x) G /\ onlyNative G 2 = true /\ reachable G s /\
  map snd (c_got (conn_of (s_w s) 2)) = ["one"; "two"] /\
  s_crash s = Some "invalid memory address or nil pointer dereference".
Proof.
  exists (alone natives (Ret tt)). eexists.
  split; [apply alone_app; [|exact Logic.I]|].
  { intros ns evs ev h n m H1 H2. unfold natives in H1. apply lookup_singleton_Some in H1 as [_ <-]. apply lookup_singleton_Some in H2 as [_ <-]. cbn. split; [eauto|]. auto. }
  split; [vm_compute; reflexivity|].
  split; [apply (play_reachable _ [Go 0; Act1 (Env (EGo (TDial 2))); Go 1; Act1 Start; Act1 (Env (EDeliver 2 TextMessage "one")); Go 2; Act1 (Env (EDeliver 2 TextMessage "two")); Go 2])|].
  split; vm_compute; reflexivity.
Qed.
(*@exl C64. The nil NSConn of the first theorem: a Connect that fails returns it. @*)
Lemma x_C64_example :
  let G := alone (lift exA) (Ret tt) in let s := play G [Go 0; Act1 (Env (EGo (TDial 2))); Go 1; Act1 Start; Go 2; Act1 (Env (EDeliver 2 TextMessage "Aid-1")); Go 2; Go 1] (init G) in
  exists w' e, exec 3 (impl G (AConnect 2 None "nowhere")) (s_w s) = XDone w' (None, Some e) /\ e = EBadNamespace.
Proof. cbv zeta. eexists. eexists. split; [vm_compute; reflexivity|reflexivity]. Qed.
