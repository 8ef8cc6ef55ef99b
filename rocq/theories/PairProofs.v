(** * PairProofs.v : proofs of C66: connected and disconnect events come in pairs. *)
(*@file Prop_Pair.v
From Coq Require Import ZArith.
From stdpp Require Import gmap strings list relations.
From RecordUpdate Require Import RecordUpdate.
From Verif Require Import Go Errors Message World Lang Code Sem Spec_App Spec_Conn Spec_View Examples Spec_Pair PairProofs.
@*)
From Coq Require Import ZArith.
From stdpp Require Import gmap strings list relations.
From RecordUpdate Require Import RecordUpdate.
From Verif Require Import Go Errors Message World Lang Code Sem Spec_App Spec_Conn Spec_View Examples Scenes Spec_Pair CarelessProofs.

Definition quiet_ns (connect : handler) : gmap string (gmap string handler) :=
  {["chat" := <[OnNamespaceConnect := connect]> (<[OnNamespaceConnected := fun _ _ => Ret None]> {[OnNamespaceDisconnect := fun _ _ => Ret None]})]}.
Lemma quiet_app (allowed : api -> Prop) (connect : handler) p : (forall n m, app_code allowed (fun e => err_ok e = true) (connect n m)) -> app_code allowed (fun _ => True) p ->
  application allowed (alone (quiet_ns connect) p).
Proof.
  intros H Hp. apply alone_app; [|exact Hp]. intros ns evs ev h n m H1 H2. unfold quiet_ns in H1. apply lookup_singleton_Some in H1 as [<- <-].
  apply lookup_insert_Some in H2 as [[<- <-]|[_ H2]]; [apply H|]. apply lookup_insert_Some in H2 as [[<- <-]|[_ H2]]; [reflexivity|].
  apply lookup_singleton_Some in H2 as [<- <-]. reflexivity.
Qed.
Definition bye : handler := fun n _ => Call (AClose (n_conn n)) (fun _ => Ret None).
Definition arrive : list cmd := handshake1 ++ [Act1 (Env (EDeliver 1 TextMessage "$1;chat;;_OnNamespaceConnect;0;0;")); Go 3].
Definition suicide : cfg := alone (quiet_ns bye) (Ret tt).
Definition closer : cfg := alone (quiet_ns (fun _ _ => Ret None)) (Call (AClose 1) (fun _ => Ret tt)).
Definition suicide_run : list cmd := arrive ++ [Act1 Start; Go 4; Go 0; Go 2].
Definition closer_run : list cmd := arrive ++ [Act1 (Env (EDeliver 1 TextMessage "$2;chat;;_OnNamespaceDisconnect;0;0;"))] ++ repeat (Act1 (Step 3)) 6 ++
  [Act1 (Env (EGo (TUser 0))); Go 4; Go 3; Act1 Start; Go 5; Go 0; Go 2].
Definition only_loop (l : list (tid * prog (option tcode))) : bool := match l with [(O, Do OSrvSelect _)] => true | _ => false end.
Lemma only_loop_ok s : only_loop (map_to_list (s_th s)) = true -> nothing_left s.
Proof.
  intros H. unfold nothing_left. destruct (map_to_list (s_th s)) as [|[t p] [|? ?]] eqn:E; cbn in H.
  - discriminate H.
  - destruct t; [|discriminate H]. destruct p as [r|o k|b k|why]; try discriminate H. destruct o; try discriminate H.
    intros t' p'. rewrite <- elem_of_map_to_list, E, elem_of_list_singleton. intros [= -> ->]. split; [reflexivity|eauto].
  - destruct t; [|discriminate H]. destruct p as [r|o k|b k|why]; try discriminate H. destruct o; discriminate H.
Qed.

(*@prop C66 fails: a disconnect event is missing.  The OnNamespaceConnect callback of this application closes the connection and
    returns nil.  The connection is then put into the namespace nevertheless, and OnNamespaceConnected is called.  Nothing is
    left to do in this state, and OnNamespaceDisconnect was not called. @*)
Lemma l_C66_missing_refuted : exists (G : cfg) (s : sys),
  application (fun a => exists c, a = AClose c) G /\ reachable G s /\ nothing_left s /\ w_spawn (s_w s) = [] /\
  c_closed (conn_of (s_w s) 1) = true /\ is_Some (c_nss (conn_of (s_w s) 1) !! "chat") /\
  is_Some (ns_events G (NsRef 1 "chat" 1) !! OnNamespaceDisconnect) /\
  fired 1 (w_log (s_w s)) = [("chat", OnNamespaceConnect); ("chat", OnNamespaceConnected)].
Proof.
  exists suicide, (play suicide suicide_run (init suicide)). split; [apply quiet_app; [intros n m; cbn; split; [eauto|]; intros; reflexivity|exact Logic.I]|].
  split; [apply play_reachable|]. split; [apply only_loop_ok; vm_compute; reflexivity|]. split; [vm_compute; reflexivity|]. split; [vm_compute; reflexivity|].
  split; [eexists; vm_compute; reflexivity|]. split; [eexists; vm_compute; reflexivity|]. vm_compute. reflexivity.
Qed.
(*@prop C66 fails: a disconnect event comes twice.  A connection is closed by a goroutine of the application while its reader
    handles a request to disconnect: OnNamespaceDisconnect is called twice for one OnNamespaceConnected. @*)
Lemma l_C66_twice_refuted : exists (G : cfg) (s : sys),
  application (fun a => exists c, a = AClose c) G /\ reachable G s /\ nothing_left s /\ w_spawn (s_w s) = [] /\
  c_closed (conn_of (s_w s) 1) = true /\
  fired 1 (w_log (s_w s)) = [("chat", OnNamespaceConnect); ("chat", OnNamespaceConnected); ("chat", OnNamespaceDisconnect); ("chat", OnNamespaceDisconnect)].
Proof.
  exists closer, (play closer closer_run (init closer)). split; [apply quiet_app; [intros; reflexivity|cbn; split; [eauto|]; intros; exact Logic.I]|].
  split; [apply play_reachable|]. split; [apply only_loop_ok; vm_compute; reflexivity|]. split; [vm_compute; reflexivity|]. split; vm_compute; reflexivity.
Qed.
