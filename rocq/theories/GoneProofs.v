(** * GoneProofs.v : the server keeps every open connection (C67). *)
From Coq Require Import ZArith.
From stdpp Require Import gmap strings list relations.
From RecordUpdate Require Import RecordUpdate.
From Verif Require Import Go Errors Message World Lang Code Sem ExecProofs Logic Spec_App Spec_Loop Spec_Gone StuckProofs Frame End Gone Loop LoopProofs AsyncProofs.
From Verif Require Import Spec_View Examples Scenes.

(*@file Prop_Gone.v
From Coq Require Import ZArith.
From stdpp Require Import gmap strings list relations.
From Verif Require Import Go Errors Message World Lang Code Sem Spec_App Spec_Loop Spec_Gone Examples LoopProofs AsyncProofs GoneProofs. @*)

Lemma closed_says G s c : c_closed (conn_of (s_w s) c) = true -> is_closed G s c.
Proof. intros H t. cbn. rewrite H. reflexivity. Qed.
Lemma says_closed G s c : is_closed G s c <-> c_closed (conn_of (s_w s) c) = true.
Proof. split; [|apply closed_says]. intros H. specialize (H 0). cbn in H. injection H as H. exact H. Qed.

(*@prop C67.  In every reachable state of any application: a connection that OnDisconnect was called with is closed, and so is one whose
    disconnection the server took up. @*)
Lemma l_C67_told : forall G s c,
  user_app (fun _ => True) G -> reachable G s -> LOnDisconnect c ∈ w_log (s_w s) \/ LSrv (SDisconnect c) ∈ w_log (s_w s) -> is_closed G s c.
Proof.
  intros G s c A Hr H. apply closed_says. destruct (gone_reachable G c s A Hr) as (_ & Ls & HI & _).
  destruct H as [H|H]; [exact (gv_log _ _ _ _ HI H)|exact (gv_srv _ _ _ _ HI H)].
Qed.

(*@prop C67.  A connection that is registered stays registered, whatever happens, until it is closed. @*)
Lemma l_C67_stays : forall G s s' c,
  user_app (fun _ => True) G -> reachable G s -> steps G s s' -> c ∈ s_conns (w_srv (s_w s)) -> ~ is_closed G s' c -> c ∈ s_conns (w_srv (s_w s')).
Proof.
  intros G s s' c A Hr Hst Hc Hn. destruct (gone_stays G c s s' A Hr Hst Hc) as [H|H]; [exact H|]. destruct Hn. apply closed_says, H.
Qed.

Lemma members_open c l : LSrv (SConnect c) ∈ l -> LSrv (SDisconnect c) ∉ l -> c ∈ members l.
Proof.
  induction l as [|e l IH]; intros H Hn; [apply elem_of_nil in H as []|]. apply not_elem_of_cons in Hn as [Hne Hn].
  apply elem_of_cons in H as [<-|H]; [cbn; set_solver|]. specialize (IH H Hn). destruct e as [| | | | | | | |x| | | | |]; cbn; try exact IH.
  destruct x as [c'|c'| |]; try exact IH; [set_solver|]. apply elem_of_difference. split; [exact IH|]. intros Hc. apply elem_of_singleton in Hc as <-. apply Hne. reflexivity.
Qed.
(*@prop C67.  Whenever the server loop waits, every connection that it took up and that is not closed is registered. @*)
Lemma l_C67_registered : forall G s c,
  user_app (fun _ => True) G -> reachable G s -> loop_waits s -> LSrv (SConnect c) ∈ w_log (s_w s) -> ~ is_closed G s c -> c ∈ s_conns (w_srv (s_w s)).
Proof.
  intros G s c A Hr Hw Hc Hn. destruct (l_C37_total_partial G s 0 A Hr Hw) as [_ ->]. apply members_open; [exact Hc|].
  intros H. apply Hn. apply (l_C67_told G s c A Hr). auto.
Qed.

Lemma casts_open c l2 l1 : LSrv (SDisconnect c) ∉ l2 -> c ∉ announced l1 -> casts_for c (l2 ++ LSrv (SConnect c) :: l1) = casts l2.
Proof.
  intros H2 H1.
  assert (Hm : c ∉ members l1 /\ casts_for c l1 = []).
  { clear H2. induction l1 as [|e l IH]; [split; [set_solver|reflexivity]|]. destruct e as [| | | | | | | |x| | | | |]; cbn in *; try (apply IH, H1).
    destruct x as [c'|c'|msgs|a]; cbn in *; [|destruct (IH H1)..].
    - apply not_elem_of_cons in H1 as [Hne H1]. destruct (IH H1) as [H3 H4]. split; [set_solver|exact H4].
    - split; [set_solver|assumption].
    - rewrite decide_False by assumption. auto.
    - auto. }
  destruct Hm as [_ Hm].
  assert (Hc : c ∈ members (l2 ++ LSrv (SConnect c) :: l1) /\ casts_for c (l2 ++ LSrv (SConnect c) :: l1) = casts l2); [|apply Hc].
  induction l2 as [|e l IH]; [cbn; split; [set_solver|exact Hm]|]. apply not_elem_of_cons in H2 as [Hne H2]. destruct (IH H2) as [H3 H4].
  destruct e as [| | | | | | | |x| | | | |]; cbn [app members casts_for]; try (split; [exact H3|exact H4]).
  destruct x as [c'|c'|msgs|a]; [split; [set_solver|exact H4]|split; [|exact H4]| |split; [exact H3|exact H4]].
  - apply elem_of_difference. split; [exact H3|]. intros Hc. apply elem_of_singleton in Hc as <-. apply Hne. reflexivity.
  - rewrite decide_True by exact H3. split; [exact H3|]. unfold casts in *. cbn. f_equal. exact H4.
Qed.
Lemma announced_app l2 l1 : announced (l2 ++ l1) = announced l2 ++ announced l1.
Proof. induction l2 as [|e l IH]; [reflexivity|]. destruct e as [| | | | | | | |x| | | | |]; cbn; try exact IH. destruct x; cbn; rewrite ?IH; reflexivity. Qed.
(*@prop C67.  So an open connection misses nothing: with SyncBroadcaster, whenever the server loop waits, a connection that is not closed was
    offered exactly the broadcasts that the server took up after this connection, each once and in that order. @*)
Lemma l_C67_broadcasts : forall G s c l2 l1,
  user_app (fun _ => True) G -> g_sync G = true -> reachable G s -> loop_waits s ->
  w_log (s_w s) = l2 ++ LSrv (SConnect c) :: l1 -> ~ is_closed G s c -> offered c (w_log (s_w s)) = casts l2.
Proof.
  intros G s c l2 l1 A Hs Hr Hw E Hn. rewrite (l_C34_rest G s c A Hs Hr Hw), E. apply casts_open.
  - intros H. apply Hn, (l_C67_told G s c A Hr). right. rewrite E. apply elem_of_app. auto.
  - destruct (l_C37_once_partial G s A Hr) as [Hd _]. rewrite E, announced_app in Hd. cbn in Hd. apply NoDup_app in Hd as (_ & _ & Hd). apply NoDup_cons in Hd as [Hd _]. exact Hd.
Qed.

Lemma dos_open c l2 l1 : LSrv (SDisconnect c) ∉ l2 -> c ∉ announced l1 -> dos_for c (l2 ++ LSrv (SConnect c) :: l1) = dos l2.
Proof.
  intros H2 H1.
  assert (Hm : c ∉ members l1 /\ dos_for c l1 = []).
  { clear H2. induction l1 as [|e l IH]; [split; [set_solver|reflexivity]|]. destruct e as [| | | | | | | |x| | | | |]; cbn in *; try (apply IH, H1).
    destruct x as [c'|c'|msgs|[[k|] a2 a3]]; cbn in *; [|destruct (IH H1)..].
    - apply not_elem_of_cons in H1 as [Hne H1]. destruct (IH H1) as [H3 H4]. split; [set_solver|exact H4].
    - split; [set_solver|assumption].
    - auto.
    - rewrite ?decide_False by assumption; auto.
    - rewrite ?decide_False by assumption; auto. }
  destruct Hm as [_ Hm].
  assert (Hc : c ∈ members (l2 ++ LSrv (SConnect c) :: l1) /\ dos_for c (l2 ++ LSrv (SConnect c) :: l1) = dos l2); [|apply Hc].
  induction l2 as [|e l IH]; [cbn; split; [set_solver|exact Hm]|]. apply not_elem_of_cons in H2 as [Hne H2]. destruct (IH H2) as [H3 H4].
  destruct e as [| | | | | | | |x| | | | |]; cbn [app members dos_for]; try (split; [exact H3|exact H4]).
  destruct x as [c'|c'|msgs|[[k|] a2 a3]]; [split; [set_solver|exact H4]|split; [|exact H4]|split; [exact H3|exact H4]| |].
  - apply elem_of_difference. split; [exact H3|]. intros Hc. apply elem_of_singleton in Hc as <-. apply Hne. reflexivity.
  - rewrite ?decide_True by exact H3. split; [exact H3|]. unfold dos in *. cbn. first [f_equal; exact H4|exact H4].
  - rewrite ?decide_True by exact H3. split; [exact H3|]. unfold dos in *. cbn. first [f_equal; exact H4|exact H4].
Qed.
(*@prop C67.  The same for functions passed to Do. @*)
Lemma l_C67_do : forall G s c l2 l1,
  user_app (fun _ => True) G -> reachable G s -> loop_waits s ->
  w_log (s_w s) = l2 ++ LSrv (SConnect c) :: l1 -> ~ is_closed G s c -> done_for c (w_log (s_w s)) = dos l2.
Proof.
  intros G s c l2 l1 A Hr Hw E Hn. rewrite (l_C55_rest G s c A Hr Hw), E. apply dos_open.
  - intros H. apply Hn, (l_C67_told G s c A Hr). right. rewrite E. apply elem_of_app. auto.
  - destruct (l_C37_once_partial G s A Hr) as [Hd _]. rewrite E, announced_app in Hd. cbn in Hd. apply NoDup_app in Hd as (_ & _ & Hd). apply NoDup_cons in Hd as [Hd _]. exact Hd.
Qed.

(*@prop C67.  With an asynchronous broadcaster, the goroutine that delivers the broadcasts to a connection goes on as long as the
    connection is open, whatever happens: what is sent, which writes fail, and in which order things happen. @*)
Lemma l_C67_deliverer : forall G c t s s',
  user_app (fun _ => True) G -> reachable G s -> s_th s !! t = Some (code G (TWaitMessages c)) -> steps G s s' -> ~ is_closed G s' c -> is_Some (s_th s' !! t).
Proof.
  intros G c t s s' HA Hr Ht Hst Hn. destruct (s_th s' !! t) eqn:E; [eauto|]. destruct Hn. apply closed_says. exact (deliverer_ends G c t s s' HA Hr Ht (th_fresh G s Hr) Hst E).
Qed.
(*@prop C67.  The library closes the network connection (and the channel that ends the goroutines of the connection) only when the connection
    is closed. @*)
Lemma l_C67_socket : forall G s c,
  user_app (fun _ => True) G -> reachable G s -> c_sockclosed (conn_of (s_w s) c) = true \/ c_closeCh (conn_of (s_w s) c) = true -> is_closed G s c.
Proof.
  intros G s c A Hr H. apply closed_says. destruct (gone_reachable G c s A Hr) as (_ & Ls & HI & _).
  destruct H as [H|H]; [exact (gv_sock _ _ _ _ HI H)|exact (gv_ch _ _ _ _ HI H)].
Qed.

(*@exl C67.  In the example of C34, connection 1 is closed and OnDisconnect was called for it, connection 2 is open and registered, the server
    took up two broadcasts after connection 2, and connection 2 was offered both. @*)
Lemma x_C67_example : user_app (fun _ => True) loopG /\ g_sync loopG = true /\ reachable loopG loopS /\ loop_waits loopS /\
  LOnDisconnect 1 ∈ w_log (s_w loopS) /\ is_closed loopG loopS 1 /\ ~ is_closed loopG loopS 2 /\ s_conns (w_srv (s_w loopS)) = {[2]} /\
  exists l2 l1, w_log (s_w loopS) = l2 ++ LSrv (SConnect 2) :: l1 /\ casts l2 = [[hello]; [hello]] /\ dos l2 = [7].
Proof.
  split; [apply loopG_app|]. split; [reflexivity|]. split; [apply loopS_reachable|]. split; [apply loop_waits_b; vm_compute; reflexivity|].
  split. { set (l := w_log (s_w loopS)). assert (H : existsb (fun e : event => match e with LOnDisconnect c => Nat.eqb c 1 | _ => false end) l = true) by (vm_compute; reflexivity).
    clearbody l. apply existsb_exists in H as (e & Hin & He). destruct e; try discriminate He. apply Nat.eqb_eq in He as ->. apply elem_of_list_In, Hin. }
  split; [apply says_closed; vm_compute; reflexivity|]. split; [rewrite says_closed; vm_compute; discriminate|]. split; [decide_eq|].
  set (l := w_log (s_w loopS)).
  assert (H : exists l2 l1, l = l2 ++ LSrv (SConnect 2) :: l1).
  { assert (H : existsb (fun e : event => match e with LSrv (SConnect c) => Nat.eqb c 2 | _ => false end) l = true) by (vm_compute; reflexivity).
    clearbody l. apply existsb_exists in H as (e & Hin & He). destruct e as [| | | | | | | |x| | | | |]; try discriminate He. destruct x; try discriminate He. apply Nat.eqb_eq in He as ->.
    apply elem_of_list_In, elem_of_list_split in Hin. destruct Hin as (l2 & l1 & ->). eauto. }
  destruct H as (l2 & l1 & E). exists l2, l1. split; [exact E|].
  assert (Hn : ~ is_closed loopG loopS 2) by (rewrite says_closed; vm_compute; discriminate).
  rewrite <- (l_C67_broadcasts loopG loopS 2 l2 l1 loopG_app eq_refl loopS_reachable) by (first [exact E|exact Hn|apply loop_waits_b; vm_compute; reflexivity]).
  rewrite <- (l_C67_do loopG loopS 2 l2 l1 loopG_app loopS_reachable) by (first [exact E|exact Hn|apply loop_waits_b; vm_compute; reflexivity]).
  split; vm_compute; reflexivity.
Qed.
(*@exl C67.  Goroutine 2 is about to wait for broadcasts for connection 1.  It has ended after the connection broke and was closed. @*)
Lemma x_C67_deliverer_example :
  let s := play asyncG [Go 0; Act1 (Env (EGo (TUpgrade 1))); Go 1; Act1 Start] (init asyncG) in
  let s' := play asyncG [Act1 Start; Go 2; Act1 (Env (EReadEnd 1 EEOF)); Go 3; Go 2] s in
  user_app (fun _ => True) asyncG /\ reachable asyncG s /\ steps asyncG s s' /\ s_th s !! (2 : tid) = Some (code asyncG (TWaitMessages 1)) /\ ~ is_closed asyncG s 1 /\
  s_th s' !! (2 : tid) = None /\ is_closed asyncG s' 1 /\ c_sockclosed (conn_of (s_w s') 1) = true.
Proof.
  cbv zeta. split; [apply asyncG_app|]. split; [apply play_reachable|]. split; [apply play_steps|]. split; [vm_compute; reflexivity|]. split; [rewrite says_closed; vm_compute; discriminate|].
  split; [vm_compute; reflexivity|]. split; [apply says_closed; vm_compute; reflexivity|]. vm_compute. reflexivity.
Qed.
