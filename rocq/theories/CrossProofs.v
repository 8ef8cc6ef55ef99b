(** * CrossProofs.v : C54. *)
From Coq Require Import ZArith.
From stdpp Require Import gmap strings list relations.
From RecordUpdate Require Import RecordUpdate.
From Verif Require Import Go Errors Message World Lang Code Sem ExecProofs Spec_Conn Spec_View SeqProofs ConnProofs LocalProofs CloseProofs Examples.
From Verif Require Import Logic Spec_App Scenes Spec_Stuck Frame StuckProofs Frozen Cross Spec_Cross.

(** [nobody_helps], computed along a run. *)
Definition asideb (c : cid) (ch : chid) (x : tcode) : bool :=
  match x with TReadNext _ ch' => negb (Nat.eqb ch' ch) | TReader c' | TReaderLoop c' => negb (Nat.eqb c' c) | _ => true end.
Lemma asideb_ok c ch x : asideb c ch x = true -> aside c ch x.
Proof. destruct x; cbn; auto; intros H; apply negb_true_iff, Nat.eqb_neq in H; exact H. Qed.
Lemma nobody_list G l t u c ch :
  (let '(s, tg) := play_tags G l (init G) {[0 := TServer]} in
   match s_crash s with None => true | _ => false end && forallb (asideb c ch) (w_spawn (s_w s)) &&
   forallb (fun t' => Nat.eqb t' t || Nat.eqb t' u || match tg !! t' with Some x => asideb c ch x | None => false end) (elements (dom (s_th s)))) = true ->
  nobody_helps G (play G l (init G)) t u c ch.
Proof.
  assert (E : fst (play_tags G l (init G) {[0 := TServer]}) = play G l (init G)).
  { generalize (init G) as s, ({[0 := TServer]} : gmap tid tcode) as tg. induction l as [|[a|t'] l IH]; intros s tg; cbn [play play_tags]; [reflexivity| |].
    - destruct (step G a s); apply IH.
    - pose proof (proj1 (drive_tags_ok G 500 t' s tg)) as E. destruct (drive_tags G 500 t' s tg) as [s' tg']. cbn in E. subst s'. apply IH. }
  pose proof (play_tags_ok G l (init G) {[0 := TServer]}) as Ht. rewrite <- E in Ht |- *.
  destruct (play_tags G l (init G) {[0 := TServer]}) as [s tg]. cbn [fst snd] in *.
  rewrite !andb_true_iff, !forallb_forall. intros [[Hc Hs] Hb]. destruct (s_crash s) eqn:Ec; [discriminate|]. specialize (Ht eq_refl).
  assert (H0 : tagged G (init G) {[0 := TServer]}).
  { intros t0 c0 H. apply lookup_singleton_Some in H as [<- <-]. cbn. apply lookup_singleton. }
  specialize (Ht H0). split.
  - intros t' p Hp Hne Hne'. specialize (Hb t'). rewrite !orb_true_iff, !Nat.eqb_eq in Hb. destruct Hb as [[Hb|Hb]|Hb]; [|contradiction|contradiction|].
    + apply elem_of_list_In, elem_of_elements, elem_of_dom. eauto.
    + match type of Hb with match ?x with _ => _ end = true => destruct x as [y|] eqn:Et end; [|discriminate Hb]. exists y. split; [|apply asideb_ok, Hb]. rewrite (Ht _ _ Et) in Hp. congruence.
  - intros x Hx. apply asideb_ok, Hs, elem_of_list_In, Hx.
Qed.

Definition uses (ch : chid) (m : gmap string chid) : bool := existsb (fun e : string * chid => Nat.eqb (snd e) ch) (map_to_list m).
Lemma uses_false ch m tok : uses ch m = false -> m !! tok <> Some ch.
Proof.
  intros H Hm. apply (proj2 (elem_of_map_to_list _ _ _)) in Hm. apply elem_of_list_In in Hm.
  assert (uses ch m = true); [|congruence]. apply existsb_exists. exists (tok, ch). split; [exact Hm|]. cbn. apply Nat.eqb_refl.
Qed.
Lemma answered_b w c ch :
  (Nat.ltb ch (w_next w) && match ch_buf (chan_of w ch) with [] => true | _ => false end &&
   forallb (fun e : cid * conn => Nat.eqb (fst e) c || negb (uses ch (c_waiting (snd e)))) (map_to_list (w_conns w)) &&
   negb (uses ch (s_waiting (w_srv w)))) = true -> answered_by w c ch.
Proof.
  rewrite !andb_true_iff, Nat.ltb_lt, negb_true_iff, forallb_forall. intros [[[H1 H2] H3] H4]. repeat split.
  - exact H1.
  - destruct (ch_buf (chan_of w ch)); [reflexivity|discriminate H2].
  - intros c' tok Hw. unfold conn_of in Hw. destruct (w_conns w !! c') as [k|] eqn:Ek; [|cbn in Hw; rewrite lookup_empty in Hw; discriminate Hw].
    cbn in Hw. specialize (H3 (c', k)). cbn in H3. rewrite orb_true_iff, Nat.eqb_eq, negb_true_iff in H3.
    destruct H3 as [H3|H3]; [|exact H3|destruct (uses_false _ _ tok H3 Hw)].
    apply elem_of_list_In, elem_of_map_to_list, Ek.
  - intros tok. apply uses_false, H4.
Qed.
Lemma running_b w p g :
  (Nat.ltb p (w_next w) && Nat.leb 1 (p_count (proc_of w p)) && Nat.leb (p_gen (proc_of w p)) g) = true -> running w p g.
Proof. rewrite !andb_true_iff, Nat.ltb_lt, !Nat.leb_le. intros [[]]. repeat split; assumption. Qed.

(*@file Prop_Cross.v
From Coq Require Import ZArith.
From stdpp Require Import gmap strings list relations.
From Verif Require Import Go Errors Message World Lang Code Sem Spec_App Spec_Conn Spec_View Examples Scenes Spec_Stuck Spec_Cross CrossProofs.
@*)

(*@prop C54 is violated.  [t] is in Connect, or in another request of connection
    [c], and waits without deadline for the reply (conn.go:987-1001); [u] is the
    reader of [c]: a message of a namespace that is being connected came first,
    and it waits for that process to finish (conn.go:585, process.go).  Then both
    wait for ever, whatever else happens: even if the reply arrives, if other
    goroutines connect to the namespace too, or if the connection is closed. @*)
Lemma l_C54_refuted : forall (G : cfg) (s : sys) (t u : tid) (c : cid) (ch : chid) (p : pid) (g : nat),
  user_app (not_fed c) G -> reachable G s -> is_Some (w_conns (s_w s) !! c) ->
  at_op s t (OSelect ch None) -> answered_by (s_w s) c ch ->
  at_op s u (OProcWoken p g) -> running (s_w s) p g ->
  nobody_helps G s t u c ch ->
  stuck G s t /\ stuck G s u.
Proof.
  intros G s t u c ch p g HA Hr Hc [kt Ht] (Ha1 & Ha2 & Ha3 & Ha4) [ku Hu] (Hp1 & Hp2 & Hp3) [Ho Hs].
  apply (cross_stuck G c ch p g HA s t u kt ku Hr Ht Hu).
  - constructor; auto.
    + intros x Hx. specialize (Hs x Hx). destruct x; cbn in *; auto.
    + intros t' l H. rewrite lookup_empty in H. discriminate.
    + intros t' l H. rewrite lookup_empty in H. discriminate.
    + intros t' t'' l l' H. rewrite lookup_empty in H. discriminate.
  - intros t' q Hq Hne Hne'. destruct (Ho t' q Hq Hne Hne') as (x & -> & Hx). exists x. split; [reflexivity|]. destruct x; exact Hx.
Qed.

(** Connection 2 is the client and connection 1 its server side: each gets
    exactly the frames that the other has sent.  The client connects to "chat".
    The server has registered the namespace and is about to send its reply when
    another goroutine of the server sends an event of "chat". *)
Definition crossed : cfg := scene true (fun k => match k with
  | 0 => call (AConnect 2 None "chat") | _ => call (AWrite 1 hello_msg) end).
Definition crossed_run : list cmd :=
  [Go 0; Act1 (Env (EGo (TUpgrade 1))); Go 1; Act1 Start; Go 0; Go 2;
   Act1 (Env (EGo (TDial 2))); Go 3; Act1 Start; Go 4;
   Act1 (Env (EDeliver 1 TextMessage "M")); Go 2; Act1 (Env (EDeliver 2 TextMessage "Aid-1")); Go 4; Go 3;
   Act1 (Env (EGo (TUser 0))); Go 5;
   Act1 (Env (EDeliver 1 TextMessage "$0;chat;;_OnNamespaceConnect;0;0;"))] ++ repeat (Act1 (Step 2)) 10 ++
  [Act1 (Env (EGo (TUser 1))); Go 6; Go 2;
   Act1 (Env (EDeliver 2 TextMessage ";chat;;echo;0;0;hi")); Go 4; Act1 (Env (EDeliver 2 TextMessage "$0;;;;;;")); Go 4; Go 5].
Lemma crossed_app : user_app (not_fed 2) crossed.
Proof. apply scene_app. intros [|k]; cbn; auto. Qed.
(*@exl The server sent the event and then its reply; the client does not get as far as
    reading the reply: neither Connect nor the reader ever goes on. @*)
Lemma x_C54_refuted_example : let s := play crossed crossed_run (init crossed) in
  user_app (not_fed 2) crossed /\ reachable crossed s /\
  c_out (conn_of (s_w s) 2) = [(TextMessage, "M"); (TextMessage, "$0;chat;;_OnNamespaceConnect;0;0;")] /\
  c_out (conn_of (s_w s) 1) = [(TextMessage, "Aid-1"); (TextMessage, ";chat;;echo;0;0;hi"); (TextMessage, "$0;;;;;;")] /\
  c_in (conn_of (s_w s) 2) = [(TextMessage, "$0;;;;;;")] /\ c_closed (conn_of (s_w s) 2) = false /\ s_crash s = None /\
  stuck crossed s 5 /\ stuck crossed s 4.
Proof.
  cbv zeta. set (s := play crossed crossed_run (init crossed)).
  assert (Hr : reachable crossed s) by apply play_reachable.
  split; [exact crossed_app|]. split; [exact Hr|]. do 5 (split; [vm_compute; reflexivity|]).
  apply (l_C54_refuted crossed s 5 4 2 3 1 0 crossed_app Hr).
  - apply has_conn_b. vm_compute. reflexivity.
  - at_op_tac.
  - apply answered_b. vm_compute. reflexivity.
  - at_op_tac.
  - apply running_b. vm_compute. reflexivity.
  - apply nobody_list. vm_compute. reflexivity.
Qed.
