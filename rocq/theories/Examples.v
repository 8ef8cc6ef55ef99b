(** * Examples.v : a concrete application and reachable worlds, used to show
    that the hypotheses of the theorems can be met. *)
From Coq Require Import ZArith.
From stdpp Require Import gmap strings list relations.
From RecordUpdate Require Import RecordUpdate.
From Verif Require Import Go Errors Message World Lang Code Sem Spec_Conn Spec_View.

(** Namespace "chat": everybody may connect; only room "open" may be joined;
    leaving room "jail" and disconnecting while "stay" is in the body are refused; event "echo"
    replies with its body and "fail" with an error.  Namespace "vip" refuses everybody. *)
Definition exA : app :=
  <["chat" := <[OnRoomJoin := fun m => if String.eqb (m_room m) "closed" then Some (EUser 1 "closed room") else None]>
             (<[OnRoomLeave := fun m => if String.eqb (m_room m) "jail" then Some (EUser 2 "no way out") else None]>
             (<[OnNamespaceDisconnect := fun m => if String.eqb (m_body m) "stay" then Some (EUser 3 "stay") else None]>
             (<["echo" := fun m => Some (EReply (m_body m))]>
             (<["fail" := fun m => Some EBadRoom]>
             (<[OnNamespaceConnected := fun m => None]>
             {[OnRoomLeft := fun m => None]})))))]>
  (<["vip" := {[OnNamespaceConnect := fun m => Some (EUser 4 "members only")]}]> ∅).

(** Connection 1 is a server-side one, connection 2 a client-side one. *)
Definition exG : cfg := {|
  g_client := fun c => Nat.eqb c 2;
  g_namespaces := fun _ => lift exA;
  g_connid := fun c => "id-1";
  g_uuid := "u";
  g_ptr := fun c => "0x1";
  g_known := knownErrors0;
  g_exch := None;
  g_sync := false;
  g_firealways := false;
  g_onconnect := None;
  g_ondisconnect := None;
  g_do := fun _ _ => Ret tt;
  g_user := fun _ => Ret tt |}.

(** Scripts: some actions, or run one goroutine until it blocks. *)
Inductive cmd : Type := Act1 (a : action) | Go (t : tid).
Fixpoint play (G : cfg) (l : list cmd) (s : sys) : sys :=
  match l with
  | [] => s
  | Act1 a :: l' => play G l' (default s (step G a s))
  | Go t :: l' => play G l' (drive G 500 t s)
  end.

Lemma drive_steps G n t s : steps G s (drive G n t s).
Proof.
  revert s; induction n as [|n IH]; intros s; [apply rtc_refl|]. cbn [drive].
  destruct (step G (Step t) s) as [s'|] eqn:E; [|apply rtc_refl].
  eapply rtc_l; [exists (Step t); exact E|apply IH].
Qed.
Lemma play_steps G l s : steps G s (play G l s).
Proof.
  revert s; induction l as [|[a|t] l IH]; intros s; cbn [play]; [apply rtc_refl| |].
  - destruct (step G a s) as [s'|] eqn:E; cbn; [|apply IH].
    eapply rtc_l; [exists a; exact E|apply IH].
  - eapply rtc_transitive; [apply drive_steps|apply IH].
Qed.
Lemma play_reachable G l : reachable G (play G l (init G)).
Proof. apply play_steps. Qed.

(** A client connects to the server: the handshake on connection 1 (server
    side).  Goroutine 0 is the server loop, 1 Upgrade, 2 the broadcast reader,
    3 the message reader. *)
Definition handshake1 : list cmd :=
  [Go 0; Act1 (Env (EGo (TUpgrade 1))); Go 1; Act1 Start; Act1 Start; Go 0; Go 2; Go 3; Go 1;
   Act1 (Env (EDeliver 1 TextMessage "M")); Go 3].
(** A client-side connection whose handshake is over: 4 is Dial, 5 its reader. *)
Definition handshake2 : list cmd :=
  [Act1 (Env (EGo (TDial 2))); Go 4; Act1 Start; Go 5; Act1 (Env (EDeliver 2 TextMessage "Aid-1")); Go 5; Go 4].
Definition exS : sys := play exG (handshake1 ++ handshake2) (init exG).
(** Then the server side has joined namespace chat and two rooms. *)
Definition member1 : list cmd :=
  [Act1 (Env (EDeliver 1 TextMessage "$1;chat;;_OnNamespaceConnect;0;0;"));
   Act1 (Env (EDeliver 1 TextMessage "$2;chat;open;_OnRoomJoin;0;0;"));
   Act1 (Env (EDeliver 1 TextMessage "$3;chat;jail;_OnRoomJoin;0;0;")); Go 3].
Definition exM : sys := play exG (handshake1 ++ handshake2 ++ member1) (init exG).

(** Executable versions of the hypotheses. *)
Definition quietb (G : cfg) (w : world) (c : cid) : bool :=
  let k := conn_of w c in
  match w_conns w !! c with
  | None => false
  | Some _ =>
      negb (c_closed k) && negb (c_sockclosed k) && match c_wfail k with None => true | _ => false end &&
      (g_client G c || w_ready (c_wait k)) && match c_nsmu k with RW None [] => true | _ => false end &&
      forallb (fun e : string * nsref => Nat.eqb (n_conn (snd e)) c && String.eqb (n_name (snd e)) (fst e) &&
         match w_nss w !! n_id (snd e) with
         | Some o => nsref_eqb (o_ref o) (snd e) && match o_mu o with RW None [] => true | _ => false end
         | None => false end) (map_to_list (c_nss k)) &&
      forallb (fun e : nat * nsobj => fst e <? w_next w) (map_to_list (w_nss w))
  end.
Definition idleb (w : world) (c : cid) : bool :=
  forallb (fun e : string * pid => (snd e <? w_next w) &&
     (p_done (proc_of w (snd e)) || Nat.eqb (p_count (proc_of w (snd e))) 0)) (map_to_list (c_procs (conn_of w c))).

Lemma rw_none l : match l with RW None [] => true | _ => false end = true -> l = rw0.
Proof. destruct l as [[?|] [|? ?]]; try discriminate. reflexivity. Qed.

Lemma nsref_eqb_eq a b : nsref_eqb a b = true -> a = b.
Proof.
  unfold nsref_eqb. rewrite !andb_true_iff, !Nat.eqb_eq, String.eqb_eq. destruct a, b; cbn. intros [[-> ->] ->]. reflexivity.
Qed.

Lemma quietb_ok G w c : quietb G w c = true -> quiet G w c.
Proof.
  unfold quietb, quiet. destruct (w_conns w !! c) as [k|] eqn:E; [|discriminate].
  rewrite !andb_true_iff, !negb_true_iff. intros ((((((H1 & H2) & H3) & H4) & H5) & H6) & H7).
  split; [unfold conn_of; rewrite E; reflexivity|]. split; auto.
  - destruct (c_wfail (conn_of w c)); [discriminate|reflexivity].
  - intros Hc. rewrite Hc in H4. exact H4.
  - apply rw_none, H5.
  - intros name n Hn. apply elem_of_map_to_list in Hn. rewrite forallb_forall in H6.
    specialize (H6 (name, n)). cbn in H6. rewrite !andb_true_iff, Nat.eqb_eq, String.eqb_eq in H6.
    destruct H6 as ((Hc & Hnm) & Ho); [apply elem_of_list_In, Hn|]. split; [exact Hc|]. split; [exact Hnm|].
    destruct (w_nss w !! n_id n) as [o|]; [|discriminate]. rewrite andb_true_iff in Ho. destruct Ho as [Ho1 Ho2].
    exists o. split; [reflexivity|]. split; [apply nsref_eqb_eq, Ho1|apply rw_none, Ho2].
  - intros id o Ho. apply elem_of_map_to_list in Ho. rewrite forallb_forall in H7.
    specialize (H7 (id, o)). cbn in H7. apply Nat.ltb_lt, H7, elem_of_list_In, Ho.
Qed.
Lemma idleb_ok w c : idleb w c = true -> idle w c.
Proof.
  unfold idleb, idle. rewrite forallb_forall. intros H name p Hp. apply elem_of_map_to_list, elem_of_list_In in Hp.
  specialize (H _ Hp). cbn in H. rewrite andb_true_iff, orb_true_iff, Nat.eqb_eq in H. destruct H as [H1 H2]. split; [apply Nat.ltb_lt, H1|exact H2].
Qed.

Lemma exA_text ns evs key f m e : exA !! ns = Some evs -> evs !! key = Some f -> f m = Some e ->
  exists text, err_text e = Ok text.
Proof.
  intros H1 H2 H3. unfold exA in H1.
  repeat match goal with
  | H : <[_ := _]> _ !! _ = Some _ |- _ => apply lookup_insert_Some in H as [[<- <-]|[_ H]]
  | H : {[_ := _]} !! _ = Some _ |- _ => apply lookup_singleton_Some in H as [<- <-]
  | H : ∅ !! _ = Some _ |- _ => rewrite lookup_empty in H; discriminate
  end; cbn in H3;
  repeat match goal with H : (if ?b then _ else _) = Some _ |- _ => destruct b end;
  try discriminate; injection H3 as <-; cbn; eauto.
Qed.

Lemma ex_setting c : setting exG c exA.
Proof.
  split; [reflexivity|intros; eapply exA_text; eassumption|].
  unfold onlyNative, allowNative. cbn. reflexivity.
Qed.
Lemma ex_calm c : c = 1 \/ c = 2 -> calm exG (s_w exM) c.
Proof. intros [->| ->]; (split; [apply quietb_ok|apply idleb_ok]; vm_compute; reflexivity). Qed.
Lemma ex_nobody c tok : c = 1 \/ c = 2 -> no_pending exG (s_w exM) c tok.
Proof.
  intros H. split.
  - assert (c_waiting (conn_of (s_w exM) c) = ∅) as -> by (destruct H as [->| ->]; vm_compute; reflexivity). apply lookup_empty.
  - intros _. assert (s_waiting (w_srv (s_w exM)) = ∅) as -> by (vm_compute; reflexivity). apply lookup_empty.
Qed.
Lemma ex_unasked c m : c = 1 \/ c = 2 -> unasked exG (s_w exM) c m.
Proof. intros H. right. split; [apply ex_nobody, H|]. right; left; reflexivity. Qed.

(** Equality of finite maps and sets by computation. *)
Ltac decide_eq := refine (bool_decide_eq_true_1 _ _); vm_compute; reflexivity.
