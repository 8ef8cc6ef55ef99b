(** * ForgeProofs.v : the remote side can make up the events that report a membership (C71). *)
From Coq Require Import ZArith.
From stdpp Require Import gmap strings list relations.
From RecordUpdate Require Import RecordUpdate.
From Verif Require Import Go Errors Message World Lang Code Sem ExecProofs Spec_Conn Spec_View Spec_App Spec_Forge FireProofs CarelessProofs IdentProofs Examples.

(*@file Prop_Forge.v
From Coq Require Import ZArith.
From stdpp Require Import gmap strings list relations.
From RecordUpdate Require Import RecordUpdate.
From Verif Require Import Go Errors Message World Lang Code Sem Spec_Conn Spec_View Spec_App Spec_Forge CarelessProofs Examples ForgeProofs. @*)

Lemma view_rooms_in w w' c ns : view w' c = view w c -> rooms_in w' c ns = rooms_in w c ns.
Proof. unfold view, rooms_in. intros H. injection H as H _ _ _. rewrite <- !lookup_fmap, H. reflexivity. Qed.

(*@prop C71.  A frame with one of the three events of a report, in a namespace that the connection is in, runs the callback for it,
    whatever room the frame names and whether or not anything happened; when the callback starts, the connection is in the
    same namespaces and rooms as before.  (So if the named room is not joined, it is not joined in the callback either.) @*)
Lemma l_C71_forged_refuted : forall G c t w typ b n key h,
  calm G w c -> onlyNative G c = false ->
  let m := received G c typ b in
  unasked G w c m -> m_isInvalid m = false -> reports (m_event m) ->
  c_nss (conn_of w c) !! m_namespace m = Some n -> chosen G n (m_event m) = Some (key, h) ->
  let m' := set_isLocal false m in
  exists w1, (forall ns, rooms_in w1 c ns = rooms_in w c ns) /\ LFire n key m' ∈ w_log w1 /\
    exec t (HandlePayload G c typ b) w =
    exec t (bind (h n m') (fun err =>
      match err with
      | None => Ret None
      | Some e => bind (Write G c (set_err (Some e) m')) (fun _ => Ret (Some e))
      end)) w1.
Proof.
  intros G c t w typ b n key h Hc Ho m Hu Hi Hr Hn Hch m'.
  assert (Hm : ordinary m) by (destruct Hr as [E|[E|E]]; repeat split; try exact Hi; rewrite E; discriminate).
  destruct (l_C12_dispatch G c t w typ b n Hc Ho Hu Hm Hn) as (w1 & Hv & _ & He).
  fold m in He. rewrite Hch in He. eexists. split; [|split; [|exact He]].
  - intros ns. rewrite <- (view_rooms_in w w1 c ns Hv). reflexivity.
  - cbn. left.
Qed.

(** The application lets nobody into any room of its namespace. *)
Definition clubA : gmap string (gmap string handler) :=
  {["club" := {[OnRoomJoin := ((fun _ _ => Ret (Some (EUser 0 "members only"))) : handler); OnRoomJoined := ((fun _ _ => Ret None) : handler)]}]}.
Definition clubG : cfg := alone clubA (Ret tt).
Definition clubS : sys := play clubG (handshake1 ++ [Act1 (Env (EDeliver 1 TextMessage "$1;club;;_OnNamespaceConnect;0;0;")); Go 3;
  Act1 (Env (EDeliver 1 TextMessage ";club;vip;_OnRoomJoined;0;0;")); Go 3]) (init clubG).

Definition fire_is (c : cid) (ev ns room : string) (x : event) : bool :=
  match x with
  | LFire n _ m => Nat.eqb (n_conn n) c && String.eqb (m_event m) ev && String.eqb (m_namespace m) ns && String.eqb (m_room m) room
  | _ => false
  end.
(*@prop C71.  The callback of OnRoomJoined can be called although the application refuses every request to join a room, and so
    the connection is not in the room, and no callback was ever asked. @*)
Lemma l_C71_refuted : exists G s c,
  user_app (fun _ => True) G /\ reachable G s /\ refuses_all G c "club" OnRoomJoin /\
  called (s_w s) c OnRoomJoined "club" "vip" /\ ~ called (s_w s) c OnRoomJoin "club" "vip" /\
  rooms_in (s_w s) c "club" = Some ∅.
Proof.
  exists clubG, clubS, 1. split.
  { constructor; try discriminate; try (intros; exact Logic.I).
    intros c ns evs ev h n m H1 H2. change (clubA !! ns = Some evs) in H1. unfold clubA in H1. apply lookup_singleton_Some in H1 as [<- <-].
    apply lookup_insert_Some in H2 as [[<- <-]|[_ H2]]; [|apply lookup_singleton_Some in H2 as [<- <-]]; cbn; auto. }
  split; [apply play_reachable|]. split; [|split; [|split]].
  - eexists _, _. split; [reflexivity|]. split; [reflexivity|]. intros. eexists. reflexivity.
  - destruct (existsb_exists (fire_is 1 OnRoomJoined "club" "vip") (w_log (s_w clubS))) as [H _].
    destruct H as (x & Hx & He); [vm_compute; reflexivity|]. apply elem_of_list_In in Hx. unfold fire_is in He. destruct x as [n key m| | | | | | | | | | | | |]; try discriminate.
    apply andb_prop in He as [He H4]. apply andb_prop in He as [He H3]. apply andb_prop in He as [H1 H2].
    exists n, key, m. split; [exact Hx|]. apply Nat.eqb_eq in H1. apply String.eqb_eq in H2, H3, H4. auto.
  - intros (n & key & m & H & H1 & H2 & H3 & H4). apply elem_of_list_In in H.
    assert (Hn : existsb (fire_is 1 OnRoomJoin "club" "vip") (w_log (s_w clubS)) = true).
    { apply existsb_exists. exists (LFire n key m). split; [exact H|]. unfold fire_is. rewrite H1, H2, H3, H4. reflexivity. }
    assert (existsb (fire_is 1 OnRoomJoin "club" "vip") (w_log (s_w clubS)) = false) as Hf by (vm_compute; reflexivity). rewrite Hf in Hn. discriminate Hn.
  - vm_compute. reflexivity.
Qed.

(*@exl C71_forged_refuted.  The hypotheses hold for a connection that is in the namespace, just before the frame of C71_refuted. @*)
Lemma x_C71_forged_example : exists n h,
  let w := s_w (play clubG (handshake1 ++ [Act1 (Env (EDeliver 1 TextMessage "$1;club;;_OnNamespaceConnect;0;0;")); Go 3]) (init clubG)) in
  let m := received clubG 1 TextMessage ";club;vip;_OnRoomJoined;0;0;" in
  calm clubG w 1 /\ onlyNative clubG 1 = false /\ unasked clubG w 1 m /\ m_isInvalid m = false /\ reports (m_event m) /\
  c_nss (conn_of w 1) !! m_namespace m = Some n /\ chosen clubG n (m_event m) = Some (OnRoomJoined, h) /\ rooms_in w 1 "club" = Some ∅.
Proof.
  eexists _, _. cbv zeta. split; [split; [apply quietb_ok|apply idleb_ok]; vm_compute; reflexivity|].
  split; [vm_compute; reflexivity|]. split; [left; vm_compute; reflexivity|]. split; [vm_compute; reflexivity|].
  split; [right; left; vm_compute; reflexivity|]. split; [vm_compute; reflexivity|]. split; vm_compute; reflexivity.
Qed.
