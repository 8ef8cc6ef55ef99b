(** * Prop_Forge.v : property theorems (generated by tools/genprops.py from ForgeProofs.v).
    Every proof is the lemma of the same name in ForgeProofs.v. *)
From Coq Require Import ZArith.
From stdpp Require Import gmap strings list relations.
From RecordUpdate Require Import RecordUpdate.
From Verif Require Import Go Errors Message World Lang Code Sem Spec_Conn Spec_View Spec_App Spec_Forge CarelessProofs Examples ForgeProofs.
From Verif Require Import ForgeProofs.

(** C71.  A frame with one of the three events of a report, in a namespace that the connection is in, runs the callback for it,
    whatever room the frame names and whether or not anything happened; when the callback starts, the connection is in the
    same namespaces and rooms as before.  (So if the named room is not joined, it is not joined in the callback either.) *)
Theorem C71_forged_refuted : forall G c t w typ b n key h,
  calm G w c -> onlyNative G c = false ->
  let m := received G c typ b in
  unasked G w c m -> m_isInvalid m = false -> reports (m_event m) ->
  c_nss (conn_of w c) !! m_namespace m = Some n -> chosen G n (m_event m) = Some (key, h) ->
  let m' := set_isLocal false m in
  exists w1, (forall ns, rooms_in w1 c ns = rooms_in w c ns) /\ LFire n key m' ∈ w_log w1 /\
    exec t (HandlePayload G c typ b) w =
    exec t (bind (h n m') (fun err =>
      match err with
      | None => Ret None
      | Some e => bind (Write G c (set_err (Some e) m')) (fun _ => Ret (Some e))
      end)) w1.
Proof. exact l_C71_forged_refuted. Qed.
Print Assumptions C71_forged_refuted.

(** C71.  The callback of OnRoomJoined can be called although the application refuses every request to join a room, and so
    the connection is not in the room, and no callback was ever asked. *)
Theorem C71_refuted : exists G s c,
  user_app (fun _ => True) G /\ reachable G s /\ refuses_all G c "club" OnRoomJoin /\
  called (s_w s) c OnRoomJoined "club" "vip" /\ ~ called (s_w s) c OnRoomJoin "club" "vip" /\
  rooms_in (s_w s) c "club" = Some ∅.
Proof. exact l_C71_refuted. Qed.
Print Assumptions C71_refuted.

(** C71_forged_refuted.  The hypotheses hold for a connection that is in the namespace, just before the frame of C71_refuted. *)
Example C71_forged_example : exists n h,
  let w := s_w (play clubG (handshake1 ++ [Act1 (Env (EDeliver 1 TextMessage "$1;club;;_OnNamespaceConnect;0;0;")); Go 3]) (init clubG)) in
  let m := received clubG 1 TextMessage ";club;vip;_OnRoomJoined;0;0;" in
  calm clubG w 1 /\ onlyNative clubG 1 = false /\ unasked clubG w 1 m /\ m_isInvalid m = false /\ reports (m_event m) /\
  c_nss (conn_of w 1) !! m_namespace m = Some n /\ chosen clubG n (m_event m) = Some (OnRoomJoined, h) /\ rooms_in w 1 "club" = Some ∅.
Proof. exact x_C71_forged_example. Qed.
