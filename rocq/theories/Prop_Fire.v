(** * Prop_Fire.v : property theorems (generated by tools/genprops.py from FireProofs.v).
    Every proof is the lemma of the same name in FireProofs.v. *)
From Coq Require Import ZArith.
From stdpp Require Import gmap strings list relations.
From RecordUpdate Require Import RecordUpdate.
From Verif Require Import Go Errors Message World Lang Code Sem Spec_Conn Spec_View Examples.
From Verif Require Import Spec_App Scenes AskProofs.
From Verif Require Import FireProofs.

(** C12. In every interleaving and whatever the callbacks do: whenever a
    callback ran for a message (received or local), it was the one registered
    for exactly that event, or the catch-all and none is registered for the event. *)
Theorem C12_which : forall (G : cfg) (s : sys) n key m,
  user_app (fun _ => True) G -> reachable G s -> LFire n key m ∈ w_log (s_w s) -> dispatched G n key m.
Proof. exact l_C12_which. Qed.
Print Assumptions C12_which.

(** C12. An ordinary event that an undisturbed connection receives in a
    connected namespace, whatever the callbacks do: nothing but the chosen
    callback runs, once, with the message; the error it returns, if any, is
    written back.  If no callback is registered for the event and there is no
    catch-all, nothing happens. *)
Theorem C12_dispatch : forall G c t w typ b n,
  calm G w c -> onlyNative G c = false ->
  let m := received G c typ b in
  unasked G w c m -> ordinary m ->
  c_nss (conn_of w c) !! m_namespace m = Some n ->
  let m' := set_isLocal false m in
  exists w1, view w1 c = view w c /\ calm G w1 c /\
    exec t (HandlePayload G c typ b) w =
    match chosen G n (m_event m) with
    | None => XDone w1 None
    | Some (key, h) =>
        exec t (bind (h n m') (fun err =>
          match err with
          | None => Ret None
          | Some e => bind (Write G c (set_err (Some e) m')) (fun _ => Ret (Some e))
          end)) (w1 <| w_log ::= cons (LFire n key m') |>)
    end.
Proof. exact l_C12_dispatch. Qed.
Print Assumptions C12_dispatch.

(** C12. If the namespace is not connected no callback runs. *)
Theorem C12_unconnected : forall G c t w typ b,
  calm G w c -> onlyNative G c = false ->
  let m := received G c typ b in
  unasked G w c m -> ordinary m ->
  c_nss (conn_of w c) !! m_namespace m = None ->
  exists w1, view w1 c = view w c /\ exec t (HandlePayload G c typ b) w = XDone w1 (Some EBadNamespace).
Proof. exact l_C12_unconnected. Qed.
Print Assumptions C12_unconnected.

(** Event "news" has a callback, in the example of C26; there ran one callback.
    In the other example, connection 1 is a member of namespace chat and gets
    an event with a callback and one without; in namespace vip it is no member. *)
Example C12_example :
  let m1 := received exG 1 TextMessage ";chat;;echo;0;0;hi" in
  let m2 := received exG 1 TextMessage ";chat;;other;0;0;hi" in
  let m3 := received exG 1 TextMessage ";vip;;echo;0;0;hi" in
  (exists n m, LFire n "go" m ∈ w_log (s_w (play nosy nosy_run (init nosy)))) /\
  calm exG (s_w exM) 1 /\ onlyNative exG 1 = false /\
  (unasked exG (s_w exM) 1 m1 /\ ordinary m1 /\ exists n, c_nss (conn_of (s_w exM) 1) !! m_namespace m1 = Some n /\
    option_map fst (chosen exG n (m_event m1)) = Some "echo") /\
  (unasked exG (s_w exM) 1 m2 /\ ordinary m2 /\ exists n, c_nss (conn_of (s_w exM) 1) !! m_namespace m2 = Some n /\
    chosen exG n (m_event m2) = None) /\
  unasked exG (s_w exM) 1 m3 /\ ordinary m3 /\ c_nss (conn_of (s_w exM) 1) !! m_namespace m3 = None.
Proof.
  assert (Hu : forall m, m_isInvalid m = false -> String.eqb (m_event m) OnNamespaceConnect = false -> String.eqb (m_event m) OnNamespaceDisconnect = false ->
    String.eqb (m_event m) OnRoomJoin = false -> String.eqb (m_event m) OnRoomLeave = false -> ordinary m).
  { intros m H1 H2 H3 H4 H5. repeat split; auto; apply String.eqb_neq; assumption. }
  cbv zeta. split; [|split; [apply ex_calm; auto|split; [vm_compute; reflexivity|split; [|split]]]].
  - eexists _, _. apply elem_of_list_In. vm_compute. repeat (first [left; reflexivity|right]).
  - split; [left; vm_compute; reflexivity|]. split; [apply Hu; vm_compute; reflexivity|]. eexists. split; vm_compute; reflexivity.
  - split; [left; vm_compute; reflexivity|]. split; [apply Hu; vm_compute; reflexivity|]. eexists. split; vm_compute; reflexivity.
  - split; [left; vm_compute; reflexivity|]. split; [apply Hu; vm_compute; reflexivity|]. vm_compute. reflexivity.
Qed.
