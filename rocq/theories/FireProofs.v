(** * FireProofs.v : C12, which callback runs. *)
From Coq Require Import ZArith.
From stdpp Require Import gmap strings list relations.
From RecordUpdate Require Import RecordUpdate.
From Verif Require Import Go Errors Message World Lang Code Sem ExecProofs Spec_Conn Spec_View SeqProofs ConnProofs LocalProofs CloseProofs Examples.
From Verif Require Import Logic Spec_App Scenes Frame Inert.
From Verif Require AskProofs.

(** ** Invariants that every operation keeps *)
Definition wild (G : cfg) (inv : world -> Prop) : disc := {|
  d_may := fun o => forall n e m, o = OLog (LFire n e m) -> dispatched G n e m;
  d_ret := fun _ _ => True; d_start := fun _ => True; d_call := fun _ => True; d_inv := inv |}.
Section wild.
Context (G : cfg) (A : user_app (fun _ => True) G) (inv : world -> Prop).
Context (Hop : forall t w o, inv w -> (forall n e m, o = OLog (LFire n e m) -> dispatched G n e m) ->
  match ostep t w o with Goes w' _ => inv w' | _ => True end).
Context (Hspawn : forall w c rest, inv w -> w_spawn w = c :: rest -> inv (w <| w_spawn := rest |>)).
Context (Henv : forall w e, inv w -> inv (env_step e w)).
Context (H0 : inv world0).
Notation D := (wild G inv).
Lemma wi_free o : free_op o = true -> (forall n e m, o = OLog (LFire n e m) -> dispatched G n e m) -> d_may D o.
Proof. intros _ H. exact H. Qed.
Lemma wi_read c r : d_ret D (ORead c) r -> (fun _ : cid => True) c.
Proof. intros; exact I. Qed.
Lemma wi_gate o : gate_op o = true -> d_may D o.
Proof. intros Ho n e m ->. discriminate. Qed.
Lemma wi_proc o : proc_op o = true -> d_may D o.
Proof. intros Ho n e m ->. discriminate. Qed.
Lemma wi_chan o : chan_op o = true -> d_may D o.
Proof. intros Ho n e m ->. discriminate. Qed.
Lemma wi_gates : @gates G (DS D) (fun _ _ => True) (fun _ _ => True) (fun _ => True).
Proof.
  split; [intros ? _; apply (ds_gate_w G D (fun _ => True) wi_free wi_read A), wi_gate|intros ? ? _; apply (ds_gate_u G D (fun _ => True) wi_free wi_read A), wi_gate
    |apply (ds_proc_get G D (fun _ => True) wi_free wi_read A), wi_proc|apply (ds_proc_Done G D (fun _ => True) wi_free wi_read A), wi_proc
    |apply (ds_proc_Wait G D (fun _ => True) wi_free wi_read A), wi_proc|apply (ds_proc_Start G D (fun _ => True) wi_free wi_read A), wi_proc].
Qed.
Lemma wi_send ch m : @kp (DS D) (fun _ _ => True) _ (send ch m).
Proof. apply (ds_send G D (fun _ => True) wi_free wi_read A wi_gates), wi_chan. Qed.
Lemma wi_disciplined : disciplined G D ∅.
Proof.
  split.
  - intros t w o Hw Hm _. pose proof (Hop t w o Hw Hm). destruct (ostep t w o); auto.
    split; [assumption|exact I].
  - intros a _. apply (ds_impl G D (fun _ => True) wi_free wi_read A wi_gates); try (intros; exact I); try (intros; apply wi_send); try (intros; apply ds_opr, wi_gate; reflexivity).
    + apply (ds_ask G D (fun _ => True) wi_free wi_read A wi_gates), wi_chan.
    + apply (ds_srvask G D (fun _ => True) wi_free wi_read A wi_gates), wi_chan.
    + intros; apply wi_chan; reflexivity.
    + intros; apply wi_chan; reflexivity.
  - intros a _. apply (ds_code G D (fun _ => True) wi_free wi_read A wi_gates); try (intros; exact I); try (intros; apply wi_send); try (intros; apply ds_opr, wi_gate; reflexivity).
    + apply (ds_ask G D (fun _ => True) wi_free wi_read A wi_gates), wi_chan.
    + apply (ds_srvask G D (fun _ => True) wi_free wi_read A wi_gates), wi_chan.
    + intros; apply wi_chan; reflexivity.
    + intros; apply wi_chan; reflexivity.
  - intros w c rest Hw Hs. split; [exact I|]. eapply Hspawn; eassumption.
  - intros; exact I.
  - exact Henv.
  - intros t p w Hp. rewrite lookup_empty in Hp. discriminate.
Qed.
Lemma wild_reachable s : reachable G s -> inv (s_w s).
Proof.
  intros Hs. apply (inert_steps G D ∅ wi_disciplined (init G) s); [|exact Hs].
  split; [exact H0|]. split; [|split].
  - intros t Hle. cbn in *. apply lookup_singleton_ne. lia.
  - intros t p Hp. rewrite lookup_empty in Hp. discriminate.
  - intros t p Hp _. unfold init in Hp. cbn [s_th] in Hp. apply lookup_singleton_Some in Hp as [_ <-]. apply (do_code _ _ _ wi_disciplined). exact I.
Qed.
End wild.

(** Only two operations change the log. *)
Ltac split_goes := repeat match goal with
  | |- match (if ?b then _ else _) with _ => _ end => destruct b eqn:?
  | |- match (match ?x with _ => _ end) with _ => _ end => destruct x eqn:?
  end; try exact I.
Lemma ostep_log t w o : match ostep t w o with Goes w' _ => w_log w' = match o with OLog e => e :: w_log w | OBSet msgs => LBcast msgs :: w_log w | _ => w_log w end | _ => True end.
Proof.
  destruct o; cbn [ostep]; cbv zeta; split_goes; try reflexivity.
Qed.
Lemma env_log e w : w_log (env_step e w) = w_log w.
Proof. destruct e; cbn [env_step]; try reflexivity; repeat match goal with |- context [match ?x with _ => _ end] => destruct x; try reflexivity end. Qed.

(*@file Prop_Fire.v
From Coq Require Import ZArith.
From stdpp Require Import gmap strings list relations.
From RecordUpdate Require Import RecordUpdate.
From Verif Require Import Go Errors Message World Lang Code Sem Spec_Conn Spec_View Examples.
From Verif Require Import Spec_App Scenes AskProofs. @*)

(*@prop C12. In every interleaving and whatever the callbacks do: whenever a
    callback ran for a message (received or local), it was the one registered
    for exactly that event, or the catch-all and none is registered for the event. @*)
Lemma l_C12_which : forall (G : cfg) (s : sys) n key m,
  user_app (fun _ => True) G -> reachable G s -> LFire n key m ∈ w_log (s_w s) -> dispatched G n key m.
Proof.
  intros G s n key m A Hs. revert n key m.
  apply (wild_reachable G A (fun w => forall n key m, LFire n key m ∈ w_log w -> dispatched G n key m)); [| | | |exact Hs].
  - intros t w o Hw Hm. pose proof (ostep_log t w o) as E. destruct (ostep t w o) as [w' r| |]; auto. rewrite E.
    destruct o; auto; intros n key m Hin; (apply elem_of_cons in Hin as [Hin|Hin]; [|auto]); [discriminate|]. subst e. apply Hm. reflexivity.
  - intros w c rest Hw _. exact Hw.
  - intros w e Hw. rewrite env_log. exact Hw.
  - intros n key m Hin. apply elem_of_nil in Hin. destruct Hin.
Qed.

(*@prop C12. An ordinary event that an undisturbed connection receives in a
    connected namespace, whatever the callbacks do: nothing but the chosen
    callback runs, once, with the message; the error it returns, if any, is
    written back.  If no callback is registered for the event and there is no
    catch-all, nothing happens. @*)
Lemma l_C12_dispatch : forall G c t w typ b n,
  calm G w c -> onlyNative G c = false ->
  let m := received G c typ b in
  unasked G w c m -> ordinary m ->
  c_nss (conn_of w c) !! m_namespace m = Some n ->
  let m' := set_isLocal false m in
  exists w1, view w1 c = view w c /\ calm G w1 c /\
    exec t (HandlePayload G c typ b) w =
    match chosen G n (m_event m) with
    | None => XDone w1 None
    | Some (key, h) =>
        exec t (bind (h n m') (fun err =>
          match err with
          | None => Ret None
          | Some e => bind (Write G c (set_err (Some e) m')) (fun _ => Ret (Some e))
          end)) (w1 <| w_log ::= cons (LFire n key m') |>)
    end.
Proof.
  intros G c t w typ b n [Q Hid] Hon m Hu (Hi & H1 & H2 & H3 & H4) Hn m'.
  assert (E0 : exec t (HandlePayload G c typ b) w = exec t (handle_event G c m) w).
  { unfold HandlePayload. change (deserialize G c typ b) with m. unfold handleMessage. rewrite Hi, Hon, andb_false_r.
    change (IsClient G c) with (g_client G c). destruct Hu as [->|[[Hp1 Hp2] Hx]]; [reflexivity|].
    destruct (IsWait (g_client G c) m); [|reflexivity].
    assert (Hr : exec t (handle_reply_or_event G c m) w = exec t (handle_event G c m) w).
    { unfold handle_reply_or_event. cbn [opr bind exec ostep]. rewrite Hp1. reflexivity. }
    destruct (g_client G c) eqn:Ec; [exact Hr|].
    assert (Hs : exec t (bind (opr (OSWaitGet (m_wait m))) (fun w => match w with Some ch => bind (send ch m) (fun _ => Ret None) | None => handle_reply_or_event G c m end)) w = exec t (handle_event G c m) w).
    { cbn [opr bind exec ostep]. rewrite (Hp2 eq_refl). exact Hr. }
    destruct Hx as [Hx|[Hx|Hx]]; [rewrite Hx|rewrite Hx|discriminate]; [destruct (g_exch G)|]; exact Hs. }
  rewrite E0. unfold handle_event.
  rewrite (proj2 (String.eqb_neq _ _) H1), (proj2 (String.eqb_neq _ _) H2), (proj2 (String.eqb_neq _ _) H3), (proj2 (String.eqb_neq _ _) H4).
  destruct (tryNamespace_runs G c t w _ _ m (at_intro G c w Q) Hid) as (w1 & E1 & A1 & O1).
  { unfold isConnect. apply String.eqb_neq. exact H1. } { unfold isDisconnect. apply String.eqb_neq. exact H2. }
  exists w1. split; [apply (a_view _ _ _ _ _ A1)|]. split; [split; [apply (a_quiet _ _ _ _ _ A1)|apply (y_idle _ _ _ O1), Hid]|].
  rewrite (exec_bind_done _ _ _ _ _ _ E1), Hn. fold m'. unfold fireEvent, chosen, ns_events.
  change (m_event m') with (m_event m).
  destruct (g_namespaces G (n_conn n) !! n_name n) as [evs|]; cbn [default from_option]; [|unfold id; rewrite !lookup_empty; reflexivity].
  unfold id. destruct (evs !! m_event m) as [h|]; [|destruct (evs !! OnAnyEvent) as [h|]; [|reflexivity]];
    reflexivity.
Qed.

(*@prop C12. If the namespace is not connected no callback runs. @*)
Lemma l_C12_unconnected : forall G c t w typ b,
  calm G w c -> onlyNative G c = false ->
  let m := received G c typ b in
  unasked G w c m -> ordinary m ->
  c_nss (conn_of w c) !! m_namespace m = None ->
  exists w1, view w1 c = view w c /\ exec t (HandlePayload G c typ b) w = XDone w1 (Some EBadNamespace).
Proof.
  intros G c t w typ b [Q Hid] Hon m Hu (Hi & H1 & H2 & H3 & H4) Hn.
  assert (E0 : exec t (HandlePayload G c typ b) w = exec t (handle_event G c m) w).
  { unfold HandlePayload. change (deserialize G c typ b) with m. unfold handleMessage. rewrite Hi, Hon, andb_false_r.
    change (IsClient G c) with (g_client G c). destruct Hu as [->|[[Hp1 Hp2] Hx]]; [reflexivity|].
    destruct (IsWait (g_client G c) m); [|reflexivity].
    assert (Hr : exec t (handle_reply_or_event G c m) w = exec t (handle_event G c m) w).
    { unfold handle_reply_or_event. cbn [opr bind exec ostep]. rewrite Hp1. reflexivity. }
    destruct (g_client G c) eqn:Ec; [exact Hr|].
    assert (Hs : exec t (bind (opr (OSWaitGet (m_wait m))) (fun w => match w with Some ch => bind (send ch m) (fun _ => Ret None) | None => handle_reply_or_event G c m end)) w = exec t (handle_event G c m) w).
    { cbn [opr bind exec ostep]. rewrite (Hp2 eq_refl). exact Hr. }
    destruct Hx as [Hx|[Hx|Hx]]; [rewrite Hx|rewrite Hx|discriminate]; [destruct (g_exch G)|]; exact Hs. }
  rewrite E0. unfold handle_event.
  rewrite (proj2 (String.eqb_neq _ _) H1), (proj2 (String.eqb_neq _ _) H2), (proj2 (String.eqb_neq _ _) H3), (proj2 (String.eqb_neq _ _) H4).
  destruct (tryNamespace_runs G c t w _ _ m (at_intro G c w Q) Hid) as (w1 & E1 & A1 & O1).
  { unfold isConnect. apply String.eqb_neq. exact H1. } { unfold isDisconnect. apply String.eqb_neq. exact H2. }
  exists w1. split; [apply (a_view _ _ _ _ _ A1)|]. rewrite (exec_bind_done _ _ _ _ _ _ E1), Hn. reflexivity.
Qed.

(*@ex
(** Event "news" has a callback, in the example of C26; there ran one callback.
    In the other example, connection 1 is a member of namespace chat and gets
    an event with a callback and one without; in namespace vip it is no member. *)
Example C12_example :
  let m1 := received exG 1 TextMessage ";chat;;echo;0;0;hi" in
  let m2 := received exG 1 TextMessage ";chat;;other;0;0;hi" in
  let m3 := received exG 1 TextMessage ";vip;;echo;0;0;hi" in
  (exists n m, LFire n "go" m ∈ w_log (s_w (play nosy nosy_run (init nosy)))) /\
  calm exG (s_w exM) 1 /\ onlyNative exG 1 = false /\
  (unasked exG (s_w exM) 1 m1 /\ ordinary m1 /\ exists n, c_nss (conn_of (s_w exM) 1) !! m_namespace m1 = Some n /\
    option_map fst (chosen exG n (m_event m1)) = Some "echo") /\
  (unasked exG (s_w exM) 1 m2 /\ ordinary m2 /\ exists n, c_nss (conn_of (s_w exM) 1) !! m_namespace m2 = Some n /\
    chosen exG n (m_event m2) = None) /\
  unasked exG (s_w exM) 1 m3 /\ ordinary m3 /\ c_nss (conn_of (s_w exM) 1) !! m_namespace m3 = None.
Proof.
  assert (Hu : forall m, m_isInvalid m = false -> String.eqb (m_event m) OnNamespaceConnect = false -> String.eqb (m_event m) OnNamespaceDisconnect = false ->
    String.eqb (m_event m) OnRoomJoin = false -> String.eqb (m_event m) OnRoomLeave = false -> ordinary m).
  { intros m H1 H2 H3 H4 H5. repeat split; auto; apply String.eqb_neq; assumption. }
  cbv zeta. split; [|split; [apply ex_calm; auto|split; [vm_compute; reflexivity|split; [|split]]]].
  - eexists _, _. apply elem_of_list_In. vm_compute. repeat (first [left; reflexivity|right]).
  - split; [left; vm_compute; reflexivity|]. split; [apply Hu; vm_compute; reflexivity|]. eexists. split; vm_compute; reflexivity.
  - split; [left; vm_compute; reflexivity|]. split; [apply Hu; vm_compute; reflexivity|]. eexists. split; vm_compute; reflexivity.
  - split; [left; vm_compute; reflexivity|]. split; [apply Hu; vm_compute; reflexivity|]. vm_compute. reflexivity.
Qed.
@*)
