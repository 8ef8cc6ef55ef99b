(** * LocalProofs.v : C22, Connect, Disconnect, JoinRoom and Leave called locally. *)
From Coq Require Import ZArith.
From stdpp Require Import gmap strings list relations.
From RecordUpdate Require Import RecordUpdate.
From Verif Require Import Go Errors Message World Lang Code Sem ExecProofs Spec_Conn Spec_View Spec_Wire CodecProofs SeqProofs ConnProofs.

Section local.
Context (G : cfg) (c : cid) (A : app) (S : setting G c A).

(** Worlds with the same namespace objects and processes. *)
Record plain (w w' : world) : Prop := Plain {
  pl_nss : w_nss w' = w_nss w;
  pl_c : c_nss (conn_of w' c) = c_nss (conn_of w c);
  pl_procs : w_procs w' = w_procs w;
  pl_cprocs : c_procs (conn_of w' c) = c_procs (conn_of w c);
  pl_others : forall c', c' <> c -> w_conns w' !! c' = w_conns w !! c';
  pl_log : forall c', c' <> c -> fired_of c' (w_log w') = fired_of c' (w_log w) /\ subs_of c' (w_log w') = subs_of c' (w_log w);
  pl_srv : w_srv w' = w_srv w;
  pl_now : w_now w' = w_now w;
  pl_ctxs : w_ctxs w' = w_ctxs w;
  pl_spawn : w_spawn w' = w_spawn w;
  pl_id : c_id (conn_of w' c) = c_id (conn_of w c);
  pl_next : w_next w <= w_next w' }.

Lemma plain_z w w' : plain w w' -> others c w w'.
Proof.
  intros []. split; auto.
  - intros id o E _. rewrite pl_nss0. exact E.
  - intros p _ _. unfold proc_of. rewrite pl_procs0. reflexivity.
  - intros name p E. rewrite pl_cprocs0 in E. auto.
Qed.
Lemma only_send_plain f w : plain w (send_world c f w).
Proof.
  split; unfold send_world; rewrite ?conn_upd_eq; auto. intros c' H. apply upd_conn_ne, H.
Qed.
Lemma plain_trans w1 w2 w3 : plain w1 w2 -> plain w2 w3 -> plain w1 w3.
Proof.
  intros [] []. split; try congruence; [| |lia].
  - intros c' H. rewrite pl_others1, pl_others0 by exact H. reflexivity.
  - intros c' H. destruct (pl_log1 _ H) as [-> ->]. auto.
Qed.

Definition ask_world (tok : string) (w : world) : world :=
  upd_conn c (fun k => k <| c_waiting ::= <[tok := w_next w]> |>)
    (w <| w_chans ::= <[w_next w := chan0 1]> |> <| w_next ::= Datatypes.S |> <| w_log ::= cons (LAsk c tok) |>).

Lemma ask_world_plain tok w : plain w (ask_world tok w).
Proof.
  unfold ask_world. split; rewrite ?conn_upd_eq; auto; [|cbn; lia].
  intros c' H. rewrite upd_conn_ne by exact H. reflexivity.
Qed.

Lemma at_ask tok w s nm : at_ G c w s nm -> at_ G c (ask_world tok w) s nm.
Proof.
  intros H. pose proof (a_quiet _ _ _ _ _ H) as [Hm Q]. unfold ask_world. split.
  - split; [rewrite conn_upd_eq; apply lookup_insert|]. rewrite conn_upd_eq. destruct Q. split; cbn; auto.
    intros id o E. specialize (q_fresh_ _ _ E). lia.
  - rewrite <- (a_view _ _ _ _ _ H). unfold view. rewrite conn_upd_eq. reflexivity.
  - rewrite conn_upd_eq. apply (a_nm _ _ _ _ _ H).
Qed.

Definition ask_k (x : ctxref) (tok : string) (r : gerr + message) : prog (message * option gerr) :=
  match r with
  | inl e =>
      bind (opr (OIsClosed c)) (fun closed =>
      Ret (no_message, Some (if closed : bool then EWrite else e)))
  | inr receive =>
      bind (opr (OWaitDel c tok)) (fun _ =>
      bind (opr (OLog (LAskReply c tok receive false))) (fun _ =>
      Ret (receive, m_err receive)))
  end.

Lemma ask_blocks t w s nm x m : at_ G c w s nm -> ctx_live w x -> printable m ->
  c_inside (conn_of w c) = false ->
  let tok := genWait (g_client G c) (w_now w) in
  let m' := set_wait tok m in
  may_send (role_of G c w) (cs_rooms s) m' = true ->
  exists w1, exec t (Ask G c x m) w = XBlocked w1 (OSelect (w_next w) x) (ask_k x tok) /\
    at_ G c w1 (push (wire_of m') s) nm /\ plain w w1 /\ waits_for w1 c tok (w_next w).
Proof.
  intros H Hx Hp Hin tok m' Hmay. unfold Ask.
  rewrite (exec_opb t (OIsInside c) _ _ w false) by (cbn [ostep]; rewrite Hin; reflexivity).
  unfold ask. rewrite (app_mixed _ _ _ S).
  rewrite (exec_opb t (OIsClosed c) _ _ w false) by (cbn [ostep]; rewrite (q_open _ _ _ (a_quiet _ _ _ _ _ H)); reflexivity).
  rewrite (exec_opb t (OCtxLate x) _ _ w false).
  2:{ cbn [ostep]. f_equal. destruct x as [k|]; [|reflexivity]. cbn in Hx. destruct (w_ctxs w !! k) as [xc|]; [|reflexivity].
      destruct Hx as [_ Hx]. destruct (x_deadline xc); [|reflexivity]. apply Z.ltb_ge. exact Hx. }
  rewrite (exec_opb t (ONewChan 1) _ _ _ _ eq_refl).
  rewrite (exec_opb t ONow _ _ _ _ eq_refl).
  change (IsClient G c) with (g_client G c). change (w_now (w <| w_chans ::= _ |> <| w_next ::= _ |>)) with (w_now w). fold tok. fold m'.
  rewrite (exec_opb t (OLog (LAsk c tok)) _ _ _ _ eq_refl).
  change (if false then opr (OSpawn (TReadNext c (w_next w))) else opr (OWaitPut c tok (w_next w)))
    with (opr (OWaitPut c tok (w_next w))).
  rewrite (exec_opb t (OWaitPut c tok (w_next w)) _ _ (ask_world tok w) tt eq_refl).
  pose proof (at_ask tok _ _ _ H) as H1. pose proof (ask_world_plain tok w) as P1.
  assert (HR : role_of G c (ask_world tok w) = role_of G c w).
  { unfold role_of, ask_world. rewrite conn_upd_eq. reflexivity. }
  destruct (Write_runs G c t _ _ _ m' H1 Hp) as (w2 & E2 & H2 & O2).
  rewrite HR in E2, H2. rewrite Hmay in E2. unfold try_send in H2. rewrite Hmay in H2.
  rewrite (exec_bind_done _ _ _ _ _ _ E2). cbn [negb].
  assert (E2' : w2 = send_world c (wire_of m') (ask_world tok w)).
  { unfold Write in E2. rewrite (exec_bind_done _ _ _ _ _ _ (canWrite_exec G c t _ _ _ m' H1)) in E2.
    rewrite HR, Hmay in E2. cbn [negb] in E2. unfold wire_of.
    destruct (serialize_printable m' Hp) as [b Hb]. rewrite Hb in E2 |- *.
    rewrite (write_exec G c t _ b _ (a_quiet _ _ _ _ _ H1)) in E2. injection E2 as <-. reflexivity. }
  assert (Hch : w_chans w2 !! w_next w = Some (chan0 1)).
  { rewrite E2'. cbn. apply lookup_insert. }
  exists w2. split; [|split; [exact H2|split]].
  - assert (E0 : select_reply w2 (w_next w) x = []).
    { assert (Hc : chan_of w2 (w_next w) = chan0 1). { exact (f_equal (default (chan0 0)) Hch). }
      unfold select_reply. rewrite Hc. cbn [ch_buf chan0]. rewrite app_nil_r.
      destruct x as [k|]; [|reflexivity]. assert (w_ctxs w2 = w_ctxs w) as -> by (rewrite E2'; reflexivity).
      cbn in Hx. destruct (w_ctxs w !! k); [|reflexivity]. destruct Hx as [-> _]. reflexivity. }
    cbn [opr bind exec ostep]. unfold pick. rewrite E0. cbn [length].
    destruct (seed w2 mod 0); reflexivity.
  - eapply plain_trans; [exact P1|]. rewrite E2'. apply only_send_plain.
  - split; [|exact Hch]. rewrite E2'. unfold send_world. rewrite conn_upd_eq. cbn. unfold ask_world. rewrite conn_upd_eq. cbn.
    apply lookup_insert.
Qed.

Lemma ask_resumes t w s nm x ch tok r : at_ G c w s nm -> select_reply w ch x = [r] ->
  exists w1 m, exec t (Do (OSelect ch x) (ask_k x tok)) w = XDone w1 (m, verdict r) /\
    at_ G c w1 s nm /\ plain w w1.
Proof.
  intros H Hr. cbn [exec ostep]. unfold pick. rewrite Hr. cbn [length]. rewrite Nat.mod_1_r. cbn [nth_error].
  destruct r as [e|m].
  - exists (pop_seed w), no_message. cbn [ask_k]. rewrite (exec_opb t (OIsClosed c) _ _ (pop_seed w) false).
    2:{ cbn [ostep]. change (conn_of (pop_seed w) c) with (conn_of w c). rewrite (q_open _ _ _ (a_quiet _ _ _ _ _ H)). reflexivity. }
    split; [reflexivity|]. split; [apply at_pop, H|]. split; auto.
  - cbn [ask_k].
    set (w1 := upd_chan ch (fun y => y <| ch_buf ::= @tl message |> <| ch_taken ::= Datatypes.S |>) (pop_seed w)).
    set (w2 := upd_conn c (fun k => k <| c_waiting ::= delete tok |>) w1).
    set (w3 := w2 <| w_log ::= cons (LAskReply c tok m false) |>).
    exists w3, m. split; [reflexivity|].
    assert (Hat : at_ G c w3 s nm).
    { pose proof (a_quiet _ _ _ _ _ H) as [Hm Q]. split.
      - assert (E : conn_of w3 c = conn_of w c <| c_waiting ::= delete tok |>).
        { change (conn_of w3 c) with (conn_of w2 c). unfold w2. rewrite conn_upd_eq. reflexivity. }
        split; [rewrite E; unfold w3, w2; cbn; apply lookup_insert|]. rewrite E. destruct Q. split; cbn; auto.
      - rewrite <- (a_view _ _ _ _ _ H). unfold view. change (conn_of w3 c) with (conn_of w2 c). unfold w2. rewrite conn_upd_eq. reflexivity.
      - change (conn_of w3 c) with (conn_of w2 c). unfold w2. rewrite conn_upd_eq. apply (a_nm _ _ _ _ _ H). }
    split; [exact Hat|]. split; auto; change (conn_of w3 c) with (conn_of w2 c); unfold w2; rewrite ?conn_upd_eq; auto.
    intros c' Hc. change (w_conns w3) with (w_conns w2). unfold w2. rewrite upd_conn_ne by exact Hc. reflexivity.
Qed.

(** Processes. *)
Lemma at_updproc p f w s nm : at_ G c w s nm -> at_ G c (upd_proc p f w) s nm.
Proof. intros [[? ?] ? ?]. split; [split|..]; assumption. Qed.

Lemma others_updproc name p f w : c_procs (conn_of w c) !! name = Some p -> others c w (upd_proc p f w).
Proof.
  intros E. split; auto. intros q _ Hq. apply proc_upd_ne. intros ->. apply (Hq _ E).
Qed.

Lemma proc_Start_runs t w s nm name : at_ G c w s nm ->
  (forall n p, c_procs (conn_of w c) !! n = Some p -> p < w_next w) ->
  exists p w1, exec t (bind (proc_get c name) (fun p => bind (proc_Start p) (fun _ => Ret p))) w = XDone w1 p /\
    at_ G c w1 s nm /\ others c w w1 /\ p < w_next w1 /\ c_procs (conn_of w1 c) !! name = Some p /\
    1 <= p_count (proc_of w1 p) /\ w_ctxs w1 = w_ctxs w /\ c_inside (conn_of w1 c) = c_inside (conn_of w c).
Proof.
  intros H Hp. unfold proc_get, proc_Start.
  destruct (c_procs (conn_of w c) !! name) as [p|] eqn:E.
  - exists p, (upd_proc p (fun k => k <| p_count ::= Datatypes.S |>) w).
    split. { rewrite exec_bind, (exec_opb t (OProcGet c name) _ _ w (Some p)) by (cbn [ostep]; rewrite E; reflexivity). reflexivity. }
    split; [apply at_updproc, H|]. split; [eapply others_updproc, E|]. split; [apply (Hp _ _ E)|]. split; [exact E|].
    split; [rewrite proc_upd_eq; cbn; lia|]. auto.
  - destruct (at_proc G c _ _ _ name H E) as [H1 O1].
    set (w1 := proc_world c name w).
    assert (E1 : c_procs (conn_of w1 c) !! name = Some (w_next w)).
    { unfold w1, proc_world. rewrite conn_upd_eq. cbn. apply lookup_insert. }
    exists (w_next w), (upd_proc (w_next w) (fun k => k <| p_count ::= Datatypes.S |>) w1).
    split. { rewrite exec_bind, (exec_opb t (OProcGet c name) _ _ w None) by (cbn [ostep]; rewrite E; reflexivity). reflexivity. }
    split; [apply at_updproc, H1|].
    split; [eapply others_trans; [apply only_others, O1|eapply others_updproc, E1]|]. split; [cbn; lia|].
    split; [exact E1|].
    split; [rewrite proc_upd_eq; cbn; lia|]. split; [reflexivity|].
    apply (y_inside _ _ _ O1).
Qed.

Lemma proc_Done_runs {B} t w s nm name p (b : B) : at_ G c w s nm -> 1 <= p_count (proc_of w p) ->
  c_procs (conn_of w c) !! name = Some p ->
  exists w1, exec t (bind (proc_Done p) (fun _ => Ret b)) w = XDone w1 b /\ at_ G c w1 s nm /\ others c w w1.
Proof.
  intros H Hc E0. unfold proc_Done. rewrite exec_bind.
  destruct (p_done (proc_of w p)) eqn:E.
  - rewrite (exec_opb t (OProcDoneCas p) _ _ w false) by (cbn [ostep]; rewrite E; reflexivity). exists w. split; [reflexivity|].
    split; [exact H|apply others_refl].
  - rewrite (exec_opb t (OProcDoneCas p) _ _ (upd_proc p (fun k => k <| p_done := true |>) w) true) by (cbn [ostep]; rewrite E; reflexivity).
    pose proof (at_updproc p (fun k => k <| p_done := true |>) _ _ _ H) as H1.
    cbn [opr exec ostep]. rewrite proc_upd_eq. cbn.
    destruct (p_count (proc_of w p)) as [|[|k]]; [lia| |]; eexists; (split; [reflexivity|]); (split; [apply at_updproc, H1|]);
      (eapply others_trans; [eapply others_updproc, E0|eapply (others_updproc name); exact E0]).
Qed.

Lemma exec_bind_blocked {B C} t (p : prog B) (f : B -> prog C) w w1 o k :
  exec t p w = XBlocked w1 o k -> exec t (bind p f) w = XBlocked w1 o (fun r => bind (k r) f).
Proof. intros H. rewrite exec_bind, H. reflexivity. Qed.

Lemma resume_bind {B C} t o (k : res o -> prog B) (f : B -> prog C) w w1 b :
  exec t (Do o k) w = XDone w1 b -> exec t (Do o (fun r => bind (k r) f)) w = exec t (f b) w1.
Proof. intros H. change (Do o (fun r => bind (k r) f)) with (bind (Do o k) f). apply exec_bind_done, H. Qed.

Lemma live_ext w w' x : w_ctxs w' = w_ctxs w -> w_now w' = w_now w -> ctx_live w x -> ctx_live w' x.
Proof. unfold ctx_live. intros -> ->. auto. Qed.
Lemma live_only w w' x : only c w w' -> ctx_live w x -> ctx_live w' x.
Proof. intros O. apply live_ext; [apply (y_ctxs _ _ _ O)|apply (y_now _ _ _ O)]. Qed.

Lemma at_intro w : quiet G w c -> at_ G c w (view w c) (c_nss (conn_of w c)).
Proof. intros Q. split; [exact Q|reflexivity|reflexivity]. Qed.

(** C22, C49: Ask itself *)
Lemma Ask_asks t x m w : quiet G w c -> c_inside (conn_of w c) = false -> ctx_live w x -> printable m ->
  may_send (role_of G c w) (cs_rooms (view w c)) m = true ->
  asks G c t x None (Ask G c x m) w m (view w c) (fun r s2 b s3 => snd b = verdict r /\ s3 = s2 /\
    match r with inr reply => fst b = reply | inl _ => True end).
Proof.
  intros Q Hin Hx Hp Hmay. pose proof (at_intro _ Q) as H.
  destruct (ask_blocks t w _ _ x m H Hx Hp Hin) as (w1 & E1 & H1 & P1 & W1); [exact Hmay|].
  eexists _, (w_next w), w1, _. split; [reflexivity|]. split; [exact E1|]. split; [exact I|]. split; [apply H1|].
  split; [apply plain_z, P1|]. split; [apply (a_view _ _ _ _ _ H1)|]. split; [exact W1|].
  intros w2 r Q2 _ _ _ Hr. pose proof (at_intro _ Q2) as H2.
  destruct (ask_resumes t w2 _ _ x _ (genWait (g_client G c) (w_now w)) r H2 Hr) as (w3 & m' & E3 & H3 & P3).
  exists w3, (m', verdict r). split; [exact E3|]. split; [apply H3|]. split; [apply plain_z, P3|].
  split; [reflexivity|]. split; [apply (a_view _ _ _ _ _ H3)|].
  destruct r as [e|reply]; [exact I|]. cbn [exec ostep] in E3. unfold pick in E3. rewrite Hr in E3. cbn [length] in E3.
  rewrite Nat.mod_1_r in E3. cbn [nth_error] in E3. injection E3 as _ <-. reflexivity.
Qed.

(** Reading and writing a world that is only locked. *)
Lemma role_eq w w' : c_id (conn_of w' c) = c_id (conn_of w c) -> role_of G c w' = role_of G c w.
Proof. intros E. unfold role_of. rewrite E. reflexivity. Qed.

Lemma notifyDisconnect_runs t w s nm m : at_ G c w s nm ->
  runs G c t (notifyNamespaceDisconnect G c m) w tt (unsubscribed (role_of G c w) (m_namespace m) s) nm.
Proof. intros H. apply (exch_runs G c t w _ _ false (m_namespace m) H). Qed.

(** Between Start and Done. *)
Lemma askConnect_body_cases t x ns w s nm : at_ G c w s nm -> ctx_live w x -> c_inside (conn_of w c) = false ->
  match cs_rooms s !! ns, A !! ns, answer A ns (hello ns) with
  | Some _, _, _ => exists n, nm !! ns = Some n /\ exec t (askConnect_body G c x ns) w = XDone w (Some n, None)
  | None, None, _ => exec t (askConnect_body G c x ns) w = XDone w (None, Some EBadNamespace)
  | None, Some _, Some e => runs G c t (askConnect_body G c x ns) w (None, Some e) (fire A ns (hello ns) s) nm
  | None, Some _, None =>
      exists n ch w1 k, 
        let tok := genWait (g_client G c) (w_now w) in
        exec t (askConnect_body G c x ns) w = XBlocked w1 (OSelect ch x) k /\
        at_ G c w1 (push (wire_of (set_wait tok (hello ns))) (fire A ns (hello ns) s)) nm /\
        others c w w1 /\ (forall p, p < w_next w -> proc_of w1 p = proc_of w p) /\
        (forall name p, c_procs (conn_of w c) !! name = Some p -> c_procs (conn_of w1 c) !! name = Some p) /\
        n_name n = ns /\ newborn c w1 n /\ waits_for w1 c tok ch /\
        forall w2 s2 nm2 r, at_ G c w2 s2 nm2 -> newborn c w2 n -> select_reply w2 ch x = [r] ->
          exists w3, others c w2 w3 /\ (forall p, p < w_next w2 -> proc_of w3 p = proc_of w2 p) /\
          (forall name p, c_procs (conn_of w2 c) !! name = Some p -> c_procs (conn_of w3 c) !! name = Some p) /\
          match verdict r with
          | Some e => exec t (Do (OSelect ch x) k) w2 = XDone w3 (None, Some e) /\ at_ G c w3 s2 nm2
          | None => exec t (Do (OSelect ch x) k) w2 = XDone w3 (Some n, None) /\
                    at_ G c w3 (connected_here (role_of G c w2) A ns s2) (<[ns := n]> nm2)
          end
  end.
Proof.
  intros H Hx Hin. unfold askConnect_body.
  pose proof (at_rooms G c _ _ _ ns H) as Hr. rewrite Hr.
  pose proof (Namespace_exec G c t w ns (a_quiet _ _ _ _ _ H)) as EN0. rewrite (a_nm _ _ _ _ _ H) in EN0.
  destruct (nm !! ns) as [n|] eqn:E; cbn [fmap option_fmap option_map].
  { exists n. split; [reflexivity|]. rewrite (exec_bind_done _ _ _ _ _ _ EN0). reflexivity. }
  destruct (A !! ns) as [evs|] eqn:EA.
  2:{ rewrite (exec_bind_done _ _ _ _ _ _ EN0). rewrite (lift_none G c A (app_of _ _ _ S) _ EA). reflexivity. }
  rewrite (lift_some G c A (app_of _ _ _ S) _ _ EA). cbv match.
  destruct (newNs_runs G c t w _ _ ns H) as (n & w0 & E0 & H0 & O0 & B0 & Hn).
  assert (Hc : n_conn n = c) by apply B0.
  pose proof (fireEvent_exec G c A (app_of _ _ _ S) t n (hello ns) w0 Hc) as E1.
  pose proof (at_fire G c A n (hello ns) _ _ _ H0 Hc) as H1.
  pose proof (only_fire c A n (hello ns) w0 Hc) as O1.
  rewrite Hn in E1, H1.
  destruct (answer A ns (hello ns)) as [e|] eqn:EN.
  { exists (fire_world A n (hello ns) w0). split; [|split; [exact H1|eapply only_trans; [exact O0|exact O1]]].
    rewrite (exec_bind_done _ _ _ _ _ _ EN0), (exec_bind_done _ _ _ _ _ _ E0). rewrite (exec_bind_done _ _ _ _ _ _ E1). reflexivity. }
  assert (O01 := only_trans _ _ _ _ O0 O1).
  destruct (ask_blocks t _ _ _ x (hello ns) H1) as (w1 & E2 & H2 & P2 & W2).
  { eapply live_only; [exact O01|exact Hx]. }
  { exact I. }
  { rewrite (y_inside _ _ _ O01). exact Hin. }
  { reflexivity. }
  rewrite (y_now _ _ _ O01) in E2, H2, W2.
  eexists n, _, w1, _. cbv zeta. split.
  { rewrite (exec_bind_done _ _ _ _ _ _ EN0), (exec_bind_done _ _ _ _ _ _ E0). rewrite (exec_bind_done _ _ _ _ _ _ E1). apply exec_bind_blocked, E2. }
  split; [exact H2|]. split.
  { eapply others_trans; [apply only_others, O01|apply plain_z, P2]. }
  split.
  { intros p Hp. unfold proc_of at 1. rewrite (pl_procs _ _ P2). apply (y_procs _ _ _ O01 p Hp). }
  split. { intros name p Hp. rewrite (pl_cprocs _ _ P2). apply (y_cprocs' _ _ _ O01), Hp. }
  split; [exact Hn|]. split.
  { eapply newborn_ext; [|apply (pl_nss _ _ P2)|apply (pl_c _ _ P2)].
    eapply newborn_ext; [exact B0|apply fire_world_eqs|rewrite fire_world_conn; reflexivity]. }
  split; [exact W2|].
  intros w2 s2 nm2 r H2' B2 Hsel.
  destruct (ask_resumes t w2 _ _ x _ (genWait (g_client G c) (w_now w)) r H2' Hsel) as (w3 & m' & E3 & H3 & P3).
  assert (Hid : role_of G c w3 = role_of G c w2).
  { apply role_eq, P3. }
  destruct (verdict r) as [e|] eqn:EV.
  - exists w3. split; [apply plain_z, P3|]. split; [intros p _; unfold proc_of; rewrite (pl_procs _ _ P3); reflexivity|].
    split; [rewrite (pl_cprocs _ _ P3); auto|]. split; [|exact H3]. rewrite (resume_bind _ _ _ _ _ _ _ E3). reflexivity.
  - assert (B3 : newborn c w3 n) by (eapply newborn_ext; [exact B2|apply P3|apply P3]).
    pose proof (at_setns G c _ _ _ ns n H3 B3 Hn) as H4.
    destruct (notifyConnected_runs G c A (app_of _ _ _ S) t _ _ _ n (hello ns) H4 Hc) as (w5 & E5 & H5 & O5). rewrite Hn in H5.
    pose proof (only_setns c w3 ns n) as O4.
    exists w5. split.
    { eapply others_trans; [apply plain_z, P3|]. eapply others_trans; [apply only_others, O4|apply only_others, O5]. }
    split.
    { intros p Hp. rewrite (y_procs _ _ _ O5 p).
      - change (proc_of w3 p = proc_of w2 p). unfold proc_of. rewrite (pl_procs _ _ P3). reflexivity.
      - change (p < w_next w3). pose proof (pl_next _ _ P3). lia. }
    split.
    { intros name p Hp. apply (y_cprocs' _ _ _ O5), (y_cprocs' _ _ _ O4). rewrite (pl_cprocs _ _ P3). exact Hp. }
    split.
    + rewrite (resume_bind _ _ _ _ _ _ _ E3). cbn [snd].
      rewrite (setNs_exec G c t _ _ _ _ (a_quiet _ _ _ _ _ H3)).
      rewrite (exec_bind_done _ _ _ _ _ _ E5). reflexivity.
    + assert (Hid2 : role_of G c (setns_world c ns n w3) = role_of G c w3).
      { apply role_eq. unfold setns_world. rewrite conn_upd_eq. reflexivity. }
      rewrite Hid2, Hid in H5. exact H5.
Qed.

Lemma kept_newborn w w' n : kept c w w' -> newborn c w n -> newborn c w' n.
Proof.
  intros K (H1 & H2 & H3). split; [exact H1|]. destruct (k_nss _ _ _ K _ _ H2 H1 H3) as [H4 H5]. split; [exact H4|exact H5].
Qed.

Lemma askConnect_cases t x ns w : quiet G w c -> idle w c -> ctx_live w x -> c_inside (conn_of w c) = false ->
  let s := view w c in
  match cs_rooms s !! ns, A !! ns, answer A ns (hello ns) with
  | Some _, _, _ => exists n w', c_nss (conn_of w c) !! ns = Some n /\ exec t (askConnect G c x ns) w = XDone w' (Some n, None) /\
                      quiet G w' c /\ others c w w' /\ view w' c = s
  | None, None, _ => exists w', exec t (askConnect G c x ns) w = XDone w' (None, Some EBadNamespace) /\
                      quiet G w' c /\ others c w w' /\ view w' c = s
  | None, Some _, Some e => exists w', exec t (askConnect G c x ns) w = XDone w' (None, Some e) /\
                      quiet G w' c /\ others c w w' /\ view w' c = fire A ns (hello ns) s
  | None, Some _, None =>
      asks G c t x None (askConnect G c x ns) w (hello ns) (fire A ns (hello ns) s) (fun r s2 b s3 =>
        match verdict r with
        | Some e => b = (None, Some e) /\ s3 = s2
        | None => (exists n, b = (Some n, None) /\ n_name n = ns) /\ s3 = connected_here (role_of G c w) A ns s2
        end)
  end.
Proof.
  intros Q Hi Hx Hin s. pose proof (at_intro _ Q) as H. fold s in H. unfold askConnect.
  destruct (proc_Start_runs t w _ _ ns H) as (p & w0 & E0 & H0 & Z0 & Hp & Ep0 & Hcnt & Hctx & Hins).
  { intros name q Hq. apply (Hi _ _ Hq). }
  pose proof (z_now _ _ _ Z0) as Hnow.
  assert (E0' : forall B (f : pid -> prog B), exec t (bind (proc_get c ns) (fun p => bind (proc_Start p) (fun _ => f p))) w = exec t (f p) w0).
  { intros B f. revert E0. rewrite !exec_bind. destruct (exec t (proc_get c ns) w) as [w' p'| | |]; cbn [xbind]; try discriminate.
    rewrite !exec_bind. destruct (exec t (proc_Start p') w'); cbn [xbind exec]; try discriminate. intros [= -> ->]. reflexivity. }
  pose proof (askConnect_body_cases t x ns w0 _ _ H0 (live_ext _ _ _ Hctx Hnow Hx)) as HB. rewrite Hins in HB. specialize (HB Hin).
  destruct (cs_rooms s !! ns) as [rs|] eqn:ER.
  - destruct HB as (n & En & EB). destruct (proc_Done_runs t w0 _ _ ns p (Some n, @None gerr) H0 Hcnt Ep0) as (w1 & E1 & H1 & Z1).
    exists n, w1. split; [exact En|]. split; [|split; [apply H1|split; [eapply others_trans; eassumption|apply H1]]].
    rewrite E0'. rewrite (exec_bind_done _ _ _ _ _ _ EB). exact E1.
  - destruct (A !! ns) as [evs|] eqn:EA.
    + destruct (answer A ns (hello ns)) as [e|] eqn:EN.
      * destruct HB as (w1 & E1 & H1 & O1).
        assert (Hcnt1 : 1 <= p_count (proc_of w1 p)) by (rewrite (y_procs _ _ _ O1 p Hp); exact Hcnt).
        destruct (proc_Done_runs t w1 _ _ ns p (@None nsref, Some e) H1 Hcnt1 (y_cprocs' _ _ _ O1 _ _ Ep0)) as (w2 & E2 & H2 & Z2).
        exists w2. split; [|split; [apply H2|split; [|apply H2]]].
        -- rewrite E0'. rewrite (exec_bind_done _ _ _ _ _ _ E1). exact E2.
        -- eapply others_trans; [exact Z0|]. eapply others_trans; [apply only_others, O1|exact Z2].
      * destruct HB as (n & ch & w1 & k & E1 & H1 & Z1 & Hprocs & Hcp1 & Hn & B1 & W1 & Hres). rewrite Hnow in H1, W1.
        eexists _, ch, w1, _. split; [reflexivity|]. split.
        { rewrite E0'. apply exec_bind_blocked, E1. }
        split; [exact I|]. split; [apply H1|]. split; [eapply others_trans; eassumption|]. split; [apply H1|]. split; [exact W1|].
        intros w2 r Q2 K2 Hid2 _ Hsel. pose proof (at_intro _ Q2) as H2.
        destruct (Hres w2 _ _ r H2 (kept_newborn _ _ _ K2 B1) Hsel) as (w3 & Z3 & Hp3 & Hcp3 & HR).
        assert (Hpw1 : p < w_next w1) by (pose proof (z_next _ _ _ Z1); lia).
        assert (Hcnt3 : 1 <= p_count (proc_of w3 p)).
        { rewrite Hp3.
          - rewrite (k_procs _ _ _ K2) by exact Hpw1. rewrite Hprocs by exact Hp. exact Hcnt.
          - pose proof (k_next _ _ _ K2). lia. }
        assert (Ep3 : c_procs (conn_of w3 c) !! ns = Some p).
        { apply Hcp3, (k_cprocs _ _ _ K2), Hcp1, Ep0. }
        rewrite (role_eq w w2 Hid2) in HR.
        destruct (verdict r) as [e|].
        -- destruct HR as [E3 H3]. destruct (proc_Done_runs t w3 _ _ ns p (@None nsref, Some e) H3 Hcnt3 Ep3) as (w4 & E4 & H4 & Z4).
           exists w4, (None, Some e). split; [|split; [apply H4|split; [eapply others_trans; eassumption|split; [reflexivity|apply H4]]]].
           rewrite (resume_bind _ _ _ _ _ _ _ E3). exact E4.
        -- destruct HR as [E3 H3]. destruct (proc_Done_runs t w3 _ _ ns p (Some n, @None gerr) H3 Hcnt3 Ep3) as (w4 & E4 & H4 & Z4).
           exists w4, (Some n, None). split; [|split; [apply H4|split; [eapply others_trans; eassumption|split; [exists n; split; [reflexivity|exact Hn]|apply H4]]]].
           rewrite (resume_bind _ _ _ _ _ _ _ E3). exact E4.
    + destruct (proc_Done_runs t w0 _ _ ns p (@None nsref, Some EBadNamespace) H0 Hcnt Ep0) as (w1 & E1 & H1 & Z1).
      exists w1. split; [|split; [apply H1|split; [eapply others_trans; eassumption|apply H1]]].
      rewrite E0'. rewrite (exec_bind_done _ _ _ _ _ _ HB). exact E1.
Qed.

Lemma getNs_exec {B} t w name (f : option nsref -> prog B) : quiet G w c ->
  exec t (bind (opr (ONsRLock c)) (fun _ => bind (opr (OGetNs c name)) (fun n => bind (opr (ONsRUnlock c)) (fun _ => f n)))) w
  = exec t (f (c_nss (conn_of w c) !! name)) w.
Proof.
  intros Q. rewrite <- (exec_bind_done t (Namespace c name) f w w _ (Namespace_exec G c t w name Q)). reflexivity.
Qed.

(** Ask and what follows, on a connected NSConn. *)
Lemma asks_then {B} t x n m w s nm (f : message * option gerr -> prog B) post :
  at_ G c w s nm -> nm !! n_name n = Some n -> c_inside (conn_of w c) = false -> ctx_live w x -> printable m ->
  may_send (role_of G c w) (cs_rooms s) (set_wait (genWait (g_client G c) (w_now w)) m) = true ->
  (forall w2 s2 nm2 r reply, at_ G c w2 s2 nm2 -> nm2 !! n_name n = Some n -> role_of G c w2 = role_of G c w ->
     exists w3 b s3 nm3, exec t (f (reply, verdict r)) w2 = XDone w3 b /\ at_ G c w3 s3 nm3 /\ only c w2 w3 /\ post r s2 b s3) ->
  asks G c t x (Some n) (bind (Ask G c x m) f) w m s post.
Proof.
  intros H En Hin Hx Hp Hmay Hf.
  destruct (ask_blocks t w _ _ x m H Hx Hp Hin Hmay) as (w1 & E1 & H1 & P1 & W1).
  eexists _, (w_next w), w1, _. split; [reflexivity|]. split; [apply exec_bind_blocked, E1|]. split; [rewrite (a_nm _ _ _ _ _ H1); exact En|]. split; [apply H1|].
  split; [apply plain_z, P1|]. split; [apply (a_view _ _ _ _ _ H1)|]. split; [exact W1|].
  intros w2 r Q2 K2 Hid2 En2 Hsel. pose proof (at_intro _ Q2) as H2.
  destruct (ask_resumes t w2 _ _ x _ (genWait (g_client G c) (w_now w)) r H2 Hsel) as (w3 & m' & E3 & H3 & P3).
  assert (Hid : role_of G c w3 = role_of G c w).
  { rewrite <- (role_eq w w2 Hid2).
    apply role_eq, P3. }
  destruct (Hf w3 _ _ r m' H3 En2 Hid) as (w4 & b & s4 & nm4 & E4 & H4 & O4 & HP).
  exists w4, b. split; [|split; [apply H4|split; [eapply others_trans; [apply plain_z, P3|apply only_others, O4]|]]].
  - rewrite (resume_bind _ _ _ _ _ _ _ E3). exact E4.
  - rewrite (a_view _ _ _ _ _ H4). exact HP.
Qed.

Lemma Disconnect_asks t x n w : quiet G w c -> ctx_live w x -> c_inside (conn_of w c) = false ->
  c_nss (conn_of w c) !! n_name n = Some n ->
  asks G c t x (Some n) (Disconnect G (Some n) x) w (goodbye (n_name n)) (view w c) (fun r s2 b s3 =>
    b = verdict r /\
    match verdict r with
    | Some _ => s3 = s2
    | None => exists order rs, cs_rooms s2 !! n_name n = Some rs /\ Permutation order (elements rs) /\
                s3 = disconnected_here (role_of G c w) A (n_name n) order s2
    end).
Proof.
  intros Q Hx Hin En. pose proof (at_intro _ Q) as H.
  assert (Hc : n_conn n = c) by (eapply at_ns; eassumption).
  unfold Disconnect, askDisconnect. rewrite Hc.
  match goal with |- asks _ _ _ _ _ ?p _ _ _ _ => set (P := p) end.
  assert (EP : exists f, exec t P w = exec t (bind (Ask G c x (goodbye (n_name n))) f) w /\
    f = (fun r => match snd r with
      | Some e => Ret (Some e)
      | None =>
          bind (forceLeaveAll G n true) (fun _ =>
          bind (opr (ONsLock c)) (fun _ =>
          bind (opr (ODelNs c (n_name n))) (fun _ =>
          bind (opr (ONsUnlock c)) (fun _ =>
          bind (fireEvent G n (set_isLocal true (goodbye (n_name n)))) (fun _ =>
          bind (notifyNamespaceDisconnect G c (goodbye (n_name n))) (fun _ =>
          Ret None))))))
      end)).
  { eexists. split; [|reflexivity]. unfold P. cbn [m_namespace set_event set_namespace].
    rewrite (getNs_exec t w (n_name n)) by exact Q. rewrite En. reflexivity. }
  destruct EP as (f & EP & Ef).
  assert (HA : asks G c t x (Some n) (bind (Ask G c x (goodbye (n_name n))) f) w (goodbye (n_name n)) (view w c) (fun r s2 b s3 =>
    b = verdict r /\
    match verdict r with
    | Some _ => s3 = s2
    | None => exists order rs, cs_rooms s2 !! n_name n = Some rs /\ Permutation order (elements rs) /\
                s3 = disconnected_here (role_of G c w) A (n_name n) order s2
    end)).
  { eapply asks_then; [exact H|exact En|exact Hin|exact Hx|exact I| |].
    { unfold may_send. reflexivity. }
    intros w2 s2 nm2 r reply H2 En2 HR. rewrite Ef. cbn [snd]. destruct (verdict r) as [e|] eqn:EV.
    - exists w2, (Some e), s2, nm2. split; [reflexivity|]. split; [exact H2|]. split; [apply only_refl|]. split; reflexivity.
    - destruct (forceLeaveAll_runs G c A (app_of _ _ _ S) t w2 _ _ n true H2 En2) as (order & rs & Ers & Hperm & (w3 & E3 & H3 & O3)).
      pose proof (at_delns G c _ _ _ (n_name n) H3) as H4. pose proof (only_delns c w3 (n_name n)) as O4.
      destruct (fireEvent_runs G c A (app_of _ _ _ S) t n (set_isLocal true (goodbye (n_name n))) _ _ _ H4 Hc) as (w5 & E5 & H5 & O5).
      destruct (notifyDisconnect_runs t w5 _ _ (goodbye (n_name n)) H5) as (w6 & E6 & H6 & O6).
      rewrite (role_only G c _ _ O5), (role_only G c _ _ O4), (role_only G c _ _ O3), HR in H6.
      exists w6, None. eexists _, _. split; [|split; [exact H6|split]].
      + rewrite (exec_bind_done _ _ _ _ _ _ E3), (delNs_exec G c t _ _ _ (a_quiet _ _ _ _ _ H3)).
        rewrite (exec_bind_done _ _ _ _ _ _ E5), (exec_bind_done _ _ _ _ _ _ E6). reflexivity.
      + eapply only_trans; [exact O3|]. eapply only_trans; [exact O4|]. eapply only_trans; [exact O5|exact O6].
      + split; [reflexivity|]. exists order, rs. split; [exact Ers|]. split; [exact Hperm|]. reflexivity. }
  destruct HA as (tok & ch & w1 & k & E1 & E2 & HA). exists tok, ch, w1, k. rewrite EP. auto.
Qed.

Lemma may_wait R M tok m : may_send R M (set_wait tok m) = may_send R M m.
Proof. reflexivity. Qed.

Lemma JoinRoom_cases t x n room w : quiet G w c -> ctx_live w x -> c_inside (conn_of w c) = false ->
  c_nss (conn_of w c) !! n_name n = Some n ->
  (exists rs, cs_rooms (view w c) !! n_name n = Some rs /\ room ∈ rs) /\
     exec t (JoinRoom G (Some n) x room) w = XDone w (Some (n, room), None) \/
  (exists rs, cs_rooms (view w c) !! n_name n = Some rs /\ room ∉ rs) /\
     asks G c t x (Some n) (JoinRoom G (Some n) x room) w (join_msg (n_name n) room) (view w c) (fun r s2 b s3 =>
       match verdict r with
       | Some e => b = (None, Some e) /\ s3 = s2
       | None => let j := joined_here A (n_name n) room s2 in
                 b = (match snd j with None => Some (n, room) | Some _ => None end, snd j) /\ s3 = fst j
       end).
Proof.
  intros Q Hx Hin En. pose proof (at_intro _ Q) as H.
  destruct (at_ns _ _ _ _ _ _ _ H En) as (Hc & _ & E1 & H1 & H2 & H3).
  unfold JoinRoom, askRoomJoin. rewrite Hc.
  destruct (decide (room ∈ o_rooms (ns_of w n))) as [Hi|Hi].
  - left. split; [eauto|]. rewrite hasRoom_exec by assumption. rewrite bool_decide_true by exact Hi. reflexivity.
  - right. split; [eauto|].
    match goal with |- asks _ _ _ _ _ ?p _ _ _ ?po => set (P := p); set (PO := po) end.
    assert (EP : exists f, exec t P w = exec t (bind (Ask G c x (join_msg (n_name n) room)) f) w /\
      f = (fun r => match snd r with
        | Some e => Ret (None, Some e)
        | None =>
            bind (fireEvent G n (join_msg (n_name n) room)) (fun err =>
            match err with
            | Some e => Ret (None, Some e)
            | None =>
              bind (opr (ORoomLock n)) (fun _ =>
              bind (opr (OAddRoom n room)) (fun _ =>
              bind (opr (ORoomUnlock n)) (fun _ =>
              bind (fireEvent G n (set_event OnRoomJoined (join_msg (n_name n) room))) (fun _ =>
              Ret (Some (n, room), None)))))
            end)
        end)).
    { eexists. split; [|reflexivity]. unfold P. rewrite hasRoom_exec by assumption. rewrite bool_decide_false by exact Hi. reflexivity. }
    destruct EP as (f & EP & Ef).
    assert (HA : asks G c t x (Some n) (bind (Ask G c x (join_msg (n_name n) room)) f) w (join_msg (n_name n) room) (view w c) PO).
    { eapply asks_then; [exact H|exact En|exact Hin|exact Hx|exact I| |].
      { rewrite may_wait. unfold may_send. cbn [m_namespace join_msg set_isLocal set_event set_room set_namespace].
        rewrite H3. change (isRoomJoin (join_msg (n_name n) room)) with true. rewrite !orb_true_r. reflexivity. }
      intros w2 s2 nm2 r reply H2' En2 HR. rewrite Ef. unfold PO. cbn [snd]. destruct (verdict r) as [e|] eqn:EV.
      - exists w2, (None, Some e), s2, nm2. split; [reflexivity|]. split; [exact H2'|]. split; [apply only_refl|]. split; reflexivity.
      - destruct (fireEvent_runs G c A (app_of _ _ _ S) t n (join_msg (n_name n) room) _ _ _ H2' Hc) as (w3 & E3 & H3' & O3).
        unfold joined_here. destruct (answer A (n_name n) (join_msg (n_name n) room)) as [e|] eqn:EN.
        + exists w3, (None, Some e). eexists _, _. split; [rewrite (exec_bind_done _ _ _ _ _ _ E3); reflexivity|].
          split; [exact H3'|]. split; [exact O3|]. split; reflexivity.
        + destruct (at_ns _ _ _ _ _ _ _ H3' En2) as (_ & _ & E1' & H1' & H2'' & H3'').
          pose proof (at_rooms_world G c _ _ _ n (fun s => {[room]} ∪ s) H3' En2) as H4.
          pose proof (only_rooms G c _ n (fun s => {[room]} ∪ s) _ _ H3' En2) as O4.
          destruct (fireEvent_runs G c A (app_of _ _ _ S) t n (set_event OnRoomJoined (join_msg (n_name n) room)) _ _ _ H4 Hc) as (w5 & E5 & H5 & O5).
          exists w5, (Some (n, room), None). eexists _, _. split; [|split; [exact H5|split; [eapply only_trans; [exact O3|eapply only_trans; [exact O4|exact O5]]|split; reflexivity]]].
          rewrite (exec_bind_done _ _ _ _ _ _ E3). rewrite addRoom_exec by exact H2''. rewrite (exec_bind_done _ _ _ _ _ _ E5). reflexivity. }
    destruct HA as (tok & ch & w1 & k & E1' & E2' & HA). exists tok, ch, w1, k. rewrite EP. auto.
Qed.

Lemma RoomLeave_cases t x n room w : quiet G w c -> ctx_live w x -> c_inside (conn_of w c) = false ->
  c_nss (conn_of w c) !! n_name n = Some n ->
  (exists rs, cs_rooms (view w c) !! n_name n = Some rs /\ room ∉ rs) /\
     exec t (RoomLeave G n room x) w = XDone w (Some EBadRoom) \/
  (exists rs, cs_rooms (view w c) !! n_name n = Some rs /\ room ∈ rs) /\
     asks G c t x (Some n) (RoomLeave G n room x) w (leave_req (n_name n) room) (view w c) (fun r s2 b s3 =>
       match verdict r with
       | Some e => b = Some e /\ s3 = s2
       | None => b = snd (left_here A (n_name n) room s2) /\ s3 = fst (left_here A (n_name n) room s2)
       end).
Proof.
  intros Q Hx Hin En. pose proof (at_intro _ Q) as H.
  destruct (at_ns _ _ _ _ _ _ _ H En) as (Hc & _ & E1 & H1 & H2 & H3).
  unfold RoomLeave, askRoomLeave. rewrite Hc.
  destruct (decide (room ∈ o_rooms (ns_of w n))) as [Hi|Hi].
  - right. split; [eauto|].
    match goal with |- asks _ _ _ _ _ ?p _ _ _ ?po => set (P := p); set (PO := po) end.
    assert (EP : exists f, exec t P w = exec t (bind (Ask G c x (leave_req (n_name n) room)) f) w /\
      f = (fun r => match snd r with
        | Some e => Ret (Some e)
        | None =>
            bind (fireEvent G n (leave_req (n_name n) room)) (fun err =>
            match err with
            | Some e => Ret (Some e)
            | None =>
              bind (opr (ORoomLock n)) (fun _ =>
              bind (opr (ODelRoom n room)) (fun _ =>
              bind (opr (ORoomUnlock n)) (fun _ =>
              bind (fireEvent G n (set_event OnRoomLeft (leave_req (n_name n) room))) (fun _ =>
              Ret None))))
            end)
        end)).
    { eexists. split; [|reflexivity]. unfold P. cbn [m_room set_event set_room set_namespace].
      rewrite (hasRoom_exec t w n room) by assumption. rewrite bool_decide_true by exact Hi. reflexivity. }
    destruct EP as (f & EP & Ef).
    assert (HA : asks G c t x (Some n) (bind (Ask G c x (leave_req (n_name n) room)) f) w (leave_req (n_name n) room) (view w c) PO).
    { eapply asks_then; [exact H|exact En|exact Hin|exact Hx|exact I| |].
      { rewrite may_wait. unfold may_send. cbn [m_namespace m_room leave_req set_event set_room set_namespace].
        rewrite H3. rewrite bool_decide_true by exact Hi. rewrite !orb_true_r. reflexivity. }
      intros w2 s2 nm2 r reply H2' En2 HR. rewrite Ef. unfold PO. cbn [snd]. destruct (verdict r) as [e|] eqn:EV.
      - exists w2, (Some e), s2, nm2. split; [reflexivity|]. split; [exact H2'|]. split; [apply only_refl|]. split; reflexivity.
      - destruct (fireEvent_runs G c A (app_of _ _ _ S) t n (leave_req (n_name n) room) _ _ _ H2' Hc) as (w3 & E3 & H3' & O3).
        unfold left_here. destruct (answer A (n_name n) (leave_req (n_name n) room)) as [e|] eqn:EN.
        + exists w3, (Some e). eexists _, _. split; [rewrite (exec_bind_done _ _ _ _ _ _ E3); reflexivity|].
          split; [exact H3'|]. split; [exact O3|]. split; reflexivity.
        + destruct (at_ns _ _ _ _ _ _ _ H3' En2) as (_ & _ & E1' & H1' & H2'' & H3'').
          pose proof (at_rooms_world G c _ _ _ n (fun s => s ∖ {[room]}) H3' En2) as H4.
          pose proof (only_rooms G c _ n (fun s => s ∖ {[room]}) _ _ H3' En2) as O4.
          destruct (fireEvent_runs G c A (app_of _ _ _ S) t n (set_event OnRoomLeft (leave_req (n_name n) room)) _ _ _ H4 Hc) as (w5 & E5 & H5 & O5).
          exists w5, None. eexists _, _. split; [|split; [exact H5|split; [eapply only_trans; [exact O3|eapply only_trans; [exact O4|exact O5]]|split; reflexivity]]].
          rewrite (exec_bind_done _ _ _ _ _ _ E3). rewrite delRoom_exec by exact H2''. rewrite (exec_bind_done _ _ _ _ _ _ E5). reflexivity. }
    destruct HA as (tok & ch & w1 & k & E1' & E2' & HA). exists tok, ch, w1, k. rewrite EP. auto.
  - left. split; [eauto|]. cbn [m_room set_event set_room set_namespace].
    rewrite (hasRoom_exec t w n room) by assumption. rewrite bool_decide_false by exact Hi. reflexivity.
Qed.

Lemma Connect_exec t x ns w : quiet G w c -> (g_client G c = false -> c_acked (conn_of w c) = true) ->
  exec t (Connect G c x ns) w = exec t (askConnect G c x ns) w.
Proof.
  intros Q Hack. unfold Connect, IsClient. destruct (g_client G c) eqn:E; [reflexivity|].
  rewrite (exec_bind_done _ _ _ _ _ _ (unwait_exec c t w None (q_ready _ _ _ Q E))).
  unfold Connect_loop. rewrite (exec_opb t (OIsAcked c) _ _ w true) by (cbn [ostep]; rewrite (Hack eq_refl); reflexivity).
  reflexivity.
Qed.

Lemma asks_exec {B} t x on (p q : prog B) w m mid post : exec t p w = exec t q w ->
  asks G c t x on q w m mid post -> asks G c t x on p w m mid post.
Proof. intros E (tok & ch & w1 & k & HA). exists tok, ch, w1, k. rewrite E. exact HA. Qed.
End local.

(*@file Prop_Local.v
From Coq Require Import ZArith.
From stdpp Require Import gmap strings list relations.
From RecordUpdate Require Import RecordUpdate.
From Verif Require Import Go Errors Message World Lang Code Sem Spec_Conn Spec_View Spec_Wire Examples.
@*)

(*@prop C22. Connect.  Already connected: nothing happens.  Undeclared namespace, or a local callback that
    refuses: an error, membership unchanged, nothing sent.  Otherwise one request is sent and the call waits;
    when the reply comes the namespace is connected (with no rooms) exactly if the reply carries no
    error, and nothing changes if it does (or if the context ends first). @*)
Lemma l_C22_connect : forall G c A t x ns w,
  setting G c A -> calm G w c -> ctx_live w x -> c_inside (conn_of w c) = false ->
  (g_client G c = false -> c_acked (conn_of w c) = true) ->
  let s := view w c in
  match cs_rooms s !! ns, A !! ns, answer A ns (hello ns) with
  | Some _, _, _ => exists n w', c_nss (conn_of w c) !! ns = Some n /\ exec t (Connect G c x ns) w = XDone w' (Some n, None) /\
                      quiet G w' c /\ others c w w' /\ view w' c = s
  | None, None, _ => exists w', exec t (Connect G c x ns) w = XDone w' (None, Some EBadNamespace) /\
                      quiet G w' c /\ others c w w' /\ view w' c = s
  | None, Some _, Some e => exists w', exec t (Connect G c x ns) w = XDone w' (None, Some e) /\
                      quiet G w' c /\ others c w w' /\ view w' c = fire A ns (hello ns) s
  | None, Some _, None =>
      asks G c t x None (Connect G c x ns) w (hello ns) (fire A ns (hello ns) s) (fun r s2 b s3 =>
        match verdict r with
        | Some e => b = (None, Some e) /\ s3 = s2
        | None => (exists n, b = (Some n, None) /\ n_name n = ns) /\ s3 = connected_here (role_of G c w) A ns s2
        end)
  end.
Proof.
  intros G c A t x ns w S [Q I] Hx Hin Hack s.
  pose proof (askConnect_cases G c A S t x ns w Q I Hx Hin) as HC. cbv zeta in HC. fold s in HC.
  pose proof (Connect_exec G c t x ns w Q Hack) as E.
  destruct (cs_rooms s !! ns); [rewrite E; exact HC|].
  destruct (A !! ns); [|rewrite E; exact HC].
  destruct (answer A ns (hello ns)); [rewrite E; exact HC|].
  eapply asks_exec; [exact E|exact HC].
Qed.

(*@ex
(** The client of exM connects to "chat", the peer agrees. *)
Definition C22_connecting : option (world * world * option nsref * option gerr) :=
  match exec 9 (Connect exG 2 None "chat") (s_w exM) with
  | XBlocked w1 (OSelect ch x) k =>
      match exec 5 (HandlePayload exG 2 TextMessage "$0;;;;;;") w1 with
      | XDone w2 None => match exec 9 (Do (OSelect ch x) k) w2 with
                         | XDone w3 (n, e) => Some (w1, w3, n, e)
                         | _ => None end
      | _ => None end
  | _ => None end.
Example C22_connect_example :
  let w := s_w exM in
  setting exG 2 exA /\ calm exG w 2 /\ ctx_live w None /\ c_inside (conn_of w 2) = false /\ g_client exG 2 = true /\
  cs_rooms (view w 2) !! "chat" = None /\ is_Some (exA !! "chat") /\ answer exA "chat" (hello "chat") = None /\
  option_map (fun r => cs_sent (view (fst (fst (fst r))) 2)) C22_connecting =
    Some (cs_sent (view w 2) ++ [(TextMessage, "$0;chat;;_OnNamespaceConnect;0;0;")]) /\
  option_map (fun r => (option_map n_name (snd (fst r)), snd r)) C22_connecting = Some (Some "chat", None) /\
  option_map (fun r => cs_rooms (view (snd (fst (fst r))) 2)) C22_connecting = Some (<["chat" := ∅]> (cs_rooms (view w 2))).
Proof.
  cbv zeta. split; [apply ex_setting|]. split; [apply ex_calm; auto|]. split; [exact I|].
  split; [vm_compute; reflexivity|]. split; [reflexivity|]. split; [vm_compute; reflexivity|]. split; [eexists; vm_compute; reflexivity|].
  split; [vm_compute; reflexivity|]. split; [vm_compute; reflexivity|]. split; [vm_compute; reflexivity|]. decide_eq.
Qed.
@*)

(*@prop C22. Disconnect of a connected namespace: one request is sent; if the reply carries no error the
    namespace goes, after the forced leave callbacks of its rooms; otherwise nothing changes. @*)
Lemma l_C22_disconnect : forall G c A t x n w,
  setting G c A -> quiet G w c -> ctx_live w x -> c_inside (conn_of w c) = false ->
  c_nss (conn_of w c) !! n_name n = Some n ->
  asks G c t x (Some n) (Disconnect G (Some n) x) w (goodbye (n_name n)) (view w c) (fun r s2 b s3 =>
    b = verdict r /\
    match verdict r with
    | Some _ => s3 = s2
    | None => exists order rs, cs_rooms s2 !! n_name n = Some rs /\ Permutation order (elements rs) /\
                s3 = disconnected_here (role_of G c w) A (n_name n) order s2 /\
                cs_rooms s3 = delete (n_name n) (cs_rooms s2)
    end).
Proof.
  intros G c A t x n w S Q Hx Hin En.
  destruct (Disconnect_asks G c A S t x n w Q Hx Hin En) as (tok & ch & w1 & k & E1 & E2 & N1 & Q1 & Z1 & V1 & W1 & HA).
  exists tok, ch, w1, k. do 7 (split; [assumption|]).
  intros w2 r Q2 K2 I2 En2 Hsel. destruct (HA w2 r Q2 K2 I2 En2 Hsel) as (w3 & b & E3 & Q3 & Z3 & Hb & HP).
  exists w3, b. do 4 (split; [assumption|]). destruct (verdict r); [exact HP|].
  destruct HP as (order & rs & Ers & Hperm & ->). exists order, rs. do 2 (split; [assumption|]). split; [reflexivity|].
  unfold disconnected_here, unsubscribed. rewrite leave_rooms_calls.
  destruct (negb (r_client (role_of G c w)) && r_exch (role_of G c w)); cbn; rewrite fire_calls; cbn; apply delete_alter.
Qed.

(*@ex
Example C22_disconnect_example :
  let w := s_w exM in
  setting exG 1 exA /\ quiet exG w 1 /\ c_inside (conn_of w 1) = false /\
  exists n, c_nss (conn_of w 1) !! "chat" = Some n /\ n_name n = "chat" /\
  match exec 9 (Disconnect exG (Some n) None) w with
  | XBlocked w1 (OSelect ch x) k =>
      match exec 3 (HandlePayload exG 1 TextMessage "0;chat;;_OnNamespaceDisconnect;1;0;no") w1 with
      | XDone w2 None => match exec 9 (Do (OSelect ch x) k) w2 with
                         | XDone w3 (Some (ENew "no")) => bool_decide (cs_rooms (view w3 1) = cs_rooms (view w 1))
                         | _ => false end
      | _ => false end
  | _ => false end = true.
Proof.
  cbv zeta. split; [apply ex_setting|]. split; [apply ex_calm; auto|]. split; [vm_compute; reflexivity|].
  eexists. split; [vm_compute; reflexivity|]. split; [reflexivity|]. vm_compute. reflexivity.
Qed.
@*)

(*@prop C22. JoinRoom in a connected namespace.  Joined already: nothing happens.  Otherwise one request is
    sent; the room is joined exactly if the reply carries no error and then the local callback agrees. @*)
Lemma l_C22_join : forall G c A t x n room w,
  setting G c A -> quiet G w c -> ctx_live w x -> c_inside (conn_of w c) = false ->
  c_nss (conn_of w c) !! n_name n = Some n ->
  (exists rs, cs_rooms (view w c) !! n_name n = Some rs /\ room ∈ rs) /\
     exec t (JoinRoom G (Some n) x room) w = XDone w (Some (n, room), None) \/
  (exists rs, cs_rooms (view w c) !! n_name n = Some rs /\ room ∉ rs) /\
     asks G c t x (Some n) (JoinRoom G (Some n) x room) w (join_msg (n_name n) room) (view w c) (fun r s2 b s3 =>
       match verdict r with
       | Some e => b = (None, Some e) /\ s3 = s2
       | None => let j := joined_here A (n_name n) room s2 in
                 b = (match snd j with None => Some (n, room) | Some _ => None end, snd j) /\ s3 = fst j
       end).
Proof. intros G c A t x n room w S. apply JoinRoom_cases, S. Qed.

(*@prop C22. Leave of a room.  Not joined: an error, nothing happens.  Otherwise one request is sent; the room
    is left exactly if the reply carries no error and then the local callback agrees. @*)
Lemma l_C22_leave : forall G c A t x n room w,
  setting G c A -> quiet G w c -> ctx_live w x -> c_inside (conn_of w c) = false ->
  c_nss (conn_of w c) !! n_name n = Some n ->
  (exists rs, cs_rooms (view w c) !! n_name n = Some rs /\ room ∉ rs) /\
     exec t (RoomLeave G n room x) w = XDone w (Some EBadRoom) \/
  (exists rs, cs_rooms (view w c) !! n_name n = Some rs /\ room ∈ rs) /\
     asks G c t x (Some n) (RoomLeave G n room x) w (leave_req (n_name n) room) (view w c) (fun r s2 b s3 =>
       match verdict r with
       | Some e => b = Some e /\ s3 = s2
       | None => b = snd (left_here A (n_name n) room s2) /\ s3 = fst (left_here A (n_name n) room s2)
       end).
Proof. intros G c A t x n room w S. apply RoomLeave_cases, S. Qed.

(*@ex
(** The peer agrees with leaving "jail" and with joining "closed", the local callbacks do not; "open" is left. *)
Definition C22_try (p : nsref -> prog (option gerr)) (w : world) : option (gmap string (gset string)) :=
  match c_nss (conn_of w 1) !! "chat" with
  | Some n =>
    match exec 9 (p n) w with
    | XBlocked w1 (OSelect ch x) k =>
        match exec 3 (HandlePayload exG 1 TextMessage "0;;;;;;") w1 with
        | XDone w2 None => match exec 9 (Do (OSelect ch x) k) w2 with
                           | XDone w3 _ => Some (cs_rooms (view w3 1))
                           | _ => None end
        | _ => None end
    | _ => None end
  | None => None end.
Example C22_rooms_example : let w := s_w exM in
  setting exG 1 exA /\ quiet exG w 1 /\ c_inside (conn_of w 1) = false /\
  C22_try (fun n => RoomLeave exG n "jail" None) w = Some (cs_rooms (view w 1)) /\
  C22_try (fun n => RoomLeave exG n "open" None) w = Some {["chat" := {["jail"]}]} /\
  C22_try (fun n => bind (JoinRoom exG (Some n) None "closed") (fun r => Ret (snd r))) w = Some (cs_rooms (view w 1)) /\
  C22_try (fun n => bind (JoinRoom exG (Some n) None "new") (fun r => Ret (snd r))) w = Some {["chat" := {["jail"; "open"; "new"]}]}.
Proof.
  cbv zeta. split; [apply ex_setting|]. split; [apply ex_calm; auto|]. split; [vm_compute; reflexivity|].
  split; [decide_eq|]. split; [decide_eq|]. split; decide_eq.
Qed.
@*)
