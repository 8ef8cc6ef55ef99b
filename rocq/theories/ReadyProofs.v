(** * ReadyProofs.v : nothing is handled before the handshake (C30). *)
From Coq Require Import ZArith Ascii.
From stdpp Require Import gmap strings list relations.
From RecordUpdate Require Import RecordUpdate.
From Verif Require Import Go Errors Message World Lang Code Sem ExecProofs Logic Spec_App Spec_Ready Frame Ready.
From Verif Require Import Spec_Conn Spec_View SeqProofs ConnProofs LocalProofs Examples Scenes.

(** A change of the connection that neither the application nor the peer sees. *)
Record tame (G : cfg) (c : cid) (f : conn -> conn) : Prop := Tame {
  ta_closed : forall k, c_closed (f k) = c_closed k;
  ta_sock : forall k, c_sockclosed (f k) = c_sockclosed k;
  ta_wfail : forall k, c_wfail (f k) = c_wfail k;
  ta_ready : g_client G c = false -> forall k, w_ready (c_wait (f k)) = w_ready (c_wait k);
  ta_nsmu : forall k, c_nsmu (f k) = c_nsmu k;
  ta_nss : forall k, c_nss (f k) = c_nss k;
  ta_procs : forall k, c_procs (f k) = c_procs k;
  ta_out : forall k, c_out (f k) = c_out k;
  ta_waiting : forall k, c_waiting (f k) = c_waiting k }.
Lemma tame_calm G c f w : tame G c f -> calm G w c -> calm G (upd_conn c f w) c.
Proof.
  intros T [[Q1 Q2] Hi]. split; [split|].
  - unfold upd_conn at 1. cbn. rewrite lookup_insert, conn_upd_eq. reflexivity.
  - destruct Q2. constructor; rewrite ?conn_upd_eq, ?(ta_closed _ _ _ T), ?(ta_sock _ _ _ T), ?(ta_wfail _ _ _ T), ?(ta_nsmu _ _ _ T), ?(ta_nss _ _ _ T); auto.
    intros Hc. rewrite (ta_ready _ _ _ T) by exact Hc. auto.
  - eapply idle_ext; [| | |exact Hi]; try reflexivity. rewrite conn_upd_eq. apply (ta_procs _ _ _ T).
Qed.
Lemma tame_view G c f w : tame G c f -> view (upd_conn c f w) c = view w c.
Proof.
  intros T. unfold view. rewrite conn_upd_eq, (ta_nss _ _ _ T), (ta_out _ _ _ T). reflexivity.
Qed.
Lemma tame_unasked G c f w m : tame G c f -> unasked G w c m -> unasked G (upd_conn c f w) c m.
Proof. intros T [H|[[H1 H2] H3]]; [left; exact H|]. right. split; [|exact H3]. split; [rewrite conn_upd_eq, (ta_waiting _ _ _ T); exact H1|exact H2]. Qed.
Lemma log_calm G c w e : calm G w c -> calm G (w <| w_log ::= cons e |>) c.
Proof. intros [Q Hi]. split; [exact Q|exact Hi]. Qed.
Ltac tame := constructor; reflexivity || (intros; reflexivity).
Lemma only_unasked G c w w' m : only c w w' -> unasked G w c m -> unasked G w' c m.
Proof. intros O [H|[[H1 H2] H3]]; [left; exact H|]. right. split; [|exact H3]. unfold no_pending. rewrite (y_waiting _ _ _ O), (y_srv _ _ _ O). auto. Qed.

Section queue.
Context (G : cfg) (c : cid).
Definition push_world (f : mtype * string) (w : world) : world :=
  upd_conn c (fun k => match fst f with
                       | TextMessage => k <| c_qtext ::= fun l => l ++ [snd f] |>
                       | BinaryMessage => k <| c_qbin ::= fun l => l ++ [snd f] |>
                       end) (upd_conn c (fun k => k <| c_in ::= @tl (mtype * string) |>) w).
Lemma tame_in : tame G c (fun k => k <| c_in ::= @tl (mtype * string) |>).
Proof. tame. Qed.
Lemma tame_push f : tame G c (fun k => match fst f with
                       | TextMessage => k <| c_qtext ::= fun l => l ++ [snd f] |>
                       | BinaryMessage => k <| c_qbin ::= fun l => l ++ [snd f] |>
                       end).
Proof. destruct f as [[] b]; tame. Qed.
Lemma early_step t w f rest : c_sockclosed (conn_of w c) = false -> c_acked (conn_of w c) = false ->
  c_in (conn_of w c) = f :: rest -> early (snd f) -> exec t (reader_step G c) w = XDone (push_world f w) true.
Proof.
  intros Hs Ha Hi He. unfold reader_step. rewrite (exec_opb t (ORead c) _ _ (upd_conn c (fun k => k <| c_in ::= @tl (mtype * string) |>) w) (inr f)).
  2: { cbn [ostep]. rewrite Hs, Hi. reflexivity. }
  destruct f as [typ b]. cbn [snd] in He. destruct b as [|a b]; [destruct He|]. cbn [is_empty]. destruct He as (H1 & H2 & H3).
  rewrite (exec_opb t (OIsAcked c) _ _ (upd_conn c (fun k => k <| c_in ::= @tl (mtype * string) |>) w) false).
  2: { cbn [ostep]. rewrite conn_upd_eq. cbn. rewrite Ha. reflexivity. }
  cbn [negb]. unfold handleACK, ackBinary, ackIDBinary, ackNotOKBinary. rewrite (proj2 (Ascii.eqb_neq _ _) H1), (proj2 (Ascii.eqb_neq _ _) H2), (proj2 (Ascii.eqb_neq _ _) H3).
  reflexivity.
Qed.
Lemma reads_app t n m w w1 : exec t (reads G c n) w = XDone w1 true -> exec t (reads G c (n + m)) w = exec t (reads G c m) w1.
Proof.
  revert w. induction n as [|n IH]; cbn [reads Nat.add]; intros w H; [injection H as ->; reflexivity|].
  rewrite exec_bind in H |- *. destruct (exec t (reader_step G c) w) as [w2 b| | |]; try discriminate H.
  cbn [xbind] in H |- *. destruct b; [|discriminate H]. apply IH, H.
Qed.
Lemma texts_cons f fs : texts (f :: fs) = if is_text f then f :: texts fs else texts fs.
Proof. unfold texts. rewrite filter_cons. destruct (is_text f); reflexivity. Qed.
Lemma binaries_cons f fs : binaries (f :: fs) = if is_text f then binaries fs else f :: binaries fs.
Proof. unfold binaries. rewrite filter_cons. destruct (is_text f); reflexivity. Qed.
Lemma early_reads t fs : forall w rest, calm G w c -> c_acked (conn_of w c) = false ->
  c_in (conn_of w c) = fs ++ rest -> Forall (fun f => early (snd f)) fs ->
  exists w1, exec t (reads G c (length fs)) w = XDone w1 true /\ calm G w1 c /\ view w1 c = view w c /\
    c_acked (conn_of w1 c) = false /\ c_in (conn_of w1 c) = rest /\ c_wait (conn_of w1 c) = c_wait (conn_of w c) /\ c_id (conn_of w1 c) = c_id (conn_of w c) /\
    (forall m, unasked G w c m -> unasked G w1 c m) /\
    c_qtext (conn_of w1 c) = c_qtext (conn_of w c) ++ map snd (texts fs) /\
    c_qbin (conn_of w1 c) = c_qbin (conn_of w c) ++ map snd (binaries fs).
Proof.
  induction fs as [|f fs IH]; intros w rest C Ha Hi HF.
  { exists w. cbn. rewrite !app_nil_r. cbn in Hi. auto 12. }
  apply Forall_cons in HF as [Hf HF]. cbn [length reads].
  rewrite (exec_bind_done _ _ _ _ _ _ (early_step t w f (fs ++ rest) (q_sock _ _ _ (proj1 C)) Ha Hi Hf)).
  destruct (IH (push_world f w) rest) as (w1 & E & C1 & V & A1 & I1 & W1 & D1 & U1 & T1 & B1); auto.
  - apply tame_calm; [apply tame_push|]. apply tame_calm; [apply tame_in|exact C].
  - unfold push_world. rewrite conn_upd_eq. destruct f as [[] b]; cbn; rewrite conn_upd_eq; exact Ha.
  - unfold push_world. rewrite conn_upd_eq. destruct f as [[] b]; cbn; rewrite conn_upd_eq; cbn; rewrite Hi; reflexivity.
  - exists w1. split; [exact E|]. split; [exact C1|]. split; [rewrite V; unfold push_world; rewrite (tame_view G) by apply tame_push; apply (tame_view G), tame_in|].
    split; [exact A1|]. split; [exact I1|].
    split; [rewrite W1; unfold push_world; rewrite conn_upd_eq; destruct f as [[] b]; cbn; rewrite conn_upd_eq; reflexivity|].
    split; [rewrite D1; unfold push_world; rewrite conn_upd_eq; destruct f as [[] b]; cbn; rewrite conn_upd_eq; reflexivity|].
    split; [intros m Hm; apply U1; apply tame_unasked; [apply tame_push|]; apply tame_unasked; [apply tame_in|exact Hm]|].
    rewrite T1, B1, texts_cons, binaries_cons. unfold push_world. rewrite conn_upd_eq. destruct f as [[] b]; cbn; rewrite conn_upd_eq; cbn; rewrite <- ?app_assoc; split; reflexivity.
Qed.

Context (A : app) (S : setting G c A).
Lemma payloads t typ q : forall w, calm G w c -> (forall b, b ∈ q -> unasked G w c (received G c typ b)) ->
  exists w', exec t (for_all q (fun b => bind (HandlePayload G c typ b) (fun _ => Ret tt))) w = XDone w' tt /\
    calm G w' c /\ only c w w' /\ machine (role_of G c w) A (map (received G c typ) q) (view w c) (view w' c).
Proof.
  induction q as [|b q IH]; intros w C U.
  { exists w. split; [reflexivity|]. split; [exact C|]. split; [apply only_refl|constructor]. }
  destruct (handleMessage_runs G c A S t w (received G c typ b) C) as (order & w1 & Hperm & E & V & C1 & O1); [apply U; constructor|].
  destruct (IH w1 C1) as (w' & E' & C' & O' & M'); [intros b' Hb'; eapply only_unasked; [exact O1|apply U; constructor; exact Hb']|].
  exists w'. split; [|split; [exact C'|split; [eapply only_trans; eassumption|]]].
  - cbn [for_all]. unfold HandlePayload at 1, deserialize. rewrite (bind_assoc_exec _ _ _ _ _ _ _ E). cbn [bind]. exact E'.
  - cbn [map]. econstructor; [exact Hperm|]. rewrite <- V. rewrite (SeqProofs.role_only G c w w1 O1) in M'. exact M'.
Qed.
Lemma machine_app R B ms1 ms2 s1 s2 s3 : machine R B ms1 s1 s2 -> machine R B ms2 s2 s3 -> machine R B (ms1 ++ ms2) s1 s3.
Proof. induction 1; cbn; [auto|]. intros H'. econstructor; eauto. Qed.
Lemma tame_del typ : tame G c (fun k => match typ with TextMessage => k <| c_qtext := [] |> | BinaryMessage => k <| c_qbin := [] |> end).
Proof. destruct typ; tame. Qed.
Lemma role_tame f w : c_id (f (conn_of w c)) = c_id (conn_of w c) -> role_of G c (upd_conn c f w) = role_of G c w.
Proof. intros H. unfold role_of. rewrite conn_upd_eq, H. reflexivity. Qed.
Lemma queues t (qs : list (mtype * list string)) : forall w, calm G w c -> 
  (forall typ q b, (typ, q) ∈ qs -> b ∈ q -> unasked G w c (received G c typ b)) ->
  exists w', exec t (for_all qs (fun e => let '(typ, q) := e in
      bind (for_all q (fun b => bind (HandlePayload G c typ b) (fun _ => Ret tt))) (fun _ => opr (OQDel c typ)))) w = XDone w' tt /\
    calm G w' c /\ c_id (conn_of w' c) = c_id (conn_of w c) /\ c_acked (conn_of w' c) = c_acked (conn_of w c) /\
    machine (role_of G c w) A (concat (map (fun e => map (received G c (fst e)) (snd e)) qs)) (view w c) (view w' c).
Proof.
  induction qs as [|[typ q] qs IH]; intros w C U.
  { exists w. split; [reflexivity|]. split; [exact C|]. repeat split. constructor. }
  destruct (payloads t typ q w C) as (w1 & E1 & C1 & O1 & M1); [intros b Hb; eapply U; [constructor|exact Hb]|].
  destruct (IH (upd_conn c (fun k => match typ with TextMessage => k <| c_qtext := [] |> | BinaryMessage => k <| c_qbin := [] |> end) w1)) as (w' & E' & C' & I' & A' & M').
  - apply tame_calm; [apply tame_del|exact C1].
  - intros typ' q' b Hq Hb. apply tame_unasked; [apply tame_del|]. eapply only_unasked; [exact O1|]. eapply U; [constructor; exact Hq|exact Hb].
  - exists w'. split; [|split; [exact C'|split; [|split]]].
    + cbn [for_all]. rewrite (bind_assoc_exec _ _ _ _ _ _ _ E1). exact E'.
    + rewrite I', conn_upd_eq, <- (y_id _ _ _ O1). destruct typ; reflexivity.
    + rewrite A', conn_upd_eq, <- (y_acked _ _ _ O1). destruct typ; reflexivity.
    + cbn [map concat fst snd]. eapply machine_app; [exact M1|]. rewrite (tame_view G) in M' by apply tame_del.
      rewrite role_tame in M' by (destruct typ; reflexivity). rewrite (SeqProofs.role_only G c w w1 O1) in M'. exact M'.
Qed.
End queue.

(*@file Prop_Ready.v
From Coq Require Import ZArith Ascii.
From stdpp Require Import gmap strings list relations.
From RecordUpdate Require Import RecordUpdate.
From Verif Require Import Go Errors Message World Lang Code Sem Spec_App Spec_Conn Spec_View Spec_Ready Examples ReadyProofs. @*)
(*@prop C30 (missing: the handshake may be ended by the peer itself, see C30_refuted).  In every schedule of any
    application that leaves received data to the library: whenever a callback ran with a message of the other
    side, the handshake of that connection was over before ([LAcked]), unless the connection has native messages
    only and therefore no handshake. @*)
Lemma l_C30_handshake_partial : forall G s n key m l2 l1,
  user_app no_payload G -> reachable G s -> w_log (s_w s) = l2 ++ LFire n key m :: l1 -> from_remote m ->
  onlyNative G (n_conn n) = true \/ LAcked (n_conn n) ∈ l1.
Proof.
  intros G s n key m l2 l1 A Hr El Hm. destruct (ready_reachable G A s Hr) as (_ & Ls & HI & _).
  exact (iv_log _ _ _ HI l2 n key m l1 El Hm).
Qed.
(*@prop C30.  A server side connection that OnConnect accepted receives any frames, then the "M" of the handshake.  While
    it receives the frames before the "M", nothing is handled.  With the "M" all of them are handled, exactly as if
    they arrived now, one kind after the other and in arrival order within a kind; then the acknowledgment
    with the ID is sent, and the handshake is over. @*)
Lemma l_C30_queue_partial : forall G c A t w fs typ more rest,
  setting G c A -> calm G w c -> g_client G c = false -> w_err (c_wait (conn_of w c)) = None ->
  c_acked (conn_of w c) = false -> c_qtext (conn_of w c) = [] -> c_qbin (conn_of w c) = [] ->
  c_in (conn_of w c) = fs ++ (typ, String "M" more) :: rest -> Forall (fun f => early (snd f)) fs ->
  (forall f, f ∈ fs -> unasked G w c (received G c (fst f) (snd f))) ->
  (exists w1, exec t (reads G c (length fs)) w = XDone w1 true /\ view w1 c = view w c) /\
  (exists w' order s, exec t (reads G c (S (length fs))) w = XDone w' true /\
    (order = texts fs ++ binaries fs \/ order = binaries fs ++ texts fs) /\
    machine (role_of G c w) A (map (fun f => received G c (fst f) (snd f)) order) (view w c) s /\
    view w' c = push (TextMessage, String "A" (c_id (conn_of w c))) s /\ c_acked (conn_of w' c) = true /\ calm G w' c).
Proof.
  intros G c A t w fs typ more rest S C Hcl Herr Ha Ht Hb Hin HF U.
  destruct (early_reads G c t fs w _ C Ha Hin HF) as (w1 & E1 & C1 & V1 & A1 & I1 & W1 & D1 & U1 & T1 & B1).
  split; [eauto|]. rewrite Ht in T1. rewrite Hb in B1. rewrite app_nil_l in T1, B1.
  replace (Datatypes.S (length fs)) with (length fs + 1) by lia. rewrite (reads_app G c t _ _ _ _ E1). cbn [reads].
  set (w2 := upd_conn c (fun k => k <| c_in ::= @tl (mtype * string) |>) w1).
  set (w3 := upd_conn c (fun k => k <| c_acked := true |>) (w2 <| w_log ::= cons (LAcked c) |>)).
  assert (C3 : calm G w3 c) by (apply tame_calm; [tame|]; apply log_calm, tame_calm; [tame|exact C1]).
  assert (V3 : view w3 c = view w c).
  { unfold w3. rewrite (tame_view G) by tame. rewrite <- V1. transitivity (view w2 c); [reflexivity|]. apply (tame_view G). tame. }
  assert (Hid : c_id (conn_of w3 c) = c_id (conn_of w c)).
  { unfold w3, w2. rewrite conn_upd_eq. cbn. unfold conn_of at 1. cbn. fold (conn_of w2 c). rewrite <- D1.
    change (c_id (conn_of w2 c) = c_id (conn_of w1 c)). unfold w2. rewrite conn_upd_eq. reflexivity. }
  assert (R3 : role_of G c w3 = role_of G c w) by (unfold role_of; rewrite Hid; reflexivity).
  assert (U3 : forall m, unasked G w c m -> unasked G w3 c m).
  { intros m Hm. unfold w3. apply tame_unasked; [tame|]. change (unasked G w2 c m). apply tame_unasked; [tame|]. auto. }
  assert (Hq : c_qtext (conn_of w3 c) = map snd (texts fs) /\ c_qbin (conn_of w3 c) = map snd (binaries fs)).
  { rewrite <- T1, <- B1. unfold w3. rewrite conn_upd_eq. change (c_qtext (conn_of w2 c) = c_qtext (conn_of w1 c) /\ c_qbin (conn_of w2 c) = c_qbin (conn_of w1 c)).
    unfold w2. rewrite conn_upd_eq. split; reflexivity. }
  destruct Hq as [Hqt Hqb].
  set (qs := match c_qtext (conn_of w3 c) with [] => [] | q => [(TextMessage, q)] end ++ match c_qbin (conn_of w3 c) with [] => [] | q => [(BinaryMessage, q)] end).
  assert (Hqs : forall e, e ∈ permute (seed w3) qs -> e ∈ qs) by (intros e He; rewrite <- (permute_perm (seed w3) qs); exact He).
  destruct (queues G c A S t (permute (seed w3) qs) (pop_seed w3)) as (w4 & E4 & C4 & I4 & A4 & M4).
  { exact C3. }
  { intros ty q b Hq Hbq. apply Hqs in Hq. change (unasked G w3 c (received G c ty b)). apply U3. unfold qs in Hq. rewrite Hqt, Hqb in Hq.
    assert (Hx : (ty, b) ∈ fs); [|exact (U (ty, b) Hx)].
    apply elem_of_app in Hq as [Hq|Hq].
    - destruct (map snd (texts fs)) as [|x xs] eqn:Ex; [inversion Hq|]. apply elem_of_list_singleton in Hq. injection Hq as -> ->. rewrite <- Ex in Hbq.
      change (map snd (texts fs)) with (snd <$> texts fs) in Hbq. apply elem_of_list_fmap in Hbq as ([ty b'] & -> & Hf). apply elem_of_list_filter in Hf as [Hk Hf]. destruct ty; [exact Hf|discriminate].
    - destruct (map snd (binaries fs)) as [|x xs] eqn:Ex; [inversion Hq|]. apply elem_of_list_singleton in Hq. injection Hq as -> ->. rewrite <- Ex in Hbq.
      change (map snd (binaries fs)) with (snd <$> binaries fs) in Hbq. apply elem_of_list_fmap in Hbq as ([ty b'] & -> & Hf). apply elem_of_list_filter in Hf as [Hk Hf]. destruct ty; [discriminate|exact Hf]. }
  assert (Hcat : exists order, (order = texts fs ++ binaries fs \/ order = binaries fs ++ texts fs) /\
     concat (map (fun e => map (received G c (fst e)) (snd e)) (permute (seed w3) qs)) = map (fun f => received G c (fst f) (snd f)) order).
  { assert (Kt : map (received G c TextMessage) (map snd (texts fs)) = map (fun f => received G c (fst f) (snd f)) (texts fs)).
    { rewrite map_map. apply map_ext_in. intros [ty b] Hf. apply elem_of_list_In, elem_of_list_filter in Hf as [Hk _]. destruct ty; [reflexivity|discriminate]. }
    assert (Kb : map (received G c BinaryMessage) (map snd (binaries fs)) = map (fun f => received G c (fst f) (snd f)) (binaries fs)).
    { rewrite map_map. apply map_ext_in. intros [ty b] Hf. apply elem_of_list_In, elem_of_list_filter in Hf as [Hk _]. destruct ty; [discriminate|reflexivity]. }
    assert (Hp : permute (seed w3) qs = qs \/ permute (seed w3) qs = rev qs).
    { pose proof (permute_perm (seed w3) qs) as Hp. remember (permute (seed w3) qs) as l eqn:El. clear El.
      unfold qs in *. destruct (c_qtext (conn_of w3 c)) as [|x xs], (c_qbin (conn_of w3 c)) as [|y ys]; cbn [Datatypes.app rev] in *.
      - left. apply Permutation_nil. symmetry. exact Hp.
      - left. apply Permutation_singleton_r in Hp. exact Hp.
      - left. apply Permutation_singleton_r in Hp. exact Hp.
      - symmetry in Hp. apply Permutation_length_2_inv in Hp as [->| ->]; auto. }
    assert (Hc : concat (map (fun e => map (received G c (fst e)) (snd e)) qs) = map (fun f => received G c (fst f) (snd f)) (texts fs ++ binaries fs) /\
                 concat (map (fun e => map (received G c (fst e)) (snd e)) (rev qs)) = map (fun f => received G c (fst f) (snd f)) (binaries fs ++ texts fs)).
    { rewrite !map_app, <- Kt, <- Kb. unfold qs. rewrite Hqt, Hqb. destruct (map snd (texts fs)), (map snd (binaries fs)); cbn; rewrite ?app_nil_r; split; reflexivity. }
    destruct Hp as [-> | ->]; [exists (texts fs ++ binaries fs)|exists (binaries fs ++ texts fs)]; split; auto; apply Hc. }
  destruct Hcat as (order & Hord & Hcat). rewrite Hcat in M4.
  exists (send_world c (TextMessage, String "A" (c_id (conn_of w c))) w4), order, (view w4 c).
  split; [|split; [exact Hord|split; [change (pop_seed w3) with (pop_seed w3) in M4|split; [apply view_send|split]]]].
  - assert (Es : exec t (reader_step G c) w1 = XDone (send_world c (TextMessage, String "A" (c_id (conn_of w c))) w4) true).
    2: { rewrite (exec_bind_done _ _ _ _ _ _ Es). reflexivity. }
    unfold reader_step. rewrite (exec_opb t (ORead c) _ _ w2 (inr (typ, String "M" more))).
    2: { cbn [ostep]. rewrite (q_sock _ _ _ (proj1 C1)), I1. reflexivity. }
    cbn [is_empty]. rewrite (exec_opb t (OIsAcked c) _ _ w2 false).
    2: { cbn [ostep]. unfold w2. rewrite conn_upd_eq. cbn. rewrite A1. reflexivity. }
    cbn [negb]. unfold handleACK. cbn [Ascii.eqb ackBinary Bool.eqb]. unfold wait.
    assert (Hready : w_ready (c_wait (conn_of w2 c)) = true) by (unfold w2; rewrite conn_upd_eq; cbn; apply (q_ready _ _ _ (proj1 C1) Hcl)).
    assert (Hw2 : w_err (c_wait (conn_of w2 c)) = None) by (unfold w2; rewrite conn_upd_eq; cbn; rewrite W1; exact Herr).
    cbn [bind opr exec ostep]. rewrite Hready. cbn [bind opr exec ostep]. rewrite Hw2. cbn [bind opr exec ostep]. fold w3.
    unfold handleQueue. cbn [bind opr exec ostep]. fold qs.
    rewrite (exec_bind_done _ _ _ _ _ _ E4). cbn [bind opr exec ostep]. rewrite I4. change (conn_of (pop_seed w3) c) with (conn_of w3 c). rewrite Hid.
    apply (write_exec G c t w4 _ false), C4.
  - change (role_of G c (pop_seed w3)) with (role_of G c w3) in M4. change (view (pop_seed w3) c) with (view w3 c) in M4. rewrite R3, V3 in M4. exact M4.
  - rewrite send_conn. cbn. rewrite A4. change (conn_of (pop_seed w3) c) with (conn_of w3 c). unfold w3. rewrite conn_upd_eq. reflexivity.
  - destruct C4 as [Q4 H4]. split; [apply quiet_send, Q4|]. apply (y_idle _ _ _ (only_send c (TextMessage, String "A" (c_id (conn_of w c))) w4)), H4.
Qed.
(*@prop C30.  A client receives any frames before its acknowledgment "A"id: nothing is handled, neither when they arrive nor when
    the acknowledgment comes; they stay in the queue.  The acknowledgment sets the ID and ends the handshake. @*)
Lemma l_C30_client_partial : forall G c t w fs typ id rest,
  calm G w c -> g_client G c = true -> w_chclosed (c_wait (conn_of w c)) = false ->
  c_acked (conn_of w c) = false -> c_qtext (conn_of w c) = [] -> c_qbin (conn_of w c) = [] ->
  c_in (conn_of w c) = fs ++ (typ, String "A" id) :: rest -> Forall (fun f => early (snd f)) fs ->
  exists w', exec t (reads G c (S (length fs))) w = XDone w' true /\
    view w' c = view w c /\ c_acked (conn_of w' c) = true /\ c_id (conn_of w' c) = id /\ c_in (conn_of w' c) = rest /\ calm G w' c /\
    c_qtext (conn_of w' c) = map snd (texts fs) /\ c_qbin (conn_of w' c) = map snd (binaries fs).
Proof.
  intros G c t w fs typ id rest C Hcl Hch Ha Ht Hb Hin HF.
  destruct (early_reads G c t fs w _ C Ha Hin HF) as (w1 & E1 & C1 & V1 & A1 & I1 & W1 & D1 & U1 & T1 & B1).
  rewrite Ht in T1. rewrite Hb in B1. rewrite app_nil_l in T1, B1.
  replace (S (length fs)) with (length fs + 1) by lia. rewrite (reads_app G c t _ _ _ _ E1). cbn [reads].
  set (w2 := upd_conn c (fun k => k <| c_in ::= @tl (mtype * string) |>) w1).
  set (w3 := upd_conn c (fun k => k <| c_acked := true |>) (upd_conn c (fun k => k <| c_id := id |>) w2 <| w_log ::= cons (LAcked c) |>)).
  assert (E3 : exists f, tame G c f /\ exec t (unwait c None) w3 = XDone (upd_conn c f w3) tt /\ (forall k, c_acked (f k) = c_acked k) /\
    (forall k, c_id (f k) = c_id k) /\ (forall k, c_in (f k) = c_in k) /\ (forall k, c_qtext (f k) = c_qtext k) /\ (forall k, c_qbin (f k) = c_qbin k)).
  { assert (Hw3 : c_wait (conn_of w3 c) = c_wait (conn_of w c)).
    { rewrite <- W1. unfold w3. rewrite conn_upd_eq. cbn. change (c_wait (conn_of (upd_conn c (fun k => k <| c_id := id |>) w2) c) = c_wait (conn_of w1 c)).
      rewrite conn_upd_eq. cbn. unfold w2. rewrite conn_upd_eq. reflexivity. }
    destruct (w_ready (c_wait (conn_of w c))) eqn:Er.
    - exists (fun k => k). split; [tame|]. split; [|repeat split]. rewrite (unwait_exec c t w3 None) by (rewrite Hw3; exact Er).
      f_equal. symmetry. apply upd_conn_id; [|reflexivity]. unfold w3, upd_conn at 1. cbn. rewrite lookup_insert, conn_upd_eq. reflexivity.
    - unfold unwait. cbn [bind opr exec ostep]. rewrite Hw3, Er. cbn [bind opr exec ostep]. rewrite upd_conn_twice.
      set (g := fun k : conn => k <| c_wait ::= fun x => x <| w_err := None |> |> <| c_wait ::= fun x => x <| w_ready := true |> |>).
      rewrite conn_upd_eq. cbn. rewrite Hw3. destruct (w_locked (c_wait (conn_of w c))) eqn:El.
      + cbn [bind opr exec ostep]. rewrite upd_conn_twice, conn_upd_eq. cbn. rewrite Hw3, Hch. rewrite upd_conn_twice.
        eexists. split; [|split; [reflexivity|repeat split]]. constructor; try reflexivity; try (intros; reflexivity). congruence.
      + eexists. split; [|split; [reflexivity|repeat split]]. constructor; try reflexivity; try (intros; reflexivity). congruence. }
  destruct E3 as (f & Hf & Ef & F1 & F2 & F3 & F4 & F5).
  assert (C3 : calm G w3 c) by (apply tame_calm; [tame|]; apply log_calm, tame_calm; [tame|]; apply tame_calm; [tame|exact C1]).
  exists (upd_conn c f w3). split; [|split; [|split; [|split; [|split; [|split; [|split]]]]]].
  - assert (Es : exec t (reader_step G c) w1 = XDone (upd_conn c f w3) true).
    2: { rewrite (exec_bind_done _ _ _ _ _ _ Es). reflexivity. }
    unfold reader_step. rewrite (exec_opb t (ORead c) _ _ w2 (inr (typ, String "A" id))).
    2: { cbn [ostep]. rewrite (q_sock _ _ _ (proj1 C1)), I1. reflexivity. }
    cbn [is_empty]. rewrite (exec_opb t (OIsAcked c) _ _ w2 false).
    2: { cbn [ostep]. unfold w2. rewrite conn_upd_eq. cbn. rewrite A1. reflexivity. }
    cbn [negb]. unfold handleACK. cbn [Ascii.eqb ackBinary ackIDBinary Bool.eqb]. cbn [bind opr exec ostep]. fold w3.
    rewrite (exec_bind_done _ _ _ _ _ _ Ef). reflexivity.
  - rewrite (tame_view G) by exact Hf. unfold w3. rewrite (tame_view G) by tame. rewrite <- V1.
    change (view (upd_conn c (fun k => k <| c_id := id |>) w2) c = view w1 c). rewrite (tame_view G) by tame. apply (tame_view G). tame.
  - rewrite conn_upd_eq, F1. unfold w3. rewrite conn_upd_eq. reflexivity.
  - rewrite conn_upd_eq, F2. unfold w3. rewrite conn_upd_eq. cbn. change (c_id (conn_of (upd_conn c (fun k => k <| c_id := id |>) w2) c) = id). rewrite conn_upd_eq. reflexivity.
  - rewrite conn_upd_eq, F3. unfold w3. rewrite conn_upd_eq. cbn. change (c_in (conn_of (upd_conn c (fun k => k <| c_id := id |>) w2) c) = rest). rewrite conn_upd_eq. cbn.
    unfold w2. rewrite conn_upd_eq. cbn. rewrite I1. reflexivity.
  - apply tame_calm; [exact Hf|exact C3].
  - rewrite conn_upd_eq, F4. unfold w3. rewrite conn_upd_eq. cbn. change (c_qtext (conn_of (upd_conn c (fun k => k <| c_id := id |>) w2) c) = map snd (texts fs)). rewrite conn_upd_eq. cbn.
    unfold w2. rewrite conn_upd_eq. cbn. exact T1.
  - rewrite conn_upd_eq, F5. unfold w3. rewrite conn_upd_eq. cbn. change (c_qbin (conn_of (upd_conn c (fun k => k <| c_id := id |>) w2) c) = map snd (binaries fs)). rewrite conn_upd_eq. cbn.
    unfold w2. rewrite conn_upd_eq. cbn. exact B1.
Qed.

(** Frames of both kinds before the "M", at an accepted connection. *)
Definition waitingS : sys := play exG
  [Go 0; Act1 (Env (EGo (TUpgrade 1))); Go 1; Act1 Start; Act1 Start; Go 0; Go 2; Go 3; Go 1;
   Act1 (Env (EDeliver 1 BinaryMessage "$1;chat;;_OnNamespaceConnect;0;0;"));
   Act1 (Env (EDeliver 1 TextMessage ";chat;;echo;0;0;hello")); Act1 (Env (EDeliver 1 TextMessage "M"))] (init exG).
Definition waiting_frames : list (mtype * string) :=
  [(BinaryMessage, "$1;chat;;_OnNamespaceConnect;0;0;"); (TextMessage, ";chat;;echo;0;0;hello")].
Definition dialS : sys := play exG [Act1 (Env (EGo (TDial 2))); Go 1; Act1 Start; Go 2;
   Act1 (Env (EDeliver 2 TextMessage "$1;chat;;_OnNamespaceConnect;0;0;")); Act1 (Env (EDeliver 2 TextMessage "Aid-1"))] (init exG).
Lemma waitingS_reachable : reachable exG waitingS.
Proof. apply play_reachable. Qed.
Lemma dialS_reachable : reachable exG dialS.
Proof. apply play_reachable. Qed.
Lemma exM_reachable : reachable exG exM.
Proof. apply play_reachable. Qed.
Lemma exG_app : user_app no_payload exG.
Proof.
  constructor; try discriminate; try (intros; exact Logic.I). intros. eapply exA_user; eassumption.
Qed.
#[local] Opaque exG exM waitingS dialS.
(*@prop C30.  Messages of different kinds may be handled in another order than they arrived: here the connect request (binary)
    arrived first and the event (text) second; but the event is handled first, and is lost, because the
    namespace is not connected yet. @*)
Lemma l_C30_reordered_refuted : exists G c s t w',
  reachable G s /\ g_client G c = false /\
  c_in (conn_of (s_w s) c) = [(BinaryMessage, "$1;chat;;_OnNamespaceConnect;0;0;"); (TextMessage, ";chat;;echo;0;0;hello"); (TextMessage, "M")] /\
  exec t (reads G c 3) (s_w s) = XDone w' true /\
  cs_rooms (view w' c) = {["chat" := ∅]} /\
  map (fun f => snd (fst f)) (cs_fired (view w' c)) = [OnNamespaceConnected] /\
  chosen G (NsRef c "chat" 0) "echo" <> None.
Proof.
  exists exG, 1, waitingS, 3.
  destruct (exec 3 (reads exG 1 3) (s_w waitingS)) as [w' r| | |] eqn:E.
  2-4: exfalso; assert (match exec 3 (reads exG 1 3) (s_w waitingS) with XDone _ _ => True | _ => False end) as H by (vm_compute; exact Logic.I); rewrite E in H; exact H.
  exists w'. split; [apply waitingS_reachable|]. split; [vm_compute; reflexivity|]. split; [vm_compute; reflexivity|].
  assert (H : match exec 3 (reads exG 1 3) (s_w waitingS) with
     | XDone w' r => r = true /\ bool_decide (cs_rooms (view w' 1) = {["chat" := ∅]}) = true /\ map (fun f => snd (fst f)) (cs_fired (view w' 1)) = [OnNamespaceConnected]
     | _ => False end).
  { clear. vm_compute. auto. }
  rewrite E in H. destruct H as (-> & H1%bool_decide_eq_true & H2). split; [reflexivity|]. split; [exact H1|]. split; [exact H2|]. vm_compute. discriminate.
Qed.
(*@exl C30. The hypotheses hold in reachable states: callbacks that ran for messages of the peer, queued frames of both kinds, and a
    client that receives a frame before its acknowledgment. @*)
Lemma x_C30_example :
  user_app no_payload exG /\ reachable exG exM /\
  (exists l2 n key m l1, w_log (s_w exM) = l2 ++ LFire n key m :: l1 /\ from_remote m /\ n_conn n = 1) /\
  reachable exG waitingS /\ setting exG 1 exA /\ calm exG (s_w waitingS) 1 /\ g_client exG 1 = false /\
  w_err (c_wait (conn_of (s_w waitingS) 1)) = None /\ c_acked (conn_of (s_w waitingS) 1) = false /\
  c_in (conn_of (s_w waitingS) 1) = waiting_frames ++ [(TextMessage, "M")] /\ Forall (fun f => early (snd f)) waiting_frames /\
  (forall f, f ∈ waiting_frames -> unasked exG (s_w waitingS) 1 (received exG 1 (fst f) (snd f))) /\
  reachable exG dialS /\ calm exG (s_w dialS) 2 /\ w_chclosed (c_wait (conn_of (s_w dialS) 2)) = false /\
  c_in (conn_of (s_w dialS) 2) = [(TextMessage, "$1;chat;;_OnNamespaceConnect;0;0;"); (TextMessage, "Aid-1")].
Proof.
  split; [apply exG_app|]. split; [apply exM_reachable|]. split.
  { assert (E : match w_log (s_w exM) with LFire n key m :: _ => from_remote m /\ n_conn n = 1 | _ => False end).
    { vm_compute. split; [|reflexivity]. split; [reflexivity|]. intros [H _]. discriminate H. }
    destruct (w_log (s_w exM)) as [|[] l1]; try destruct E. exists [], n, key, m, l1. auto. }
  split; [apply waitingS_reachable|]. split; [apply ex_setting|].
  split; [split; [apply quietb_ok; vm_compute; reflexivity|apply idleb_ok; vm_compute; reflexivity]|]. split; [vm_compute; reflexivity|].
  split; [vm_compute; reflexivity|]. split; [vm_compute; reflexivity|]. split; [vm_compute; reflexivity|].
  split; [repeat constructor; cbn; discriminate|].
  split; [intros f Hf; right; split; [split; [vm_compute; reflexivity|intros _; vm_compute; reflexivity]|right; left; vm_compute; reflexivity]|].
  split; [apply dialS_reachable|]. split; [split; [apply quietb_ok; vm_compute; reflexivity|apply idleb_ok; vm_compute; reflexivity]|].
  split; vm_compute; reflexivity.
Qed.
