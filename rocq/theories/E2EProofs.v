(** * E2EProofs.v : C49, C50, requests and replies between two ends of a link. *)
From Coq Require Import ZArith.
From stdpp Require Import gmap strings list relations.
From RecordUpdate Require Import RecordUpdate.
From Verif Require Import Go Errors Message World Lang Code Sem ExecProofs Spec_Conn Spec_View Spec_Wire CodecProofs WireProofs SeqProofs ConnProofs LocalProofs.

(** ** What one end does leaves the other end as it is *)
Lemma others_conn c w w' c' : others c w w' -> c' <> c -> conn_of w' c' = conn_of w c'.
Proof. intros Z H. unfold conn_of. rewrite (z_conns _ _ _ Z _ H). reflexivity. Qed.

Lemma others_ns G a b w w' name n : others a w w' -> a <> b -> quiet G w b -> c_nss (conn_of w b) !! name = Some n ->
  w_nss w' !! n_id n = w_nss w !! n_id n.
Proof.
  intros Z Hne [_ Q] E. destruct (q_ns_ _ _ _ _ _ Q _ _ E) as (Hc & _ & o & Eo & Ho & _).
  rewrite Eo. apply (z_nss _ _ _ Z); [exact Eo|]. rewrite Ho, Hc. auto.
Qed.

Lemma others_quiet G a b w w' : others a w w' -> a <> b -> quiet G w' a -> quiet G w b -> quiet G w' b.
Proof.
  intros Z Hne [_ Qa] Qb. assert (Hne' : b <> a) by auto. pose proof (others_conn _ _ _ _ Z Hne') as Ec.
  split; [rewrite (z_conns _ _ _ Z _ Hne'), Ec; apply Qb|]. rewrite Ec.
  pose proof Qb as [_ [H1 H2 H3 H4 H5 H6 H7]]. split; auto.
  - intros name n E. destruct (H6 _ _ E) as (Hc & Hn & o & Eo & Ho). split; [exact Hc|]. split; [exact Hn|].
    exists o. split; [|exact Ho]. rewrite (others_ns _ _ _ _ _ _ _ Z Hne Qb E). exact Eo.
  - apply (q_fresh_ _ _ _ _ _ Qa).
Qed.

Lemma others_view G a b w w' : others a w w' -> a <> b -> quiet G w b -> view w' b = view w b.
Proof.
  intros Z Hne Qb. assert (Hne' : b <> a) by auto. unfold view. rewrite (others_conn _ _ _ _ Z Hne').
  destruct (z_log _ _ _ Z _ Hne') as [-> ->]. f_equal. apply map_eq. intros name. rewrite !lookup_fmap.
  destruct (c_nss (conn_of w b) !! name) as [n|] eqn:E; [|reflexivity]. cbn. f_equal. unfold ns_of.
  rewrite (others_ns _ _ _ _ _ _ _ Z Hne Qb E). reflexivity.
Qed.

Lemma others_idle a b w w' : others a w w' -> a <> b -> idle w b ->
  (forall n n' p, c_procs (conn_of w a) !! n = Some p -> c_procs (conn_of w b) !! n' <> Some p) -> idle w' b.
Proof.
  intros Z Hne Ib Hd name p E. assert (Hne' : b <> a) by auto. rewrite (others_conn _ _ _ _ Z Hne') in E.
  destruct (Ib _ _ E) as [Hp Hi]. pose proof (z_next _ _ _ Z). split; [lia|].
  rewrite (z_procs _ _ _ Z p Hp); [exact Hi|]. intros name' E'. exact (Hd _ _ _ E' E).
Qed.

(** ** A request arrives *)
Lemma arrived_eq G b tok m : arrived G b tok m =
  Message tok (m_namespace m) (m_room m) (m_event m) (m_body m) None false false false "" "" false "" false false
    (allowNative G b && String.eqb (m_event m) OnNativeMessage) false (m_setBinary m).
Proof. reflexivity. Qed.
Lemma arrives G b A tok m : setting G b A -> request m -> good_token tok -> tok <> "" ->
  let f := wire_of (set_wait tok m) in received G b (fst f) (snd f) = arrived G b tok m.
Proof.
  intros S [He Hno Hn Hr Hev] Hw Hne f. unfold received. rewrite (app_mixed _ _ _ S). unfold f, wire_of. cbn [fst snd].
  set (m1 := set_fromExplicit "" (set_wait tok m)).
  destruct (serialize_printable (set_wait tok m)) as [by_ Hb]; [red; cbn; rewrite He; exact I|].
  fold m1 in Hb. rewrite Hb.
  destruct (deserialize_serialized (g_known G) (if m_setBinary m then BinaryMessage else TextMessage) (allowNative G b) m1 by_)
    as (x & p & _ & Hx & E & Hc); [intros [_ H]; exact (Hne H)|reflexivity|exact Hw|exact Hb|].
  cbn [m_setBinary set_wait]. rewrite E. clear E.
  destruct Hc as [(_ & -> & ->)|[(rb & H & _)|(ge & t & H & _)]].
  2,3: cbn in H; rewrite He in H; discriminate.
  cbn [m_wait m_namespace m_room m_event m_body m_isNoOp set_fromExplicit set_wait m1].
  rewrite !unescape_escape by assumption. rewrite arrived_eq, Hno. f_equal.
  - destruct (is_empty (m_body m)); reflexivity.
  - destruct (is_empty (m_body m)); reflexivity.
  - f_equal. apply eq_bool_prop_intro. rewrite !Is_true_true. rewrite !String.eqb_eq. split.
    + intros E. rewrite <- (unescape_escape (m_event m)) by assumption. rewrite E. reflexivity.
    + intros E. rewrite E. reflexivity.
  - destruct (m_setBinary m); reflexivity.
Qed.

(** ** The reply finds the waiting call *)
Lemma reply_handled G a A t w tok ch f z : setting G a A ->
  let m := received G a (fst f) (snd f) in
  m_isInvalid m = false -> m_fromStackExchange m = false -> m_wait m = tok -> tok = genWait (g_client G a) z ->
  c_waiting (conn_of w a) !! tok = Some ch -> w_chans w !! ch = Some (chan0 1) ->
  (g_client G a = false -> s_waiting (w_srv w) !! tok = None) ->
  exec t (HandlePayload G a (fst f) (snd f)) w =
    XDone (upd_chan ch (fun y => y <| ch_buf := [m] |> <| ch_sent ::= S |>) w) None.
Proof.
  intros S m Hval Hsx Hw Htok Hwt Hch Hs. unfold HandlePayload, deserialize. fold (received G a (fst f) (snd f)). fold m.
  unfold handleMessage. rewrite Hval, (app_mixed _ _ _ S), andb_false_r. change (IsClient G a) with (g_client G a).
  assert (Hsend : exec t (bind (send ch m) (fun _ => Ret (@None gerr))) w =
    XDone (upd_chan ch (fun y => y <| ch_buf := [m] |> <| ch_sent ::= Datatypes.S |>) w) None).
  { assert (Hc : chan_of w ch = chan0 1) by (exact (f_equal (default (chan0 0)) Hch)).
    unfold send. rewrite exec_bind. cbn [opr bind exec ostep]. rewrite Hc. cbn -[upd_chan].
    unfold upd_chan at 1. unfold chan_of at 1. cbn. rewrite lookup_insert. cbn. rewrite Hc. cbn.
    unfold upd_chan. rewrite Hc. reflexivity. }
  assert (Hre : exec t (handle_reply_or_event G a m) w = XDone (upd_chan ch (fun y => y <| ch_buf := [m] |> <| ch_sent ::= Datatypes.S |>) w) None).
  { unfold handle_reply_or_event. rewrite (exec_opb t (OWaitGet a (m_wait m)) _ _ _ _ eq_refl). rewrite Hw, Hwt. exact Hsend. }
  assert (HW : IsWait (g_client G a) m = true).
  { destruct (l_C08_recognition z m) as [H1 H2]. rewrite Hw, Htok in *. destruct (g_client G a); [apply H1; reflexivity|apply H2; reflexivity]. }
  rewrite HW. destruct (g_client G a) eqn:Hcl; [exact Hre|].
  assert (Hsw : exec t (bind (opr (OSWaitGet (m_wait m))) (fun w0 => match w0 with
            | Some ch => bind (send ch m) (fun _ => Ret None)
            | None => handle_reply_or_event G a m
            end)) w = XDone (upd_chan ch (fun y => y <| ch_buf := [m] |> <| ch_sent ::= Datatypes.S |>) w) None).
  { rewrite (exec_opb t (OSWaitGet (m_wait m)) _ _ _ _ eq_refl). rewrite Hw, (Hs eq_refl). exact Hre. }
  destruct (g_exch G); [|exact Hsw]. rewrite Hsx. exact Hsw.
Qed.

(** ** The round trip *)
Lemma round {B} G a b Aa Ab ta tb tr x on (p : prog B) w m mid post (R : cstate -> message -> Prop) :
  let tok := genWait (g_client G a) (w_now w) in
  linked G a b Aa Ab w tok -> ctx_live w x -> request m -> cs_sent mid = cs_sent (view w a) ->
  asks G a ta x on p w m mid post ->
  (forall w1 typ by_, calm G w1 b -> view w1 b = view w b -> unasked G w1 b (arrived G b tok m) ->
     received G b typ by_ = arrived G b tok m ->
     exists w2 err g, exec tb (HandlePayload G b typ by_) w1 = XDone w2 err /\ calm G w2 b /\ only b w1 w2 /\
       cs_sent (view w2 b) = cs_sent (view w b) ++ [g] /\
       let r := received G a (fst g) (snd g) in
       m_isInvalid r = false /\ m_fromStackExchange r = false /\ m_wait r = tok /\ R (view w2 b) r) ->
  exists w4 res reply, exchange G a b ta tb tr p w w4 res /\ quiet G w4 a /\ quiet G w4 b /\
    R (view w4 b) reply /\ post (inr reply) (push (wire_of (set_wait tok m)) mid) res (view w4 a).
Proof.
  intros tok L Hx Hrq Hmid (tok' & ch & w1 & k & Etok & E1 & N1 & Q1 & Z1 & V1 & [W1 C1] & HA) HB.
  fold tok in Etok. subst tok'. destruct L as [Hne Sa Sb [Qa Ia] [Qb Ib] Hd [Hf1 Hf2] [Hg1 Hg2] Hin Hack].
  assert (Hne' : b <> a) by auto.
  assert (Htok : good_token tok /\ tok <> "").
  { split; [apply genWait_good|]. unfold tok. destruct (g_client G a); [rewrite genWait_client; discriminate|].
    rewrite genWait_server. destruct (format_int_shape (w_now w)) as (s & _ & Hs & [-> | ->]); [exact Hs|discriminate]. }
  destruct Htok as [Hgood Hnet].
  set (f := wire_of (set_wait tok m)).
  pose proof (arrives G b Ab tok m Sb Hrq Hgood Hnet) as Harr. cbv zeta in Harr. fold f in Harr.
  pose proof (others_conn _ _ _ _ Z1 Hne') as Ec1.
  destruct (HB w1 (fst f) (snd f)) as (w2 & err & g & E2 & [Q2 I2] & O2 & Vs & Hr).
  { split; [eapply others_quiet; eauto|eapply others_idle; eauto]. }
  { eapply others_view; eauto. }
  { right. split; [|left; reflexivity]. change (m_wait (arrived G b tok m)) with tok. split.
    - rewrite Ec1. exact Hf1.
    - intros H. rewrite (z_srv _ _ _ Z1). apply Hf2, H. }
  { exact Harr. }
  cbv zeta in Hr. set (r := received G a (fst g) (snd g)) in *. destruct Hr as (Hv & Hsx & Hwt & HR).
  pose proof (only_others _ _ _ O2) as Z2.
  pose proof (others_conn _ _ _ _ Z2 Hne) as Ec2.
  assert (Q2a : quiet G w2 a) by (eapply others_quiet; eauto).
  assert (V2a : view w2 a = view w1 a) by (eapply others_view; eauto).
  assert (Hch : w_chans w2 !! ch = Some (chan0 1)) by (rewrite (y_chans _ _ _ O2); exact C1).
  set (w3 := upd_chan ch (fun y => y <| ch_buf := [r] |> <| ch_sent ::= S |>) w2).
  assert (E3 : exec tr (HandlePayload G a (fst g) (snd g)) w2 = XDone w3 None).
  { eapply reply_handled; [exact Sa|exact Hv|exact Hsx|exact Hwt|reflexivity|rewrite Ec2; exact W1|exact Hch|].
    intros H. rewrite (z_srv _ _ _ Z2), (z_srv _ _ _ Z1). apply Hg2, H. }
  assert (Hsel : select_reply w3 ch x = [inr r]).
  { unfold select_reply. assert (ch_buf (chan_of w3 ch) = [r]) as ->.
    { unfold w3, upd_chan, chan_of. cbn. rewrite lookup_insert. reflexivity. }
    change (w_ctxs w3) with (w_ctxs w2). rewrite (z_ctxs _ _ _ Z2), (z_ctxs _ _ _ Z1).
    destruct x as [kx|]; [|reflexivity]. cbn in Hx. destruct (w_ctxs w !! kx) as [xc|]; [|reflexivity].
    destruct Hx as [-> _]. reflexivity. }
  destruct (HA w3 (inr r)) as (w4 & res & E4 & Q4 & Z4 & HP).
  - exact Q2a.
  - split.
    + intros id o Eo Hc Hu. split; [apply (y_nss _ _ _ O2); [exact Eo|congruence]|].
      change (conn_of w3 a) with (conn_of w2 a). rewrite Ec2. exact Hu.
    + intros q Hq. change (proc_of w3 q) with (proc_of w2 q). apply (y_procs _ _ _ O2), Hq.
    + change (conn_of w3 a) with (conn_of w2 a). rewrite Ec2. auto.
    + apply (y_next _ _ _ O2).
  - change (conn_of w3 a) with (conn_of w2 a). rewrite Ec2. apply (z_id _ _ _ Z1).
  - change (conn_of w3 a) with (conn_of w2 a). rewrite Ec2. exact N1.
  - exact Hsel.
  - change (view w3 a) with (view w2 a) in HP. rewrite V2a, V1 in HP.
    exists w4, res, r. split; [|split; [exact Q4|split; [|split; [|exact HP]]]].
    + exists ch, x, k, w1, f, w2, g, err, w3. split; [exact E1|]. split.
      { rewrite V1. cbn. rewrite Hmid. reflexivity. }
      split; [exact E2|]. split; [exact Vs|]. split; [exact E3|exact E4].
    + eapply (others_quiet G a b w3 w4); eauto.
    + rewrite (others_view G a b w3 w4 Z4 Hne Q2). exact HR.
Qed.

Lemma safe_by_computation s : safe_rec s = true -> safe_name s.
Proof. apply safe_rec_spec. Qed.

Lemma hello_request ns : safe_name ns -> request (hello ns).
Proof. intros H. split; try reflexivity; [exact H|apply safe_by_computation; reflexivity|apply safe_by_computation; reflexivity]. Qed.
Lemma goodbye_request ns : safe_name ns -> request (goodbye ns).
Proof. intros H. split; try reflexivity; [exact H|apply safe_by_computation; reflexivity|apply safe_by_computation; reflexivity]. Qed.
Lemma join_request ns r : safe_name ns -> safe_name r -> request (join_msg ns r).
Proof. intros H H'. split; try reflexivity; [exact H|exact H'|apply safe_by_computation; reflexivity]. Qed.
Lemma leave_request ns r : safe_name ns -> safe_name r -> request (leave_req ns r).
Proof. intros H H'. split; try reflexivity; [exact H|exact H'|apply safe_by_computation; reflexivity]. Qed.

Lemma token_good client z : good_token (genWait client z) /\ genWait client z <> "".
Proof.
  split; [apply genWait_good|]. destruct client; [rewrite genWait_client; discriminate|].
  rewrite genWait_server. destruct (format_int_shape z) as (s & _ & Hs & [-> | ->]); [exact Hs|discriminate].
Qed.

Lemma clear_seen ks v : clear_verdict v -> seen_error ks v = None <-> v = None.
Proof.
  destruct v as [e|]; cbn; [|tauto]. intros (Hr & t & Ht & Hne). rewrite Hr, Ht.
  destruct (is_empty t) eqn:E; [apply is_empty_true in E; contradiction|]. split; discriminate.
Qed.

Lemma answers_received G a A g tok v : setting G a A -> answers g tok v ->
  let r := received G a (fst g) (snd g) in
  m_isInvalid r = false /\ m_fromStackExchange r = false /\ m_wait r = tok /\
  m_err r = seen_error (g_known G) v /\ m_body r = seen_body v.
Proof. intros S H. unfold received. rewrite (app_mixed _ _ _ S). apply H. Qed.

(*@file Prop_E2E.v
From Coq Require Import ZArith.
From stdpp Require Import gmap strings list relations.
From RecordUpdate Require Import RecordUpdate.
From Verif Require Import Go Errors Message World Lang Code Sem Spec_Conn Spec_View Spec_Wire Examples.
@*)

(*@prop C50. Connect between two ends (either may be the client).  [v] is what the other end decides.  The call
    returns the error that [v] shows; the caller is connected exactly if [v] shows none; the other end
    is connected exactly if it was or [v] is agreement. @*)
Lemma l_C50_connect : forall G a b Aa Ab ta tb tr x ns w,
  let tok := genWait (g_client G a) (w_now w) in
  linked G a b Aa Ab w tok -> ctx_live w x -> safe_name ns ->
  cs_rooms (view w a) !! ns = None -> is_Some (Aa !! ns) -> answer Aa ns (hello ns) = None ->
  let v := match cs_rooms (view w b) !! ns, Ab !! ns with
           | Some _, _ => None
           | None, None => Some EBadNamespace
           | None, Some _ => answer Ab ns (arrived G b tok (hello ns))
           end in
  exists w4 n err, exchange G a b ta tb tr (Connect G a x ns) w w4 (n, err) /\ quiet G w4 a /\ quiet G w4 b /\
    err = seen_error (g_known G) v /\ (is_Some n <-> err = None) /\
    cs_rooms (view w4 a) = match err with None => <[ns := ∅]> (cs_rooms (view w a)) | Some _ => cs_rooms (view w a) end /\
    cs_rooms (view w4 b) = match cs_rooms (view w b) !! ns, v with
                           | None, None => <[ns := ∅]> (cs_rooms (view w b))
                           | _, _ => cs_rooms (view w b)
                           end.
Proof.
  intros G a b Aa Ab ta tb tr x ns w tok L Hx Hns Hna [evs HA] Hloc v.
  pose proof (l_C22_connect G a Aa ta x ns w (lk_a _ _ _ _ _ _ _ L) (lk_calm_a _ _ _ _ _ _ _ L) Hx (lk_inside _ _ _ _ _ _ _ L) (lk_acked _ _ _ _ _ _ _ L)) as HC.
  cbv zeta in HC. rewrite Hna, HA, Hloc in HC.
  destruct (token_good (g_client G a) (w_now w)) as [Hg Hne]. fold tok in Hg, Hne.
  assert (Hmid : cs_sent (fire Aa ns (hello ns) (view w a)) = cs_sent (view w a)) by (rewrite fire_calls; reflexivity).
  destruct (round G a b Aa Ab ta tb tr x None _ w _ _ _ (fun s r => m_err r = seen_error (g_known G) v /\
      cs_rooms s = match cs_rooms (view w b) !! ns, v with
                           | None, None => <[ns := ∅]> (cs_rooms (view w b))
                           | _, _ => cs_rooms (view w b)
                           end) L Hx (hello_request ns Hns) Hmid HC)
    as (w4 & [n err] & reply & HE & Qa & Qb & [Hr Hb] & HP).
  - intros w1 typ by_ C1 V1 U1 Erec. rewrite <- Erec in U1.
    destruct (l_C15_connect_request G b Ab tb w1 typ by_ (lk_b _ _ _ _ _ _ _ L) C1 U1) as (w2 & g & E2 & C2 & O2 & Hs & Hans & Hm & _);
      [rewrite Erec; reflexivity|rewrite Erec; exact Hne|rewrite Erec; reflexivity|].
    rewrite Erec in Hans, Hm. rewrite V1 in *. cbn [m_namespace m_wait] in Hans, Hm.
    change (m_namespace (arrived G b tok (hello ns))) with ns in *. change (m_wait (arrived G b tok (hello ns))) with tok in *.
    exists w2, None, g. split; [exact E2|]. split; [exact C2|]. split; [exact O2|]. split; [exact Hs|]. cbv zeta.
    destruct (answers_received G a Aa g tok _ (lk_a _ _ _ _ _ _ _ L) (Hans Hg)) as (H1 & H2 & H3 & H4 & _).
    do 4 (split; [assumption|]). exact Hm.
  - exists w4, n, err. split; [exact HE|]. split; [exact Qa|]. split; [exact Qb|].
    cbn [verdict] in HP. rewrite Hr in HP. destruct (seen_error (g_known G) v) as [e|].
    + destruct HP as [[= -> ->] ->]. split; [reflexivity|]. split; [split; [intros [? ?]; discriminate|discriminate]|].
      split; [rewrite fire_calls; reflexivity|exact Hb].
    + destruct HP as [(n' & [= -> ->] & Hn') ->]. split; [reflexivity|]. split; [split; eauto|].
      split; [|exact Hb]. unfold connected_here, subscribed. rewrite !fire_calls. destruct (negb _ && _); reflexivity.
Qed.

(*@prop C50. With a clear verdict the two ends agree: either the call succeeds and both are connected, or it
    fails and neither end changed. @*)
Lemma l_C50_connect_agree : forall G a b Aa Ab ta tb tr x ns w,
  let tok := genWait (g_client G a) (w_now w) in
  linked G a b Aa Ab w tok -> ctx_live w x -> safe_name ns ->
  cs_rooms (view w a) !! ns = None -> is_Some (Aa !! ns) -> answer Aa ns (hello ns) = None ->
  clear_verdict (answer Ab ns (arrived G b tok (hello ns))) ->
  exists w4 n err, exchange G a b ta tb tr (Connect G a x ns) w w4 (n, err) /\
    (err = None /\ is_Some n /\ is_Some (cs_rooms (view w4 a) !! ns) /\ is_Some (cs_rooms (view w4 b) !! ns) \/
     is_Some err /\ n = None /\ cs_rooms (view w4 a) = cs_rooms (view w a) /\ cs_rooms (view w4 b) = cs_rooms (view w b)).
Proof.
  intros G a b Aa Ab ta tb tr x ns w tok L Hx Hns Hna HA Hloc Hcl.
  destruct (l_C50_connect G a b Aa Ab ta tb tr x ns w L Hx Hns Hna HA Hloc) as (w4 & n & err & HE & _ & _ & Herr & Hn & Ha & Hb).
  exists w4, n, err. split; [exact HE|]. cbv zeta in Herr, Hb. fold tok in Herr, Hb.
  destruct (cs_rooms (view w b) !! ns) as [rs|] eqn:ER.
  - left. cbn in Herr. subst err. split; [reflexivity|]. split; [apply Hn; reflexivity|]. rewrite Ha, Hb, lookup_insert, ER. split; eexists; reflexivity.
  - assert (Hc : clear_verdict (match Ab !! ns with Some _ => answer Ab ns (arrived G b tok (hello ns)) | None => Some EBadNamespace end)).
    { destruct (Ab !! ns); [exact Hcl|]. cbn. split; [reflexivity|]. eexists. split; [reflexivity|discriminate]. }
    destruct (Ab !! ns) as [evs|]; pose proof (clear_seen (g_known G) _ Hc) as Hs.
    + destruct (answer Ab ns (arrived G b tok (hello ns))) as [e|].
      * right. destruct err as [e'|]; [|exfalso; symmetry in Herr; apply Hs in Herr; discriminate].
        split; [eauto|]. split; [destruct n; [|reflexivity]; assert (Some e' = None) by (apply Hn; eauto); discriminate|]. auto.
      * left. cbn in Herr. subst err. split; [reflexivity|]. split; [apply Hn; reflexivity|]. rewrite Ha, Hb, !lookup_insert. split; eexists; reflexivity.
    + right. destruct err as [e'|]; [|exfalso; symmetry in Herr; apply Hs in Herr; discriminate].
      split; [eauto|]. split; [destruct n; [|reflexivity]; assert (Some e' = None) by (apply Hn; eauto); discriminate|]. auto.
Qed.

(*@prop C50 is violated without that: if the other end's connect callback refuses with a Reply or with an error
    without text, then Connect succeeds and the caller is connected while the other end is not. @*)
Lemma l_C50_connect_agree_refuted : forall G a b Aa Ab ta tb tr x ns w e,
  let tok := genWait (g_client G a) (w_now w) in
  linked G a b Aa Ab w tok -> ctx_live w x -> safe_name ns ->
  cs_rooms (view w a) !! ns = None -> is_Some (Aa !! ns) -> answer Aa ns (hello ns) = None ->
  cs_rooms (view w b) !! ns = None -> is_Some (Ab !! ns) ->
  answer Ab ns (arrived G b tok (hello ns)) = Some e -> (is_Some (is_reply e) \/ err_text e = Ok ""%string) ->
  exists w4 n, exchange G a b ta tb tr (Connect G a x ns) w w4 (Some n, None) /\
    is_Some (cs_rooms (view w4 a) !! ns) /\ cs_rooms (view w4 b) !! ns = None.
Proof.
  intros G a b Aa Ab ta tb tr x ns w e tok L Hx Hns Hna HA Hloc Hnb [evs HAb] Hans He.
  destruct (l_C50_connect G a b Aa Ab ta tb tr x ns w L Hx Hns Hna HA Hloc) as (w4 & n & err & HE & _ & _ & Herr & Hn & Ha & Hb).
  cbv zeta in Herr, Hb. fold tok in Herr, Hb. rewrite Hnb, HAb, Hans in Herr, Hb.
  assert (err = None) as ->.
  { rewrite Herr. cbn. destruct He as [[rb ->]| ->]; [reflexivity|]. destruct (is_reply e); reflexivity. }
  destruct n as [n|]; [|destruct Hn as [_ Hn]; destruct (Hn eq_refl); discriminate].
  exists w4, n. split; [exact HE|]. rewrite Ha, Hb, lookup_insert. split; [eauto|exact Hnb].
Qed.

(*@ex
(** The client-side connection 2 of exM and a server-side connection 1: "vip" refuses, "chat" is connected at the
    server already.  A second application replies from its connect callback. *)
Definition exA2 : app := <["odd" := {[OnNamespaceConnect := fun m => Some (EReply "welcome")]}]> exA.
Definition exG2 : cfg := {|
  g_client := g_client exG; g_namespaces := fun c => if Nat.eqb c 1 then lift exA2 else lift (<["odd" := ∅]> (<["vip" := ∅]> exA));
  g_connid := g_connid exG; g_uuid := g_uuid exG; g_ptr := g_ptr exG; g_known := g_known exG; g_exch := None; g_sync := false;
  g_firealways := false; g_onconnect := None; g_ondisconnect := None; g_do := g_do exG; g_user := g_user exG |}.
Definition exM2 : sys := play exG2 (handshake1 ++ handshake2 ++ member1) (init exG2).
Lemma exA2_text ns evs key f m e : exA2 !! ns = Some evs -> evs !! key = Some f -> f m = Some e ->
  exists text, err_text e = Ok text.
Proof.
  intros H1 H2 H3. unfold exA2 in H1. apply lookup_insert_Some in H1 as [[<- <-]|[_ H1]].
  - apply lookup_singleton_Some in H2 as [<- <-]. injection H3 as <-. cbn. eauto.
  - eapply exA_text; eassumption.
Qed.
Definition exA2c : app := <["odd" := ∅]> (<["vip" := ∅]> exA).
Lemma exA2c_text ns evs key f m e : exA2c !! ns = Some evs -> evs !! key = Some f -> f m = Some e ->
  exists text, err_text e = Ok text.
Proof.
  intros H1 H2 H3. unfold exA2c in H1.
  apply lookup_insert_Some in H1 as [[<- <-]|[_ H1]]; [rewrite lookup_empty in H2; discriminate|].
  apply lookup_insert_Some in H1 as [[<- <-]|[_ H1]]; [rewrite lookup_empty in H2; discriminate|].
  eapply exA_text; eassumption.
Qed.
Lemma ex_linked tok : linked exG2 2 1 exA2c exA2 (s_w exM2) tok.
Proof.
  split.
  - discriminate.
  - split; [reflexivity|intros; eapply exA2c_text; eassumption|vm_compute; reflexivity].
  - split; [reflexivity|intros; eapply exA2_text; eassumption|vm_compute; reflexivity].
  - split; [apply quietb_ok|apply idleb_ok]; vm_compute; reflexivity.
  - split; [apply quietb_ok|apply idleb_ok]; vm_compute; reflexivity.
  - intros n n' p. assert (c_procs (conn_of (s_w exM2) 2) = ∅) as -> by (vm_compute; reflexivity). rewrite lookup_empty. intros H; discriminate H.
  - split; [assert (c_waiting (conn_of (s_w exM2) 1) = ∅) as -> by (vm_compute; reflexivity); apply lookup_empty|].
    intros _. assert (s_waiting (w_srv (s_w exM2)) = ∅) as -> by (vm_compute; reflexivity). apply lookup_empty.
  - split; [assert (c_waiting (conn_of (s_w exM2) 2) = ∅) as -> by (vm_compute; reflexivity); apply lookup_empty|discriminate].
  - vm_compute. reflexivity.
  - discriminate.
Qed.
Example C50_connect_example :
  reachable exG2 exM2 /\ (forall tok, linked exG2 2 1 exA2c exA2 (s_w exM2) tok) /\ ctx_live (s_w exM2) None /\
  cs_rooms (view (s_w exM2) 2) = ∅ /\ is_Some (exA2c !! "chat") /\ is_Some (exA2c !! "odd") /\
  answer exA2c "chat" (hello "chat") = None /\ answer exA2c "odd" (hello "odd") = None /\
  (let m := arrived exG2 1 "$0" (hello "chat") in clear_verdict (answer exA2 "chat" m)) /\
  cs_rooms (view (s_w exM2) 1) !! "odd" = None /\ is_Some (exA2 !! "odd") /\
  (let m := arrived exG2 1 "$0" (hello "odd") in answer exA2 "odd" m = Some (EReply "welcome")) /\
  genWait (g_client exG2 2) (w_now (s_w exM2)) = "$0".
Proof.
  split; [apply play_reachable|]. split; [apply ex_linked|]. split; [exact I|]. split; [decide_eq|].
  split; [eexists; vm_compute; reflexivity|]. split; [eexists; vm_compute; reflexivity|]. do 2 (split; [vm_compute; reflexivity|]).
  split; [vm_compute; exact I|]. split; [decide_eq|]. split; [eexists; vm_compute; reflexivity|]. split; vm_compute; reflexivity.
Qed.
@*)

(*@prop C50. JoinRoom between two ends that are connected to the namespace.  The other end has joined exactly if
    it had or its callback agreed; the caller has exactly if the reply shows no error and then its own
    callback agrees; the call returns the error that it saw. @*)
Lemma l_C50_join : forall G a b Aa Ab ta tb tr x n room w rsa rsb,
  let ns := n_name n in
  let tok := genWait (g_client G a) (w_now w) in
  linked G a b Aa Ab w tok -> ctx_live w x -> safe_name ns -> safe_name room ->
  c_nss (conn_of w a) !! ns = Some n -> cs_rooms (view w a) !! ns = Some rsa -> room ∉ rsa ->
  cs_rooms (view w b) !! ns = Some rsb ->
  let v := if bool_decide (room ∈ rsb) then None else answer Ab ns (arrived G b tok (join_msg ns room)) in
  exists w4 r err, exchange G a b ta tb tr (JoinRoom G (Some n) x room) w w4 (r, err) /\ quiet G w4 a /\ quiet G w4 b /\
    err = match seen_error (g_known G) v with Some e => Some e | None => answer Aa ns (join_msg ns room) end /\
    (is_Some r <-> err = None) /\
    cs_rooms (view w4 a) = match err with None => <[ns := {[room]} ∪ rsa]> (cs_rooms (view w a)) | Some _ => cs_rooms (view w a) end /\
    cs_rooms (view w4 b) = match v with None => <[ns := {[room]} ∪ rsb]> (cs_rooms (view w b)) | Some _ => cs_rooms (view w b) end.
Proof.
  intros G a b Aa Ab ta tb tr x n room w rsa rsb ns tok L Hx Hns Hro En ERa Hni ERb v.
  destruct (lk_calm_a _ _ _ _ _ _ _ L) as [Qwa _].
  destruct (l_C22_join G a Aa ta x n room w (lk_a _ _ _ _ _ _ _ L) Qwa Hx (lk_inside _ _ _ _ _ _ _ L) En) as [[(rs & E & Hi) _]|[_ HC]].
  { unfold ns in ERa. rewrite E in ERa. injection ERa as ->. contradiction. }
  destruct (token_good (g_client G a) (w_now w)) as [Hg Hne]. fold tok in Hg, Hne.
  destruct (round G a b Aa Ab ta tb tr x (Some n) _ w _ _ _ (fun s r => m_err r = seen_error (g_known G) v /\
      cs_rooms s = match v with None => <[ns := {[room]} ∪ rsb]> (cs_rooms (view w b)) | Some _ => cs_rooms (view w b) end)
      L Hx (join_request ns room Hns Hro) eq_refl HC)
    as (w4 & [r err] & reply & HE & Qa & Qb & [Hr Hb] & HP).
  - intros w1 typ by_ C1 V1 U1 Erec. rewrite <- Erec in U1. change (n_name n) with ns in Erec.
    destruct (l_C17_join_request G b Ab tb w1 typ by_ rsb (lk_b _ _ _ _ _ _ _ L) C1 U1) as (w2 & g & E2 & C2 & O2 & Hs & Hans & Hm & _);
      [rewrite Erec; reflexivity|rewrite Erec; exact Hne|rewrite Erec; reflexivity|rewrite Erec, V1; exact ERb|].
    rewrite Erec in Hans, Hm. rewrite V1 in *. fold ns in Hans, Hm.
    change (m_namespace (arrived G b tok (join_msg ns room))) with ns in *. change (m_wait (arrived G b tok (join_msg ns room))) with tok in *.
    change (m_room (arrived G b tok (join_msg ns room))) with room in *.
    exists w2, None, g. split; [exact E2|]. split; [exact C2|]. split; [exact O2|]. split; [exact Hs|]. cbv zeta.
    destruct (answers_received G a Aa g tok _ (lk_a _ _ _ _ _ _ _ L) (Hans Hg)) as (H1 & H2 & H3 & H4 & _).
    do 4 (split; [assumption|]). exact Hm.
  - exists w4, r, err. split; [exact HE|]. split; [exact Qa|]. split; [exact Qb|].
    cbn [verdict] in HP. rewrite Hr in HP. fold ns in HP. destruct (seen_error (g_known G) v) as [e|].
    + destruct HP as [[= -> ->] ->]. split; [reflexivity|]. split; [split; [intros [? ?]; discriminate|discriminate]|].
      split; [reflexivity|exact Hb].
    + unfold joined_here in HP. destruct (answer Aa ns (join_msg ns room)) as [e|]; destruct HP as [[= -> ->] ->].
      * split; [reflexivity|]. split; [split; [intros [? ?]; discriminate|discriminate]|].
        split; [cbn; rewrite fire_calls; reflexivity|exact Hb].
      * split; [reflexivity|]. split; [split; eauto|]. split; [|exact Hb]. cbn [fst]. rewrite !fire_calls. clear - ERa. revert ERa. generalize (view w a). intros sa ERa. cbn.
        apply map_eq. intros i. destruct (decide (i = ns)) as [->|Hi]; [rewrite lookup_alter, lookup_insert, ERa; reflexivity|].
        rewrite lookup_alter_ne, lookup_insert_ne by auto. reflexivity.
Qed.

(*@prop C50. If the verdict is clear and the caller's own join callback agrees, both ends join or neither does. @*)
Lemma l_C50_join_agree : forall G a b Aa Ab ta tb tr x n room w rsa rsb,
  let ns := n_name n in
  let tok := genWait (g_client G a) (w_now w) in
  linked G a b Aa Ab w tok -> ctx_live w x -> safe_name ns -> safe_name room ->
  c_nss (conn_of w a) !! ns = Some n -> cs_rooms (view w a) !! ns = Some rsa -> room ∉ rsa ->
  cs_rooms (view w b) !! ns = Some rsb ->
  clear_verdict (answer Ab ns (arrived G b tok (join_msg ns room))) -> answer Aa ns (join_msg ns room) = None ->
  exists w4 r err, exchange G a b ta tb tr (JoinRoom G (Some n) x room) w w4 (r, err) /\
    (err = None /\ is_Some r /\ cs_rooms (view w4 a) = <[ns := {[room]} ∪ rsa]> (cs_rooms (view w a)) /\
       cs_rooms (view w4 b) = <[ns := {[room]} ∪ rsb]> (cs_rooms (view w b)) \/
     is_Some err /\ r = None /\ cs_rooms (view w4 a) = cs_rooms (view w a) /\ cs_rooms (view w4 b) = cs_rooms (view w b)).
Proof.
  intros G a b Aa Ab ta tb tr x n room w rsa rsb ns tok L Hx Hns Hro En ERa Hni ERb Hcl Hloc.
  destruct (l_C50_join G a b Aa Ab ta tb tr x n room w rsa rsb L Hx Hns Hro En ERa Hni ERb) as (w4 & r & err & HE & _ & _ & Herr & Hn & Ha & Hb).
  exists w4, r, err. split; [exact HE|]. cbv zeta in Herr, Hb. fold tok ns in Herr, Hb, Ha. rewrite Hloc in Herr.
  destruct (bool_decide (room ∈ rsb)).
  - left. cbn in Herr. subst err. split; [reflexivity|]. split; [apply Hn; reflexivity|]. auto.
  - pose proof (clear_seen (g_known G) _ Hcl) as Hs. destruct (answer Ab ns (arrived G b tok (join_msg ns room))) as [e|].
    + right. destruct (seen_error (g_known G) (Some e)) as [e'|]; [|destruct Hs as [Hs _]; specialize (Hs eq_refl); discriminate].
      subst err. split; [eauto|]. split; [destruct r; [|reflexivity]; assert (Some e' = None) by (apply Hn; eauto); discriminate|]. auto.
    + left. cbn in Herr. subst err. split; [reflexivity|]. split; [apply Hn; reflexivity|]. auto.
Qed.

(*@prop C50 is violated for JoinRoom without that: the caller's own callback is asked only after the other end
    has joined; if it refuses, the call fails, the caller has not joined, and the other end has. @*)
Lemma l_C50_join_agree_refuted : forall G a b Aa Ab ta tb tr x n room w rsa rsb e,
  let ns := n_name n in
  let tok := genWait (g_client G a) (w_now w) in
  linked G a b Aa Ab w tok -> ctx_live w x -> safe_name ns -> safe_name room ->
  c_nss (conn_of w a) !! ns = Some n -> cs_rooms (view w a) !! ns = Some rsa -> room ∉ rsa ->
  cs_rooms (view w b) !! ns = Some rsb ->
  answer Ab ns (arrived G b tok (join_msg ns room)) = None -> answer Aa ns (join_msg ns room) = Some e ->
  exists w4, exchange G a b ta tb tr (JoinRoom G (Some n) x room) w w4 (None, Some e) /\
    cs_rooms (view w4 a) = cs_rooms (view w a) /\ cs_rooms (view w4 b) = <[ns := {[room]} ∪ rsb]> (cs_rooms (view w b)).
Proof.
  intros G a b Aa Ab ta tb tr x n room w rsa rsb e ns tok L Hx Hns Hro En ERa Hni ERb Hv Hloc.
  destruct (l_C50_join G a b Aa Ab ta tb tr x n room w rsa rsb L Hx Hns Hro En ERa Hni ERb) as (w4 & r & err & HE & _ & _ & Herr & Hn & Ha & Hb).
  cbv zeta in Herr, Hb. fold tok ns in Herr, Hb, Ha. rewrite Hv, Hloc in *.
  assert (err = Some e) as -> by (destruct (bool_decide (room ∈ rsb)); exact Herr).
  assert (r = None) as -> by (destruct r; [|reflexivity]; assert (Some e = None) by (apply Hn; eauto); discriminate).
  exists w4. split; [exact HE|]. split; [exact Ha|]. destruct (bool_decide (room ∈ rsb)); exact Hb.
Qed.

(*@prop C50. Leave of a room between two ends that are connected to the namespace (a client always agrees to
    leave). @*)
Lemma l_C50_leave : forall G a b Aa Ab ta tb tr x n room w rsa rsb,
  let ns := n_name n in
  let tok := genWait (g_client G a) (w_now w) in
  linked G a b Aa Ab w tok -> ctx_live w x -> safe_name ns -> safe_name room ->
  c_nss (conn_of w a) !! ns = Some n -> cs_rooms (view w a) !! ns = Some rsa -> room ∈ rsa ->
  cs_rooms (view w b) !! ns = Some rsb ->
  let v := if bool_decide (room ∈ rsb)
           then if g_client G b then None else answer Ab ns (arrived G b tok (leave_req ns room)) else None in
  exists w4 err, exchange G a b ta tb tr (RoomLeave G n room x) w w4 err /\ quiet G w4 a /\ quiet G w4 b /\
    err = match seen_error (g_known G) v with Some e => Some e | None => answer Aa ns (leave_req ns room) end /\
    cs_rooms (view w4 a) = match err with None => <[ns := rsa ∖ {[room]}]> (cs_rooms (view w a)) | Some _ => cs_rooms (view w a) end /\
    cs_rooms (view w4 b) = match v with None => <[ns := rsb ∖ {[room]}]> (cs_rooms (view w b)) | Some _ => cs_rooms (view w b) end.
Proof.
  intros G a b Aa Ab ta tb tr x n room w rsa rsb ns tok L Hx Hns Hro En ERa Hni ERb v.
  destruct (lk_calm_a _ _ _ _ _ _ _ L) as [Qwa _].
  destruct (l_C22_leave G a Aa ta x n room w (lk_a _ _ _ _ _ _ _ L) Qwa Hx (lk_inside _ _ _ _ _ _ _ L) En) as [[(rs & E & Hi) _]|[_ HC]].
  { unfold ns in ERa. rewrite E in ERa. injection ERa as ->. contradiction. }
  destruct (token_good (g_client G a) (w_now w)) as [Hg Hne]. fold tok in Hg, Hne.
  destruct (round G a b Aa Ab ta tb tr x (Some n) _ w _ _ _ (fun s r => m_err r = seen_error (g_known G) v /\
      cs_rooms s = match v with None => <[ns := rsb ∖ {[room]}]> (cs_rooms (view w b)) | Some _ => cs_rooms (view w b) end)
      L Hx (leave_request ns room Hns Hro) eq_refl HC)
    as (w4 & err & reply & HE & Qa & Qb & [Hr Hb] & HP).
  - intros w1 typ by_ C1 V1 U1 Erec. rewrite <- Erec in U1. change (n_name n) with ns in Erec.
    destruct (l_C17_leave_request G b Ab tb w1 typ by_ rsb (lk_b _ _ _ _ _ _ _ L) C1 U1) as (w2 & g & E2 & C2 & O2 & Hs & Hans & Hm & _);
      [rewrite Erec; reflexivity|rewrite Erec; exact Hne|rewrite Erec; reflexivity|rewrite Erec, V1; exact ERb|].
    rewrite Erec in Hans, Hm. rewrite V1 in *. fold ns in Hans, Hm.
    change (m_namespace (arrived G b tok (leave_req ns room))) with ns in *. change (m_wait (arrived G b tok (leave_req ns room))) with tok in *.
    change (m_room (arrived G b tok (leave_req ns room))) with room in *.
    exists w2, None, g. split; [exact E2|]. split; [exact C2|]. split; [exact O2|]. split; [exact Hs|]. cbv zeta.
    destruct (answers_received G a Aa g tok _ (lk_a _ _ _ _ _ _ _ L) (Hans Hg)) as (H1 & H2 & H3 & H4 & _).
    do 4 (split; [assumption|]). exact Hm.
  - exists w4, err. split; [exact HE|]. split; [exact Qa|]. split; [exact Qb|].
    cbn [verdict] in HP. rewrite Hr in HP. fold ns in HP. destruct (seen_error (g_known G) v) as [e|].
    + destruct HP as [-> ->]. split; [reflexivity|]. split; [reflexivity|exact Hb].
    + unfold left_here in HP. destruct (answer Aa ns (leave_req ns room)) as [e|]; destruct HP as [-> ->].
      * split; [reflexivity|]. split; [cbn; rewrite fire_calls; reflexivity|exact Hb].
      * split; [reflexivity|]. split; [|exact Hb]. cbn [fst snd]. rewrite !fire_calls. clear - ERa. revert ERa. generalize (view w a). intros sa ERa. cbn.
        apply map_eq. intros i. destruct (decide (i = ns)) as [->|Hi]; [rewrite lookup_alter, lookup_insert, ERa; reflexivity|].
        rewrite lookup_alter_ne, lookup_insert_ne by auto. reflexivity.
Qed.

(*@prop C50. Disconnect between two ends. @*)
Lemma l_C50_disconnect : forall G a b Aa Ab ta tb tr x n w,
  let ns := n_name n in
  let tok := genWait (g_client G a) (w_now w) in
  linked G a b Aa Ab w tok -> ctx_live w x -> safe_name ns ->
  c_nss (conn_of w a) !! ns = Some n ->
  let v := match cs_rooms (view w b) !! ns with
           | None => None
           | Some _ => if g_client G b then None else answer Ab ns (arrived G b tok (goodbye ns))
           end in
  exists w4 err, exchange G a b ta tb tr (Disconnect G (Some n) x) w w4 err /\ quiet G w4 a /\ quiet G w4 b /\
    err = seen_error (g_known G) v /\
    cs_rooms (view w4 a) = match err with None => delete ns (cs_rooms (view w a)) | Some _ => cs_rooms (view w a) end /\
    cs_rooms (view w4 b) = match v with None => delete ns (cs_rooms (view w b)) | Some _ => cs_rooms (view w b) end.
Proof.
  intros G a b Aa Ab ta tb tr x n w ns tok L Hx Hns En v.
  destruct (lk_calm_a _ _ _ _ _ _ _ L) as [Qwa _].
  pose proof (l_C22_disconnect G a Aa ta x n w (lk_a _ _ _ _ _ _ _ L) Qwa Hx (lk_inside _ _ _ _ _ _ _ L) En) as HC.
  destruct (token_good (g_client G a) (w_now w)) as [Hg Hne]. fold tok in Hg, Hne.
  destruct (round G a b Aa Ab ta tb tr x (Some n) _ w _ _ _ (fun s r => m_err r = seen_error (g_known G) v /\
      cs_rooms s = match v with None => delete ns (cs_rooms (view w b)) | Some _ => cs_rooms (view w b) end)
      L Hx (goodbye_request ns Hns) eq_refl HC)
    as (w4 & err & reply & HE & Qa & Qb & [Hr Hb] & HP).
  - intros w1 typ by_ C1 V1 U1 Erec. rewrite <- Erec in U1. change (n_name n) with ns in Erec.
    destruct (l_C16_disconnect_request G b Ab tb w1 typ by_ (lk_b _ _ _ _ _ _ _ L) C1 U1) as (w2 & g & order & E2 & C2 & O2 & Hs & Hans & Hm & _);
      [rewrite Erec; reflexivity|rewrite Erec; exact Hne|rewrite Erec; reflexivity|].
    rewrite Erec in Hans, Hm. rewrite V1 in *. fold ns in Hans, Hm.
    change (m_namespace (arrived G b tok (goodbye ns))) with ns in *. change (m_wait (arrived G b tok (goodbye ns))) with tok in *.
    exists w2, None, g. split; [exact E2|]. split; [exact C2|]. split; [exact O2|]. split; [exact Hs|]. cbv zeta.
    destruct (answers_received G a Aa g tok _ (lk_a _ _ _ _ _ _ _ L) (Hans Hg)) as (H1 & H2 & H3 & H4 & _).
    do 4 (split; [assumption|]). exact Hm.
  - exists w4, err. split; [exact HE|]. split; [exact Qa|]. split; [exact Qb|].
    cbn [verdict] in HP. rewrite Hr in HP. destruct HP as [-> HP]. split; [reflexivity|]. split; [|exact Hb].
    destruct (seen_error (g_known G) v) as [e|].
    + rewrite HP. reflexivity.
    + destruct HP as (order & rs & _ & _ & _ & ->). reflexivity.
Qed.

(*@prop C49. An Ask in a connected namespace whose remote callback (for an event of the application) returns [e]:
    a Reply gives exactly its bytes and no error; any other error gives the error that its text resolves to. @*)
Lemma l_C49_ask : forall G a b Aa Ab ta tb tr x m w rs e,
  let ns := m_namespace m in
  let tok := genWait (g_client G a) (w_now w) in
  linked G a b Aa Ab w tok -> ctx_live w x -> request m ->
  sendable (r_self (role_of G a w)) (cs_rooms (view w a)) m ->
  ~ In (m_event m) [OnNamespaceConnect; OnNamespaceDisconnect; OnRoomJoin; OnRoomLeave] ->
  cs_rooms (view w b) !! ns = Some rs -> (m_room m = "" \/ m_room m ∈ rs) ->
  answer Ab ns (arrived G b tok m) = Some e ->
  exists w4 reply err, exchange G a b ta tb tr (Ask G a x m) w w4 (reply, err) /\ quiet G w4 a /\ quiet G w4 b /\
    err = seen_error (g_known G) (Some e) /\ m_body reply = seen_body (Some e) /\ m_wait reply = tok /\
    cs_fired (view w4 b) = calls Ab ns (arrived G b tok m) ++ cs_fired (view w b) /\
    cs_rooms (view w4 a) = cs_rooms (view w a) /\ cs_rooms (view w4 b) = cs_rooms (view w b).
Proof.
  intros G a b Aa Ab ta tb tr x m w rs e ns tok L Hx Hrq Hsend Hev ER Hroom Hans.
  destruct (lk_calm_a _ _ _ _ _ _ _ L) as [Qwa _].
  assert (HC : asks G a ta x None (Ask G a x m) w m (view w a) (fun r s2 b s3 => snd b = verdict r /\ s3 = s2 /\
    match r with inr reply => fst b = reply | inl _ => True end)).
  { apply (Ask_asks G a Aa (lk_a _ _ _ _ _ _ _ L)); [exact Qwa|apply (lk_inside _ _ _ _ _ _ _ L)|exact Hx| |apply may_send_sendable, Hsend].
    red. rewrite (rq_err _ Hrq). exact I. }
  destruct (token_good (g_client G a) (w_now w)) as [Hg Hne]. fold tok in Hg, Hne.
  destruct (round G a b Aa Ab ta tb tr x None _ w _ _ _ (fun s r => m_err r = seen_error (g_known G) (Some e) /\ m_body r = seen_body (Some e) /\
      m_wait r = tok /\ cs_fired s = calls Ab ns (arrived G b tok m) ++ cs_fired (view w b) /\ cs_rooms s = cs_rooms (view w b))
      L Hx Hrq eq_refl HC)
    as (w4 & [reply err] & reply' & HE & Qa & Qb & (Hr & Hbo & Hwt & Hf & Hb) & HP).
  - intros w1 typ by_ C1 V1 U1 Erec. set (m' := arrived G b tok m) in *.
    destruct (handleMessage_runs G b Ab (lk_b _ _ _ _ _ _ _ L) tb w1 m' C1 U1) as (order & w2 & _ & E2 & V2 & C2 & O2).
    unfold handle in E2, V2. change (m_isInvalid m') with false in E2, V2. change (m_event m') with (m_event m) in E2, V2.
    change (m_namespace m') with ns in E2, V2.
    assert (Hx1 : String.eqb (m_event m) OnNamespaceConnect = false) by (apply String.eqb_neq; intros H; apply Hev; cbn; auto).
    assert (Hx2 : String.eqb (m_event m) OnNamespaceDisconnect = false) by (apply String.eqb_neq; intros H; apply Hev; cbn; auto).
    assert (Hx3 : String.eqb (m_event m) OnRoomJoin = false) by (apply String.eqb_neq; intros H; apply Hev; cbn; auto).
    assert (Hx4 : String.eqb (m_event m) OnRoomLeave = false) by (apply String.eqb_neq; intros H; apply Hev; cbn; auto).
    rewrite Hx1, Hx2, Hx3, Hx4, V1, ER in E2, V2. cbv zeta in E2, V2.
    assert (Hl : set_isLocal false m' = m') by (unfold m'; rewrite arrived_eq; reflexivity).
    rewrite Hl, Hans in E2, V2. cbn [fst snd] in E2, V2.
    assert (Hmay : may_send (role_of G b w1) (cs_rooms (fire Ab ns m' (view w b))) (set_err (Some e) m') = true).
    { apply may_send_sendable. split; [|left; reflexivity]. right; right. exists rs. split; [rewrite fire_calls; exact ER|].
      change (m_room (set_err (Some e) m')) with (m_room m). destruct Hroom; auto. }
    unfold err_reply, try_send in V2. rewrite Hmay, fire_calls in V2.
    exists w2, (Some e), (wire_of (set_err (Some e) m')). split.
    { unfold HandlePayload, deserialize. fold (received G b typ by_). rewrite Erec. exact E2. }
    split; [exact C2|]. split; [exact O2|]. split; [rewrite V2; reflexivity|]. cbv zeta.
    destruct (answers_received G a Aa _ tok _ (lk_a _ _ _ _ _ _ _ L) (err_answers m' e Hg Hne eq_refl
       ltac:(eapply answer_text; [apply (app_text _ _ _ (lk_b _ _ _ _ _ _ _ L))|exact Hans]))) as (H1 & H2 & H3 & H4 & H5).
    do 6 (split; [assumption|]). rewrite V2. cbn. auto.
  - exists w4, reply, err. split; [exact HE|]. split; [exact Qa|]. split; [exact Qb|].
    cbn in HP. destruct HP as (-> & -> & ->). split; [exact Hr|]. split; [exact Hbo|]. split; [exact Hwt|]. split; [exact Hf|]. split; [reflexivity|exact Hb].
Qed.

(*@ex
(** "echo" replies, "fail" returns the known error EBadRoom. *)
Definition member2 : list cmd :=
  [Act1 (Env (EDeliver 2 TextMessage "1;chat;;_OnNamespaceConnect;0;0;")); Go 5].
Definition exM3 : sys := play exG2 (handshake1 ++ handshake2 ++ member1 ++ member2) (init exG2).
Lemma ex_linked3 tok : linked exG2 2 1 exA2c exA2 (s_w exM3) tok.
Proof.
  split.
  - discriminate.
  - split; [reflexivity|intros; eapply exA2c_text; eassumption|vm_compute; reflexivity].
  - split; [reflexivity|intros; eapply exA2_text; eassumption|vm_compute; reflexivity].
  - split; [apply quietb_ok|apply idleb_ok]; vm_compute; reflexivity.
  - split; [apply quietb_ok|apply idleb_ok]; vm_compute; reflexivity.
  - intros n n' p. assert (c_procs (conn_of (s_w exM3) 2) = ∅) as -> by (vm_compute; reflexivity). rewrite lookup_empty. intros H; discriminate H.
  - split; [assert (c_waiting (conn_of (s_w exM3) 1) = ∅) as -> by (vm_compute; reflexivity); apply lookup_empty|].
    intros _. assert (s_waiting (w_srv (s_w exM3)) = ∅) as -> by (vm_compute; reflexivity). apply lookup_empty.
  - split; [assert (c_waiting (conn_of (s_w exM3) 2) = ∅) as -> by (vm_compute; reflexivity); apply lookup_empty|discriminate].
  - vm_compute. reflexivity.
  - discriminate.
Qed.
Example C49_example :
  let w := s_w exM3 in let m := set_body "hi;there" (set_event "echo" (set_namespace "chat" no_message)) in
  (forall tok, linked exG2 2 1 exA2c exA2 w tok) /\ ctx_live w None /\
  sendable (r_self (role_of exG2 2 w)) (cs_rooms (view w 2)) m /\
  cs_rooms (view w 1) !! "chat" = Some {["open"; "jail"]} /\
  answer exA2 "chat" (arrived exG2 1 "$0" m) = Some (EReply "hi;there") /\
  answer exA2 "chat" (arrived exG2 1 "$0" (set_event "fail" m)) = Some EBadRoom /\
  seen_body (Some (EReply "hi;there")) = "hi;there" /\ seen_error (g_known exG2) (Some EBadRoom) = Some EBadRoom.
Proof.
  cbv zeta. split; [apply ex_linked3|]. split; [exact I|]. split.
  { split; [|left; reflexivity]. right; right. exists ∅. split; [decide_eq|left; reflexivity]. }
  split; [decide_eq|]. split; [vm_compute; reflexivity|]. split; [vm_compute; reflexivity|]. split; vm_compute; reflexivity.
Qed.
(** The hypotheses of the theorems about rooms and disconnecting. *)
Example C50_rooms_example :
  let w := s_w exM3 in
  exists n, c_nss (conn_of w 2) !! "chat" = Some n /\ n_name n = "chat" /\ cs_rooms (view w 2) !! "chat" = Some ∅ /\
  cs_rooms (view w 1) !! "chat" = Some {["open"; "jail"]} /\
  clear_verdict (answer exA2 "chat" (arrived exG2 1 "$0" (join_msg "chat" "closed"))) /\
  answer exA2c "chat" (join_msg "chat" "lobby") = None.
Proof.
  cbv zeta. eexists. split; [vm_compute; reflexivity|]. split; [reflexivity|]. split; [decide_eq|]. split; [decide_eq|].
  split; [|vm_compute; reflexivity]. vm_compute. split; [reflexivity|]. eexists. split; [reflexivity|discriminate].
Qed.
@*)

(*@prop C49. If the remote callback (or the lack of one) returns no error, no reply is sent: the Ask keeps waiting. @*)
Lemma l_C49_no_reply : forall G b Ab tb w typ by_,
  let m := received G b typ by_ in
  setting G b Ab -> calm G w b -> unasked G w b m ->
  ~ In (m_event m) [OnNamespaceConnect; OnNamespaceDisconnect; OnRoomJoin; OnRoomLeave] ->
  answer Ab (m_namespace m) (set_isLocal false m) = None ->
  exists w' err, exec tb (HandlePayload G b typ by_) w = XDone w' err /\ cs_sent (view w' b) = cs_sent (view w b).
Proof.
  intros G b Ab tb w typ by_ m Sb C U Hev Hans.
  destruct (handleMessage_runs G b Ab Sb tb w m C U) as (order & w' & _ & E & V & _ & _).
  exists w'. eexists. split; [exact E|]. rewrite V. unfold handle. destruct (m_isInvalid m); [reflexivity|].
  assert (Hx1 : String.eqb (m_event m) OnNamespaceConnect = false) by (apply String.eqb_neq; intros H; apply Hev; cbn; auto).
  assert (Hx2 : String.eqb (m_event m) OnNamespaceDisconnect = false) by (apply String.eqb_neq; intros H; apply Hev; cbn; auto).
  assert (Hx3 : String.eqb (m_event m) OnRoomJoin = false) by (apply String.eqb_neq; intros H; apply Hev; cbn; auto).
  assert (Hx4 : String.eqb (m_event m) OnRoomLeave = false) by (apply String.eqb_neq; intros H; apply Hev; cbn; auto).
  rewrite Hx1, Hx2, Hx3, Hx4. destruct (cs_rooms (view w b) !! m_namespace m); [|reflexivity].
  cbv zeta. rewrite Hans. cbn [fst]. rewrite fire_calls. reflexivity.
Qed.

(*@ex
Example C49_no_reply_example :
  let m := received exG 1 TextMessage "$9;chat;;news;0;0;hello" in
  setting exG 1 exA /\ calm exG (s_w exM) 1 /\ unasked exG (s_w exM) 1 m /\ m_event m = "news" /\
  answer exA (m_namespace m) (set_isLocal false m) = None.
Proof.
  cbv zeta. split; [apply ex_setting|]. split; [apply ex_calm; auto|]. split; [apply ex_unasked; auto|].
  split; vm_compute; reflexivity.
Qed.
@*)
