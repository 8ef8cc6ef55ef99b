(** * CastProofs.v : C35, C36, who receives a broadcast. *)
From Coq Require Import ZArith Ascii.
From stdpp Require Import gmap strings list relations.
From RecordUpdate Require Import RecordUpdate.
From Verif Require Import Go Errors Message World Lang Code Sem ExecProofs Spec_Conn Spec_View CodecProofs SeqProofs ConnProofs LocalProofs Examples Spec_Cast.

(*@file Prop_Cast.v
From Coq Require Import ZArith.
From stdpp Require Import gmap strings list relations.
From RecordUpdate Require Import RecordUpdate.
From Verif Require Import Go Errors Message World Lang Code Sem Spec_Conn Spec_View Examples Spec_Cast.
@*)

#[local] Arguments Write : simpl never.

Definition meantb (id : string) (m : message) : bool :=
  negb (String.eqb (m_from m) id) && (is_empty (m_to m) || String.eqb (m_to m) id).
Lemma meantb_iff id m : meantb id m = true <-> meant id m.
Proof.
  unfold meantb, meant. rewrite andb_true_iff, orb_true_iff, negb_true_iff, String.eqb_neq, String.eqb_eq.
  assert (is_empty (m_to m) = true <-> m_to m = "") as -> by (destruct (m_to m); cbn; split; congruence). tauto.
Qed.
Lemma meantb_false id m : meantb id m = false <-> ~ meant id m.
Proof. rewrite <- meantb_iff. destruct (meantb id m); split; congruence. Qed.

(** What one connection is sent of a batch. *)
Fixpoint cast (R : role) (id : string) (msgs : list message) (s : cstate) : cstate :=
  match msgs with
  | [] => s
  | m :: rest => if meantb id m then cast R id rest (try_send R m s) else s
  end.

Lemma role_only G c w w' : only c w w' -> role_of G c w' = role_of G c w.
Proof. intros O. unfold role_of. rewrite (y_id _ _ _ O). reflexivity. Qed.

Lemma publish_runs G c t msgs : forall w s nm, at_ G c w s nm -> Forall speakable msgs ->
  runs G c t (publishMessages G c msgs) w true (cast (role_of G c w) (c_id (conn_of w c)) msgs s) nm.
Proof.
  induction msgs as [|m msgs IH]; intros w s nm H Ht; [apply runs_ret, H|].
  apply Forall_cons in Ht as [Hm Hms]. cbn [publishMessages cast].
  destruct (Write_runs G c t w s nm m H Hm) as (w1 & E1 & H1 & O1).
  specialize (IH w1 _ _ H1 Hms). rewrite (role_only _ _ _ _ O1), (y_id _ _ _ O1) in IH.
  destruct IH as (w2 & E2 & H2 & O2).
  unfold meantb. destruct (String.eqb (m_from m) (c_id (conn_of w c))) eqn:Ef.
  { exists w. split; [cbn; rewrite Ef; reflexivity|]. split; [exact H|apply only_refl]. }
  destruct (is_empty (m_to m) || String.eqb (m_to m) (c_id (conn_of w c))) eqn:Et; cbn [negb andb].
  2:{ exists w. split; [cbn; rewrite Ef|split; [exact H|apply only_refl]].
      apply orb_false_iff in Et as [-> ->]. reflexivity. }
  exists w2. split; [|split; [exact H2|eapply only_trans; eassumption]].
  rewrite (exec_opb t (OGetId c) _ _ w (c_id (conn_of w c))) by reflexivity. cbv beta. rewrite Ef.
  assert (negb (is_empty (m_to m)) && negb (String.eqb (m_to m) (c_id (conn_of w c))) = false) as ->.
  { apply orb_true_iff in Et as [-> | ->]; [reflexivity|]. cbn. destruct (is_empty _); reflexivity. }
  rewrite (exec_bind_done _ _ _ _ _ _ E1). destruct (may_send _ _ _); [exact E2|].
  rewrite (exec_opb t (OIsClosed c) _ _ w1 false); [exact E2|]. cbn [ostep].
  destruct (a_quiet _ _ _ _ _ H1) as [_ Q]. rewrite (q_open_ _ _ _ _ _ Q). reflexivity.
Qed.

Lemma quiet_at G w c : quiet G w c -> at_ G c w (view w c) (c_nss (conn_of w c)).
Proof. intros Q. split; [exact Q|reflexivity|reflexivity]. Qed.

Lemma cast_meant R id msgs s : Forall (meant id) msgs ->
  cast R id msgs s = s <| cs_sent ::= fun l => l ++ map wire_of (List.filter (may_send R (cs_rooms s)) msgs) |>.
Proof.
  intros H. revert s. induction H as [|m msgs Hm _ IH]; intros s.
  { destruct s; unfold set; cbn. rewrite app_nil_r. reflexivity. }
  cbn [cast]. apply meantb_iff in Hm. rewrite Hm, IH. unfold try_send, push. cbn [List.filter].
  destruct (may_send R (cs_rooms s) m) eqn:E; [|reflexivity].
  destruct s; unfold set; cbn in *. rewrite <- app_assoc. reflexivity.
Qed.
Lemma cast_app R id before after s : Forall (meant id) before ->
  cast R id (before ++ after) s = cast R id after (cast R id before s).
Proof.
  intros H. revert s. induction H as [|m msgs Hm _ IH]; intros s; [reflexivity|].
  apply meantb_iff in Hm. rewrite <- app_comm_cons. cbn [cast]. rewrite Hm. apply IH.
Qed.

(*@prop C35. One message: an open connection whose handshake is over is sent exactly one frame if the message is
    meant for its ID and passes the rules of Write; otherwise nothing happens.  Nobody else is touched. @*)
Lemma l_C35_one_partial : forall G c t w m,
  quiet G w c -> speakable m ->
  let self := if g_client G c then c_id (conn_of w c) else serverConnID G c in
  let gets := meant (c_id (conn_of w c)) m /\ sendable self (cs_rooms (view w c)) m in
  exists w', exec t (publishMessages G c [m]) w = XDone w' true /\ only c w w' /\ quiet G w' c /\
    (gets -> view w' c = push (wire_of m) (view w c)) /\ (~ gets -> view w' c = view w c).
Proof.
  intros G c t w m Q Hm self gets.
  destruct (publish_runs G c t [m] w _ _ (quiet_at _ _ _ Q) (Forall_cons_2 _ _ _ Hm (Forall_nil_2 _))) as (w' & E & H' & O').
  exists w'. split; [exact E|]. split; [exact O'|]. split; [apply H'|].
  rewrite (a_view _ _ _ _ _ H'). cbn [cast]. unfold gets, self.
  destruct (meantb (c_id (conn_of w c)) m) eqn:Em.
  - apply meantb_iff in Em. unfold try_send. destruct (may_send (role_of G c w) _ m) eqn:Es.
    + apply may_send_sendable in Es. cbn [role_of r_self] in Es. tauto.
    + split; [|reflexivity]. intros [_ H]. apply (may_send_sendable (role_of G c w)) in H. congruence.
  - apply meantb_false in Em. split; [|reflexivity]. intros [H _]. contradiction.
Qed.

(*@prop C35, the exact law for a batch: the connection is sent, in order, the messages that pass the rules of Write
    among those before the first one that is not meant for it.  Nothing behind that one is sent. @*)
Lemma l_C35_batch_partial : forall G c t w before after,
  quiet G w c -> Forall speakable (before ++ after) ->
  Forall (meant (c_id (conn_of w c))) before ->
  (after = [] \/ exists m rest, after = m :: rest /\ ~ meant (c_id (conn_of w c)) m) ->
  exists w', exec t (publishMessages G c (before ++ after)) w = XDone w' true /\ only c w w' /\ quiet G w' c /\
    view w' c = view w c <| cs_sent ::= fun l =>
      l ++ map wire_of (List.filter (may_send (role_of G c w) (cs_rooms (view w c))) before) |>.
Proof.
  intros G c t w before after Q Ht Hb Ha.
  destruct (publish_runs G c t _ w _ _ (quiet_at _ _ _ Q) Ht) as (w' & E & H' & O').
  exists w'. split; [exact E|]. split; [exact O'|]. split; [apply H'|].
  rewrite (a_view _ _ _ _ _ H'), cast_app by exact Hb. rewrite (cast_meant _ _ before) by exact Hb.
  destruct Ha as [->|(m & rest & -> & Hm)]; [reflexivity|]. apply meantb_false in Hm. cbn [cast]. rewrite Hm. reflexivity.
Qed.

(*@prop C35, violated for several messages: a message that is not meant for a connection takes every later message
    of the same call away from it, also those it would be sent if they were broadcast alone. @*)
Lemma l_C35_refuted : forall G c t w m1 m2,
  quiet G w c -> speakable m1 -> speakable m2 ->
  let self := if g_client G c then c_id (conn_of w c) else serverConnID G c in
  ~ meant (c_id (conn_of w c)) m1 ->
  meant (c_id (conn_of w c)) m2 -> sendable self (cs_rooms (view w c)) m2 ->
  (exists w', exec t (publishMessages G c [m2]) w = XDone w' true /\ view w' c = push (wire_of m2) (view w c)) /\
  (exists w', exec t (publishMessages G c [m1; m2]) w = XDone w' true /\ view w' c = view w c).
Proof.
  intros G c t w m1 m2 Q H1 H2 self Hn Hm Hs. split.
  - destruct (l_C35_one_partial G c t w m2 Q H2) as (w' & E & _ & _ & H & _). exists w'. split; [exact E|]. apply H. split; assumption.
  - destruct (l_C35_batch_partial G c t w [] [m1; m2] Q) as (w' & E & _ & _ & H); [repeat constructor; assumption|constructor|eauto|].
    exists w'. split; [exact E|]. rewrite H. destruct (view w c); unfold set; cbn. rewrite app_nil_r. reflexivity.
Qed.

(*@prop C35. A connection whose ID is empty is sent no broadcast at all that does not name a sender. @*)
Lemma l_C35_empty_id_refuted : forall G c t w m msgs,
  quiet G w c -> Forall speakable (m :: msgs) -> c_id (conn_of w c) = "" -> m_from m = "" ->
  exists w', exec t (publishMessages G c (m :: msgs)) w = XDone w' true /\ view w' c = view w c.
Proof.
  intros G c t w m msgs Q Ht Hid Hf.
  destruct (l_C35_batch_partial G c t w [] (m :: msgs) Q) as (w' & E & _ & _ & H); [exact Ht|constructor| |].
  - right. exists m, msgs. split; [reflexivity|]. rewrite Hid. intros [H _]. congruence.
  - exists w'. split; [exact E|]. rewrite H. destruct (view w c); unfold set; cbn. rewrite app_nil_r. reflexivity.
Qed.

Lemma publish_closed : forall G c t w msgs,
  c_closed (conn_of w c) = true ->
  exec t (publishMessages G c msgs) w =
    XDone w (match msgs with [] => true | m :: _ => negb (meantb (c_id (conn_of w c)) m) end).
Proof.
  intros G c t w msgs Hc. destruct msgs as [|m msgs]; [reflexivity|]. cbn [publishMessages].
  rewrite (exec_opb t (OGetId c) _ _ w (c_id (conn_of w c))) by reflexivity. cbv beta. unfold meantb.
  destruct (String.eqb (m_from m) _); [reflexivity|]. cbn [negb andb].
  destruct (is_empty (m_to m)), (String.eqb (m_to m) _); cbn [negb andb orb]; try reflexivity;
    (rewrite (exec_bind_done _ _ _ _ _ _ (l_C18_write_closed G c t w m Hc));
     rewrite (exec_opb t (OIsClosed c) _ _ w true); [reflexivity|cbn [ostep]; rewrite Hc; reflexivity]).
Qed.

(*@prop C35. A closed connection is sent nothing, and a message meant for it ends the delivery to it. @*)
Lemma l_C35_closed_partial : forall G c t w msgs,
  c_closed (conn_of w c) = true ->
  exists go_on, exec t (publishMessages G c msgs) w = XDone w go_on /\
    forall m rest, msgs = m :: rest -> meant (c_id (conn_of w c)) m -> go_on = false.
Proof.
  intros G c t w msgs Hc. eexists. split; [apply publish_closed, Hc|].
  intros m rest -> Hm. apply meantb_iff in Hm. rewrite Hm. reflexivity.
Qed.

(** ** Exclusion *)
Lemma handed t G except w batch :
  caster_free w -> 
  (forall {A} (k : list message -> prog A),
     exec t (bind match except with
            | None => Ret batch
            | Some s => bind (exclusion G s) (fun e => Ret (map (exclude (fst e) (snd e)) batch)) end k) w =
     exec t (k (match except with None => batch | Some s =>
        map (match s with
             | SendConn c => exclude (serverConnID G c) ""
             | SendNS n => exclude (serverConnID G (n_conn n)) ""
             | SendRoom n => exclude "" (c_id (conn_of w (n_conn n)))
             | SendExclude x => exclude "" x end) batch end)) w).
Proof. intros _ A k. destruct except as [[c|n|n|x]|]; reflexivity. Qed.

Lemma hand_over t G w batch : caster_free w ->
  exists w1, gets_to t (if usesStackExchange G then exch_call G (XPublish batch)
  else if g_sync G then
    bind (opr (OBcSend batch)) (fun k => opr (OBcAccepted k))
  else broadcast batch) w w1 /\ handed_over G batch w w1.
Proof.
  intros [Hmu Hg]. unfold handed_over, usesStackExchange, exch_call, usesStackExchange, gets_to.
  destruct (g_exch G) as [x|].
  - eexists. split; reflexivity.
  - destruct (g_sync G).
    + cbn. destruct (match s_bcaccepted _ with 0 => _ | _ => _ end); eexists; (split; [reflexivity|]); reflexivity.
    + unfold broadcast. cbn. rewrite Hmu. cbn. rewrite Nat.eqb_refl. cbn.
      rewrite bool_decide_eq_false_2 by exact Hg. cbn. eexists. split; reflexivity.
Qed.

Lemma slen_app (a b : string) : String.length (a ++ b) = String.length a + String.length b.
Proof. induction a as [|x a IH]; [reflexivity|]. exact (f_equal S IH). Qed.
Lemma sapp_cancel (a b t : string) : (a ++ t = b ++ t)%string -> a = b.
Proof.
  revert b. induction a as [|x a IH]; intros [|y b] E; [reflexivity| | |].
  - apply (f_equal String.length) in E. change (String.length t = S (String.length (b ++ t))) in E. rewrite slen_app in E. lia.
  - apply (f_equal String.length) in E. change (S (String.length (a ++ t)) = String.length t) in E. rewrite slen_app in E. lia.
  - change (String x (a ++ t) = String y (b ++ t)) in E. injection E as -> E. f_equal. apply IH, E.
Qed.
Lemma sapp_assoc (a b d : string) : (a ++ (b ++ d) = (a ++ b) ++ d)%string.
Proof. induction a as [|x a IH]; [reflexivity|]. exact (f_equal (String x) IH). Qed.
Lemma sapp_inv (p a b : string) : (p ++ a = p ++ b)%string -> a = b.
Proof. induction p as [|x p IH]; [auto|]. intros E. change (String x (p ++ a) = String x (p ++ b)) in E. injection E as E. auto. Qed.
Lemma no_x_app a b : no_x (a ++ String "x" b) -> False.
Proof. induction a as [|y a IH]; [intros [H _]; auto|]. intros [_ H]. apply IH, H. Qed.
Lemma pointer_inj id1 id2 p1 p2 : pointer p1 -> pointer p2 -> (id1 ++ p1 = id2 ++ p2)%string -> p1 = p2.
Proof.
  intros (h1 & -> & N1) (h2 & -> & N2). revert id2. induction id1 as [|x id1 IH]; intros [|y id2] E.
  - exact E.
  - change (String "0" (String "x" h1) = String y (id2 ++ ("0x" ++ h2))) in E. injection E as _ E.
    destruct id2 as [|z id2].
    + discriminate E.
    + change (String "x" h1 = String z (id2 ++ ("0x" ++ h2))) in E. injection E as _ E. subst h1.
      destruct (no_x_app (id2 ++ "0") h2).
      assert (E : (id2 ++ "0x" ++ h2 = (id2 ++ "0") ++ String "x" h2)%string).
      { clear. induction id2 as [|a id2 IH]; [reflexivity|]. exact (f_equal (String a) IH). }
      rewrite <- E. exact N1.
  - change (String x (id1 ++ ("0x" ++ h1)) = String "0" (String "x" h2)) in E. injection E as _ E.
    destruct id1 as [|z id1].
    + discriminate E.
    + change (String z (id1 ++ ("0x" ++ h1)) = String "x" h2) in E. injection E as _ E. subst h2.
      destruct (no_x_app (id1 ++ "0") h1).
      assert (E : (id1 ++ "0x" ++ h1 = (id1 ++ "0") ++ String "x" h1)%string).
      { clear. induction id1 as [|a id1 IH]; [reflexivity|]. exact (f_equal (String a) IH). }
      rewrite <- E. exact N2.
  - change (String x (id1 ++ ("0x" ++ h1)) = String y (id2 ++ ("0x" ++ h2))) in E. injection E as _ E.
    eapply IH, E.
Qed.

Lemma serverConnID_inj G c c' : addresses G -> g_client G c = false -> g_client G c' = false ->
  serverConnID G c = serverConnID G c' -> c = c'.
Proof.
  intros [Hp Hi] H1 H2. unfold serverConnID, IsClient. rewrite H1, H2. intros E.
  apply (sapp_inv "neffos(0x"), sapp_inv, (sapp_inv "(") in E.
  rewrite !sapp_assoc in E. apply sapp_cancel in E. apply Hi. exact (pointer_inj _ _ _ _ (Hp c) (Hp c') E).
Qed.
Lemma serverConnID_nonempty G c : g_client G c = false -> serverConnID G c <> "".
Proof. intros H. unfold serverConnID, IsClient. rewrite H. discriminate. Qed.

(** The two ways to exclude. *)
Lemma cast_excluded G c t w fe m :
  quiet G w c -> speakable m -> g_client G c = false -> fe <> "" ->
  exists w', exec t (publishMessages G c [set_fromExplicit fe m]) w = XDone w' true /\ only c w w' /\ quiet G w' c /\
    let gets := meant (c_id (conn_of w c)) m /\ passes (cs_rooms (view w c)) m /\ fe <> serverConnID G c in
    (gets -> view w' c = push (wire_of m) (view w c)) /\ (~ gets -> view w' c = view w c).
Proof.
  intros Q Hm Hc Hfe.
  destruct (l_C35_one_partial G c t w (set_fromExplicit fe m) Q Hm) as (w' & E & O' & Q' & H1 & H2).
  exists w'. split; [exact E|]. split; [exact O'|]. split; [exact Q'|]. cbv zeta.
  change (wire_of (set_fromExplicit fe m)) with (wire_of m) in H1.
  unfold passes, sendable in *. cbn in H1, H2 |- *. rewrite Hc in *.
  split; intros H; [apply H1|apply H2]; unfold meant in *; cbn in *; tauto.
Qed.
Lemma cast_from G c t w id m :
  quiet G w c -> speakable m -> m_fromExplicit m = "" -> 
  exists w', exec t (publishMessages G c [set_from id m]) w = XDone w' true /\ only c w w' /\ quiet G w' c /\
    let gets := c_id (conn_of w c) <> id /\ (m_to m = "" \/ m_to m = c_id (conn_of w c)) /\ passes (cs_rooms (view w c)) m in
    (gets -> view w' c = push (wire_of m) (view w c)) /\ (~ gets -> view w' c = view w c).
Proof.
  intros Q Hm Hfe.
  destruct (l_C35_one_partial G c t w (set_from id m) Q Hm) as (w' & E & O' & Q' & H1 & H2).
  exists w'. split; [exact E|]. split; [exact O'|]. split; [exact Q'|]. cbv zeta.
  change (wire_of (set_from id m)) with (wire_of m) in H1.
  unfold passes, sendable in *. cbn in H1, H2 |- *. rewrite Hfe in *.
  split; intros H; [apply H1|apply H2]; unfold meant in *; cbn in *.
  - destruct H as (H & H' & H'' & _). split; [split; [congruence|exact H']|split; [exact H''|auto]].
  - intros ((Ha & Hb) & Hc & _). apply H. split; [congruence|]. split; [exact Hb|]. split; [exact Hc|auto].
Qed.

(*@prop C36. Broadcast of a message with a connection, or one of its NSConn values, as sender: what is handed over for
    distribution is sent to exactly the connections for which the message is meant and which pass the rules of
    Write, except the connection that was named.  Distinct connections have distinct addresses; the message
    is a fresh one (its From field is not set). @*)
Lemma l_C36_connection : forall G t w s c0 m,
  addresses G -> g_client G c0 = false -> caster_free w ->
  (s = SendConn c0 \/ exists n, s = SendNS n /\ n_conn n = c0) -> speakable m -> m_from m = "" ->
  exists m' w1, gets_to t (Broadcast G (Some s) [m]) w w1 /\ handed_over G [m'] w w1 /\
  forall c t2 w2, g_client G c = false -> quiet G w2 c -> c_id (conn_of w2 c) <> "" ->
    exists w3, exec t2 (publishMessages G c [m']) w2 = XDone w3 true /\ only c w2 w3 /\ quiet G w3 c /\
    let gets := c <> c0 /\ (m_to m = "" \/ m_to m = c_id (conn_of w2 c)) /\ passes (cs_rooms (view w2 c)) m in
    (gets -> view w3 c = push (wire_of m) (view w2 c)) /\ (~ gets -> view w3 c = view w2 c).
Proof.
  intros G t w s c0 m Ha H0 Hw Hs Hm Hf.
  exists (set_fromExplicit (serverConnID G c0) m).
  destruct (hand_over t G w [set_fromExplicit (serverConnID G c0) m] Hw) as (w1 & E1 & H1).
  exists w1. split; [|split; [exact H1|]].
  - unfold gets_to, Broadcast in *. rewrite (handed t G (Some s) w [m] Hw).
    destruct Hs as [->|(n & -> & <-)]; exact E1.
  - intros c t2 w2 Hc Q Hid.
    destruct (cast_excluded G c t2 w2 (serverConnID G c0) m Q Hm Hc (serverConnID_nonempty _ _ H0)) as (w3 & E & O & Q' & Hy & Hn).
    exists w3. split; [exact E|]. split; [exact O|]. split; [exact Q'|]. cbv zeta.
    split; intros H; [apply Hy|apply Hn]; unfold meant; rewrite Hf.
    + destruct H as (Hne & Hto & Hp). split; [split; [congruence|exact Hto]|]. split; [exact Hp|].
      intros E'. apply Hne. symmetry. apply (serverConnID_inj G); assumption.
    + intros ((_ & Hto) & Hp & Hne). apply H. split; [intros ->; apply Hne; reflexivity|]. split; assumption.
Qed.

(*@prop C36. Broadcast with a Room or an Exclude value as sender: all connections with that ID are excluded (the ID of
    the room's connection, the given text), nobody else.  The ID is not empty. @*)
Lemma l_C36_id : forall G t w s id m,
  caster_free w ->
  ((exists n, s = SendRoom n /\ c_id (conn_of w (n_conn n)) = id) \/ s = SendExclude id) -> id <> "" ->
  speakable m -> m_fromExplicit m = "" ->
  exists m' w1, gets_to t (Broadcast G (Some s) [m]) w w1 /\ handed_over G [m'] w w1 /\
  forall c t2 w2, quiet G w2 c ->
    exists w3, exec t2 (publishMessages G c [m']) w2 = XDone w3 true /\ only c w2 w3 /\ quiet G w3 c /\
    let gets := c_id (conn_of w2 c) <> id /\ (m_to m = "" \/ m_to m = c_id (conn_of w2 c)) /\ passes (cs_rooms (view w2 c)) m in
    (gets -> view w3 c = push (wire_of m) (view w2 c)) /\ (~ gets -> view w3 c = view w2 c).
Proof.
  intros G t w s id m Hw Hs Hid Hm Hf.
  exists (set_from id m).
  destruct (hand_over t G w [set_from id m] Hw) as (w1 & E1 & H1).
  exists w1. split; [|split; [exact H1|]].
  - unfold gets_to, Broadcast in *. rewrite (handed t G (Some s) w [m] Hw).
    assert (Hx : exclude "" id m = set_from id m) by (unfold exclude; destruct id; [congruence|reflexivity]).
    destruct Hs as [(n & -> & <-)| ->]; cbn [map]; rewrite Hx; exact E1.
  - intros c t2 w2 Q. exact (cast_from G c t2 w2 id m Q Hm Hf).
Qed.

(*@prop C36. Without a sender nobody is excluded. @*)
Lemma l_C36_nobody : forall G t w m,
  caster_free w -> speakable m -> m_fromExplicit m = "" -> m_from m = "" ->
  exists w1, gets_to t (Broadcast G None [m]) w w1 /\ handed_over G [m] w w1 /\
  forall c t2 w2, quiet G w2 c -> c_id (conn_of w2 c) <> "" ->
    exists w3, exec t2 (publishMessages G c [m]) w2 = XDone w3 true /\ only c w2 w3 /\ quiet G w3 c /\
    let gets := (m_to m = "" \/ m_to m = c_id (conn_of w2 c)) /\ passes (cs_rooms (view w2 c)) m in
    (gets -> view w3 c = push (wire_of m) (view w2 c)) /\ (~ gets -> view w3 c = view w2 c).
Proof.
  intros G t w m Hw Hm Hf Hfr.
  destruct (hand_over t G w [m] Hw) as (w1 & E1 & H1).
  exists w1. split; [|split; [exact H1|]].
  - unfold gets_to, Broadcast in *. exact E1.
  - intros c t2 w2 Q Hid. destruct (cast_from G c t2 w2 "" m Q Hm Hf) as (w3 & E & O & Q' & Hy & Hn).
    assert (Em : set_from "" m = m) by (destruct m; cbn in *; subst; reflexivity). rewrite Em in E.
    exists w3. split; [exact E|]. split; [exact O|]. split; [exact Q'|]. cbv zeta.
    split; intros H; [apply Hy|apply Hn]; tauto.
Qed.

(*@prop C36. On a server side connection, the call of NSConn that broadcasts to the others excludes exactly the own connection;
    the one that broadcasts to all excludes nobody. @*)
Lemma l_C36_nsconn : forall G t w n others m,
  addresses G -> g_client G (n_conn n) = false -> caster_free w -> speakable m -> m_from m = "" -> m_fromExplicit m = "" ->
  exists m' w1, gets_to t (impl G (ANSBroadcast (Some n) others [m])) w w1 /\ handed_over G [m'] w w1 /\
  forall c t2 w2, g_client G c = false -> quiet G w2 c -> c_id (conn_of w2 c) <> "" ->
    exists w3, exec t2 (publishMessages G c [m']) w2 = XDone w3 true /\ only c w2 w3 /\ quiet G w3 c /\
    let gets := (others = true -> c <> n_conn n) /\ (m_to m = "" \/ m_to m = c_id (conn_of w2 c)) /\ passes (cs_rooms (view w2 c)) m in
    (gets -> view w3 c = push (wire_of m) (view w2 c)) /\ (~ gets -> view w3 c = view w2 c).
Proof.
  intros G t w n others m Ha Hcl Hw Hm Hfr Hf. cbn [impl]. unfold NSBroadcast, IsClient. rewrite Hcl.
  destruct others.
  - destruct (l_C36_connection G t w (SendConn (n_conn n)) (n_conn n) m Ha Hcl Hw (or_introl eq_refl) Hm Hfr) as (m' & w1 & H1 & H2 & H3).
    exists m', w1. split; [exact H1|]. split; [exact H2|]. intros c t2 w2 Hc Q Hid.
    destruct (H3 c t2 w2 Hc Q Hid) as (w3 & E & O & Q' & Hy & Hn). exists w3. split; [exact E|]. split; [exact O|]. split; [exact Q'|].
    cbv zeta in *. split; intros H; [apply Hy|apply Hn]; tauto.
  - destruct (l_C36_nobody G t w m Hw Hm Hf Hfr) as (w1 & H1 & H2 & H3).
    exists m, w1. split; [exact H1|]. split; [exact H2|]. intros c t2 w2 Hc Q Hid.
    destruct (H3 c t2 w2 Q Hid) as (w3 & E & O & Q' & Hy & Hn). exists w3. split; [exact E|]. split; [exact O|]. split; [exact Q'|].
    cbv zeta in *. split; intros H; [apply Hy|apply Hn]; [tauto|]. intros H'. apply H. split; [discriminate|exact H'].
Qed.

(** ** A server with three connections *)

(** Connections 1 and 3 share an ID. *)
Definition castG (sync : bool) : cfg := {|
  g_client := fun _ => false;
  g_namespaces := fun _ => lift exA;
  g_connid := fun c => if Nat.eqb c 2 then "bob" else "ann";
  g_uuid := "u";
  g_ptr := fun c => ("0x" ++ String.concat "" (repeat "1" c))%string;
  g_known := knownErrors0;
  g_exch := None;
  g_sync := sync;
  g_firealways := false;
  g_onconnect := None;
  g_ondisconnect := Some (fun _ => Ret tt);
  g_do := fun _ _ => Ret tt;
  g_user := fun _ => Ret tt |}.

(** Goroutine 0 is the server loop; [u] Upgrade of [c], [u + 1] its reader. *)
Definition arrive (c u : nat) : list cmd :=
  [Act1 (Env (EGo (TUpgrade c))); Go u; Act1 Start; Go 0; Go (S u); Go u;
   Act1 (Env (EDeliver c TextMessage "M"));
   Act1 (Env (EDeliver c TextMessage "$1;chat;;_OnNamespaceConnect;0;0;")); Go (S u)].
Definition castS : sys := play (castG true) ([Go 0] ++ arrive 1 1 ++ arrive 2 3 ++ arrive 3 5) (init (castG true)).
Lemma cast_quiet c : 1 <= c <= 3 -> quiet (castG true) (s_w castS) c.
Proof.
  intros H. assert (c = 1 \/ c = 2 \/ c = 3) as [->|[->| ->]] by lia; apply quietb_ok; vm_compute; reflexivity.
Qed.
Lemma cast_addresses b : addresses (castG b).
Proof.
  split.
  - intros c. eexists. split; [reflexivity|]. cbn. induction c as [|c IH]; [exact I|]. destruct c; cbn in *; (split; [discriminate|exact IH]).
  - intros c c' E. cbn in E. injection E as E. apply (f_equal String.length) in E.
    assert (L : forall n, String.length (String.concat "" (repeat "1" n)) = n).
    { clear. intros n. induction n as [|n IH]; [reflexivity|]. destruct n as [|n]; [reflexivity|].
      change (S (String.length (String.concat "" (repeat "1" (S n)))) = S (S n)). rewrite IH. reflexivity. }
    rewrite !L in E. exact E.
Qed.
Lemma cast_reachable : reachable (castG true) castS.
Proof. apply play_reachable. Qed.

#[local] Opaque castS castG.
(*@exl C35. Three accepted connections (1 and 3 with ID ann, 2 with ID bob), all in namespace chat.  The message for
    bob is meant for 2 only and the message from ann is meant for 2 only. @*)
Lemma x_C35_example :
  let to_bob := set_to "bob" (set_event "hi" (set_namespace "chat" no_message)) in
  let from_ann := set_from "ann" (set_event "hi" (set_namespace "chat" no_message)) in
  let open := set_event "hi" (set_namespace "chat" no_message) in
  let id c := c_id (conn_of (s_w castS) c) in
  reachable (castG true) castS /\
  (forall c, 1 <= c <= 3 -> quiet (castG true) (s_w castS) c) /\
  (id 1 = "ann" /\ id 2 = "bob" /\ id 3 = "ann") /\
  (speakable to_bob /\ speakable from_ann /\ speakable open) /\
  (meant (id 2) to_bob /\ ~ meant (id 1) to_bob /\ meant (id 2) from_ann /\ ~ meant (id 3) from_ann) /\
  (meant (id 1) open /\ sendable (serverConnID (castG true) 1) (cs_rooms (view (s_w castS) 1)) open).
Proof.
  cbv zeta. split; [apply cast_reachable|]. split; [apply cast_quiet|].
  assert (E1 : c_id (conn_of (s_w castS) 1) = "ann") by (vm_compute; reflexivity).
  assert (E2 : c_id (conn_of (s_w castS) 2) = "bob") by (vm_compute; reflexivity).
  assert (E3 : c_id (conn_of (s_w castS) 3) = "ann") by (vm_compute; reflexivity).
  rewrite E1, E2, E3. split; [auto|]. split; [repeat split; exact I|].
  assert (HM : cs_rooms (view (s_w castS) 1) = {["chat" := ∅]}) by decide_eq. rewrite HM.
  unfold meant; cbn [m_to m_from set_to set_from set_event set_namespace no_message]. split.
  { split; [split; [discriminate|auto]|]. split; [intros [_ [H|H]]; discriminate|].
    split; [split; [discriminate|auto]|]. intros [H _]. auto. }
  split; [split; [discriminate|auto]|]. split; [|auto]. right; right. exists ∅. split; [reflexivity|auto].
Qed.

(*@exl C36. The same server.  Connection 1 broadcasts to the others: 3, which has the same ID, is sent the message.
    Excluding the ID leaves it out as well. @*)
Lemma x_C36_example :
  let m := set_event "hi" (set_namespace "chat" no_message) in
  let n := NsRef 1 "chat" 0 in
  addresses (castG true) /\ caster_free (s_w castS) /\ speakable m /\ m_from m = "" /\ m_fromExplicit m = "" /\
  c_id (conn_of (s_w castS) (n_conn n)) = "ann" /\
  forall c, 1 <= c <= 3 -> quiet (castG true) (s_w castS) c /\ c_id (conn_of (s_w castS) c) <> "" /\
    passes (cs_rooms (view (s_w castS) c)) m.
Proof.
  cbv zeta. split; [apply cast_addresses|].
  split; [split; [vm_compute; reflexivity|]|].
  { assert (E : b_closed (w_srv (s_w castS)) = ∅) by decide_eq. rewrite E. apply not_elem_of_empty. }
  split; [exact I|]. split; [reflexivity|]. split; [reflexivity|]. split; [vm_compute; reflexivity|].
  intros c Hc. split; [apply cast_quiet, Hc|].
  assert (HM : cs_rooms (view (s_w castS) c) = {["chat" := ∅]} /\ c_id (conn_of (s_w castS) c) <> "").
  { assert (c = 1 \/ c = 2 \/ c = 3) as [->|[->| ->]] by lia; (split; [decide_eq|vm_compute; discriminate]). }
  destruct HM as [HM Hid]. split; [exact Hid|]. rewrite HM. clear HM Hid.
  split; [|left; reflexivity]. right; right. exists ∅. split; [reflexivity|left; reflexivity].
Qed.
