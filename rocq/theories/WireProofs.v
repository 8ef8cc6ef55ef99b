(** * WireProofs.v : the wire properties C01-C10. *)
From Coq Require Import String Ascii List NArith ZArith Bool Lia.
From Verif Require Import Go Errors Message Spec_Wire CodecProofs.
Import ListNotations.
Local Open Scope string_scope.

(*@file Prop_Wire.v
From Coq Require Import String Ascii List NArith ZArith Bool.
From Verif Require Import Go Errors Message Spec_Wire CodecProofs.
Import ListNotations.
Local Open Scope string_scope.
@*)

(*@prop C01. A serialized message is received with the same token, names, no-op flag, and with
    the body or error that [delivered] describes.  [allow] is the receiver's native mode. @*)
Lemma l_C01_wire_round_trip : forall ks typ allow m b,
  ~ sent_raw m -> m_fromExplicit m = "" -> good_token (m_wait m) ->
  safe_name (m_namespace m) -> safe_name (m_room m) -> safe_name (m_event m) ->
  (forall e, m_err m = Some e -> err_text e <> Ok "" \/ exists b, e = EReply b) ->
  serializeMessage m = Ok b ->
  let m' := DeserializeMessage ks typ b allow false in
  m_isInvalid m' = false /\
  m_wait m' = m_wait m /\
  m_namespace m' = m_namespace m /\
  m_room m' = m_room m /\
  m_event m' = m_event m /\
  m_isNoOp m' = m_isNoOp m /\
  m_setBinary m' = (match typ with BinaryMessage => true | TextMessage => false end) /\
  delivered ks (m_body m) (m_err m) (m_body m') (m_err m').
Proof.
  intros ks typ allow m b Hraw Hfe Hw Hn Hr He Herr Hs m'. unfold m'. clear m'.
  destruct (deserialize_serialized ks typ allow m b Hraw Hfe Hw Hs) as (x & p & Hb & Hx & -> & Hc).
  cbn. rewrite !unescape_escape by assumption.
  repeat (split; [reflexivity|]).
  destruct Hc as [(-> & -> & ->)|[(rb & -> & -> & ->)|(ge & t & Hge & Hnr & Ht & -> & ->)]].
  - cbn. destruct (is_empty (m_body m)); constructor.
  - cbn. destruct (is_empty rb); constructor.
  - rewrite Hge. cbn.
    destruct (Herr ge Hge) as [Hne|[b' Hb']]; [|exfalso; eapply Hnr; eauto].
    destruct t as [|c t]; [congruence|]. cbn.
    eapply del_error; eauto using resolveError_resolves; discriminate.
Qed.

(*@ex
(** A message with separators in every name, in the body, and a known error. *)
Example C01_example :
  let m := Message "$17" "a;b" "@%!room;" "ev;" "x;y;;" None false true false "" "" false "" false false false false false in
  ~ sent_raw m /\ m_fromExplicit m = "" /\ good_token (m_wait m) /\
  safe_name (m_namespace m) /\ safe_name (m_room m) /\ safe_name (m_event m) /\
  exists b, serializeMessage m = Ok b.
Proof.
  cbn. split; [intros [H _]; discriminate|]. split; [reflexivity|].
  split; [apply (genWait_good true 17)|].
  split; [apply unescape_escape_iff; reflexivity|].
  split; [apply unescape_escape_iff; reflexivity|].
  split; [apply unescape_escape_iff; reflexivity|].
  eexists; reflexivity.
Qed.
@*)

(*@prop C02. A name survives escaping and unescaping exactly if it is safe. @*)
Lemma l_C02_name_survives_iff : forall s, unescape (escape s) = s <-> safe_name s.
Proof. exact unescape_escape_iff. Qed.

(*@prop C02, on the wire: whatever the rest of the message is, the namespace that is received equals the
    one that was sent exactly if it is safe; likewise room and event. @*)
Lemma l_C02_wire_names_iff : forall ks typ allow m b,
  ~ sent_raw m -> m_fromExplicit m = "" -> good_token (m_wait m) -> serializeMessage m = Ok b ->
  let m' := DeserializeMessage ks typ b allow false in
  (m_namespace m' = m_namespace m <-> safe_name (m_namespace m)) /\
  (m_room m' = m_room m <-> safe_name (m_room m)) /\
  (m_event m' = m_event m <-> safe_name (m_event m)).
Proof.
  intros ks typ allow m b Hraw Hfe Hw Hs m'. unfold m'. clear m'.
  destruct (deserialize_serialized ks typ allow m b Hraw Hfe Hw Hs) as (x & p & Hb & Hx & -> & Hc).
  cbn. split; [|split]; apply unescape_escape_iff.
Qed.

(*@prop C02. Avoiding the replacement text itself is not enough (the belief of message.go:254-256). @*)
Lemma l_C02_replacement_text_not_enough_refuted :
  exists s, ~ contains "@%!semicolon@%!" s /\ unescape (escape s) <> s.
Proof.
  exists "@%!semicolon;". split.
  - intros (a & b & H).
    repeat (destruct a as [|? a]; cbn in H; [discriminate|try discriminate; injection H as _ H]).
  - vm_compute. discriminate.
Qed.

(*@prop C03. For arbitrary names and body the frame has exactly the seven fields of the message: no
    field content can move into another field. @*)
Lemma l_C03_no_field_injection : forall ks typ allow m b,
  ~ sent_raw m -> m_fromExplicit m = "" -> good_token (m_wait m) -> serializeMessage m = Ok b ->
  let m' := DeserializeMessage ks typ b allow false in
  m_isInvalid m' = false /\
  m_wait m' = m_wait m /\ m_isNoOp m' = m_isNoOp m /\
  m_namespace m' = unescape (escape (m_namespace m)) /\
  m_room m' = unescape (escape (m_room m)) /\
  m_event m' = unescape (escape (m_event m)) /\
  (m_err m = None -> m_body m' = m_body m /\ m_err m' = None) /\
  (exists x rest, is_frame b (m_wait m) (escape (m_namespace m)) (escape (m_room m)) (escape (m_event m))
                    x (if m_isNoOp m then "1" else "0") rest).
Proof.
  intros ks typ allow m b Hraw Hfe Hw Hs m'. unfold m'. clear m'.
  destruct (deserialize_serialized ks typ allow m b Hraw Hfe Hw Hs) as (x & p & Hb & Hx & -> & Hc).
  cbn [m_isInvalid m_wait m_isNoOp m_namespace m_room m_event m_body m_err].
  repeat (split; [reflexivity|]). split.
  - intros Hn. destruct Hc as [(_ & -> & ->)|[(rb & He & _)|(ge & t & He & _)]]; [|congruence|congruence].
    cbn. now destruct (is_empty (m_body m)).
  - exists x, p. split; [rewrite Hb; reflexivity|].
    repeat split; auto using escape_no_semicolon, bool01_no_semicolon; try apply Hw.
    destruct Hx as [-> | ->]; reflexivity.
Qed.

(*@ex
Example C03_example :
  let m := Message "5" "ns;;1;1;" "@%!semicolon@%!" ";" "b;o" None false false false "" "" false "" false false false false false in
  ~ sent_raw m /\ m_fromExplicit m = "" /\ good_token (m_wait m) /\ exists b, serializeMessage m = Ok b.
Proof.
  cbn. split; [intros [H _]; discriminate|]. split; [reflexivity|].
  split; [apply (genWait_good false 5)|eexists; reflexivity].
Qed.
@*)

(*@prop C04. A Reply arrives as a plain body without error. @*)
Lemma l_C04_reply : forall ks typ allow m rb b,
  ~ sent_raw m -> m_fromExplicit m = "" -> good_token (m_wait m) ->
  m_err m = Some (EReply rb) -> serializeMessage m = Ok b ->
  let m' := DeserializeMessage ks typ b allow false in
  m_err m' = None /\ m_body m' = rb.
Proof.
  intros ks typ allow m rb b Hraw Hfe Hw He Hs m'. unfold m'. clear m'.
  destruct (deserialize_serialized ks typ allow m b Hraw Hfe Hw Hs) as (x & p & Hb & Hx & -> & Hc).
  cbn [m_err m_body].
  destruct Hc as [(Hn & _)|[(rb' & He' & -> & ->)|(ge & t & He' & Hnr & _)]].
  - congruence.
  - rewrite He in He'. injection He' as <-. cbn. now destruct (is_empty rb).
  - rewrite He in He'. injection He' as <-. exfalso. eapply Hnr. reflexivity.
Qed.

(*@prop C04. Any other error arrives as an error resolved from its text and the body is dropped. @*)
Lemma l_C04_error : forall ks typ allow m e t b,
  ~ sent_raw m -> m_fromExplicit m = "" -> good_token (m_wait m) ->
  m_err m = Some e -> (forall rb, e <> EReply rb) -> err_text e = Ok t -> t <> "" ->
  serializeMessage m = Ok b ->
  let m' := DeserializeMessage ks typ b allow false in
  (exists e', m_err m' = Some e' /\ resolves ks t e') /\ m_body m' = "".
Proof.
  intros ks typ allow m e t b Hraw Hfe Hw He Hnr Ht Hne Hs m'. unfold m'. clear m'.
  destruct (deserialize_serialized ks typ allow m b Hraw Hfe Hw Hs) as (x & p & Hb & Hx & -> & Hc).
  cbn [m_err m_body].
  destruct Hc as [(Hn & _)|[(rb' & He' & _)|(ge & t' & He' & _ & Ht' & -> & ->)]].
  - congruence.
  - exfalso. rewrite He in He'. injection He' as ->. eapply Hnr. reflexivity.
  - rewrite He in He'. injection He' as <-. rewrite Ht in Ht'. injection Ht' as <-.
    destruct t as [|c t]; [easy|]. cbn. split; [|reflexivity].
    eexists; split; [reflexivity|apply resolveError_resolves].
Qed.

(*@prop C04. The resolved value is unique. @*)
Lemma l_C04_resolution_is_a_function : forall ks t e1 e2,
  resolves ks t e1 -> resolves ks t e2 -> e1 = e2.
Proof. intros ks t e1 e2 H1 H2. apply resolves_unique in H1, H2. congruence. Qed.

(*@prop C04. A registered error whose text is not accepted by an earlier one comes back as the
    identical value. @*)
Lemma l_C04_registered_error_identity : forall ks k t,
  err_text (k_err k) = Ok t ->
  (forall k', In k' ks -> known_matches t k' = false) ->
  resolves (RegisterKnownError k ks) t (k_err k).
Proof.
  intros ks k t Ht Hks. unfold RegisterKnownError.
  assert (Hm : known_matches t k = true).
  { unfold known_matches. rewrite Ht, String.eqb_refl. apply orb_true_r. }
  destruct (existsb _ ks) eqn:E.
  - exfalso. apply existsb_exists in E as (k' & Hin & Heq).
    specialize (Hks k' Hin). unfold known_matches in Hks.
    assert (Hsame : k_err k = k_err k').
    { revert Heq. generalize (k_err k), (k_err k'). clear.
      fix IH 1. intros a b.
      destruct a as [| | | | | | |i t|t|x|c [e|]| | | | |o t x],
               b as [| | | | | | |j u|u|y|d [f|]| | | | |p u y]; cbn; intros H; try discriminate; try reflexivity.
      - apply andb_true_iff in H as [H1 H2]. apply Nat.eqb_eq in H1. apply String.eqb_eq in H2. congruence.
      - apply String.eqb_eq in H. congruence.
      - apply String.eqb_eq in H. congruence.
      - apply andb_true_iff in H as [H1 H2]. apply Z.eqb_eq in H1. apply IH in H2. congruence.
      - apply Z.eqb_eq in H. congruence.
      - apply andb_true_iff in H as [H1 H3]. apply andb_true_iff in H1 as [H1 H2].
        apply String.eqb_eq in H2. apply Bool.eqb_prop in H3.
        destruct o, p; try discriminate; congruence. }
    rewrite <- Hsame, Ht, String.eqb_refl, orb_true_r in Hks. discriminate.
  - eapply resolves_known with (pre := ks) (post := []); auto.
Qed.

(*@prop C04. Registering never drops or reorders an already registered error. @*)
Lemma l_C04_registration_appends : forall k ks, exists l, RegisterKnownError k ks = (ks ++ l)%list /\ List.length l <= 1.
Proof.
  intros k ks. unfold RegisterKnownError. destruct (existsb _ ks).
  - exists []. split; [now rewrite app_nil_r|cbn; lia].
  - exists [k]. split; [reflexivity|cbn; lia].
Qed.

(*@prop C04. An error without text is received as success with an empty body. @*)
Lemma l_C04_empty_error_text_is_lost : forall ks typ allow m e b,
  ~ sent_raw m -> m_fromExplicit m = "" -> good_token (m_wait m) ->
  m_err m = Some e -> (forall rb, e <> EReply rb) -> err_text e = Ok "" ->
  serializeMessage m = Ok b ->
  let m' := DeserializeMessage ks typ b allow false in
  m_err m' = None /\ m_body m' = "".
Proof.
  intros ks typ allow m e b Hraw Hfe Hw He Hnr Ht Hs m'. unfold m'. clear m'.
  destruct (deserialize_serialized ks typ allow m b Hraw Hfe Hw Hs) as (x & p & Hb & Hx & -> & Hc).
  cbn [m_err m_body].
  destruct Hc as [(Hn & _)|[(rb' & He' & _)|(ge & t' & He' & _ & Ht' & -> & ->)]].
  - congruence.
  - exfalso. rewrite He in He'. injection He' as ->. eapply Hnr. reflexivity.
  - rewrite He in He'. injection He' as <-. rewrite Ht in Ht'. injection Ht' as <-. split; reflexivity.
Qed.

(*@ex
Example C04_example :
  let m e := Message "$9" "ns" "" "ev" "dropped" (Some e) true false false "" "" false "" false false false false false in
  (forall e, ~ sent_raw (m e)) /\
  m_err (DeserializeMessage knownErrors0 TextMessage ("$9;ns;;ev;1;0;bad room") false false) = Some EBadRoom /\
  serializeMessage (m EBadRoom) = Ok "$9;ns;;ev;1;0;bad room" /\
  serializeMessage (m (EReply "pong")) = Ok "$9;ns;;ev;0;0;pong" /\
  (exists b, serializeMessage (m (EUser 3 "")) = Ok b) /\
  RegisterKnownError (Known (EUser 1 "mine") None) knownErrors0 <> knownErrors0.
Proof.
  cbn. split; [intros e [H _]; discriminate|]. repeat split; try reflexivity.
  - eexists; reflexivity.
  - discriminate.
Qed.
@*)

(*@prop C05. A payload is rejected exactly if it is empty or has too few separators for a receiver
    that takes no native messages. @*)
Lemma l_C05_invalid_iff : forall ks typ b allow only,
  m_isInvalid (DeserializeMessage ks typ b allow only) = true <->
  b = "" \/ (only = false /\ allow = false /\ count_char ";" b < 6).
Proof.
  intros ks typ b allow only. unfold DeserializeMessage.
  set (i := deserializeInput ks b allow only).
  assert (Hi : i_isInvalid i = true <-> b = "" \/ (only = false /\ allow = false /\ count_char ";" b < 6)).
  { unfold i, deserializeInput. destruct b as [|c b']; cbn [is_empty]; [cbn; tauto|].
    set (b := String c b').
    destruct only; [cbn; split; [discriminate|intros [H|(H & _)]; discriminate]|].
    pose proof (splitN_length validMessageSepCount sep b ltac:(easy)) as Hl.
    unfold sep in Hl at 2. unfold validMessageSepCount in Hl at 2.
    assert (Hne : b = "" <-> False) by (split; [discriminate|tauto]).
    rewrite Hne. clear Hne.
    destruct (splitN validMessageSepCount sep b) as [|w [|n [|r [|e [|x [|y [|p [|? ?]]]]]]]];
      cbn [List.length] in Hl;
      try (destruct allow; cbn [i_isInvalid]; split; [discriminate|intros [[]|(_ & H & _)]; discriminate|
           intros _; right; repeat split; lia|reflexivity]).
    - destruct (is_empty p); [|destruct (String.eqb x trueByte)]; cbn [i_isInvalid];
        (split; [discriminate|intros [[]|(_ & _ & H)]; lia]). }
  destruct (if isServerConnID (i_wait i) then ("", i_wait i) else (i_wait i, "")) as [w fe].
  cbn [m_isInvalid]. exact Hi.
Qed.

(*@prop C05. Every accepted non native payload is the concatenation of its seven fields, and the
    decoded message consists of these fields; nothing is lost or added. @*)
Lemma l_C05_fields : forall ks typ b allow,
  6 <= count_char ";" b ->
  exists w n r e x y rest,
    is_frame b w n r e x y rest /\
    let m := DeserializeMessage ks typ b allow false in
    m_namespace m = unescape n /\ m_room m = unescape r /\ m_event m = unescape e /\
    (m_isNoOp m = true <-> y = "1") /\
    ((exists e', x = "1" /\ rest <> "" /\ m_err m = Some e' /\ resolves ks rest e' /\ m_body m = "") \/
     ((x <> "1" \/ rest = "") /\ m_err m = None /\ m_body m = rest)).
Proof.
  intros ks typ b allow Hc.
  pose proof (splitN_length validMessageSepCount sep b ltac:(easy)) as Hl.
  unfold sep in Hl at 2. unfold validMessageSepCount in Hl at 2.
  pose proof (splitN_join 7 b ltac:(easy)) as Hj.
  unfold validMessageSepCount in Hl. change sep with ";"%char in Hl.
  assert (Hfr : exists w n r e x y p, splitN 7 ";" b = [w; n; r; e; x; y; p] /\
    no_semicolon w /\ no_semicolon n /\ no_semicolon r /\ no_semicolon e /\ no_semicolon x /\ no_semicolon y).
  { clear Hj Hl. revert Hc.
    assert (Hstep : forall k s, S k <= count_char ";" s -> exists a t, cut ";" s = Some (a, t) /\
              no_semicolon a /\ k <= count_char ";" t).
    { intros k s Hk. destruct (cut ";" s) as [[a t]|] eqn:E.
      - apply cut_some in E as [-> Ha]. exists a, t. split; [reflexivity|]. split; [exact Ha|].
        rewrite count_app, Ha in Hk. cbn in Hk. lia.
      - apply cut_none in E. lia. }
    intros Hc.
    destruct (Hstep 5 b Hc) as (w & b1 & E1 & H1 & Hc1).
    destruct (Hstep 4 b1 Hc1) as (n & b2 & E2 & H2 & Hc2).
    destruct (Hstep 3 b2 Hc2) as (r & b3 & E3 & H3 & Hc3).
    destruct (Hstep 2 b3 Hc3) as (e & b4 & E4 & H4 & Hc4).
    destruct (Hstep 1 b4 Hc4) as (x & b5 & E5 & H5 & Hc5).
    destruct (Hstep 0 b5 Hc5) as (y & b6 & E6 & H6 & Hc6).
    exists w, n, r, e, x, y, b6. repeat split; auto.
    cbn [splitN]. now rewrite E1, E2, E3, E4, E5, E6. }
  destruct Hfr as (w & n & r & e & x & y & p & Hs & Hw & Hn & Hr & He & Hx & Hy).
  rewrite Hs in Hj.
  assert (Hb : b = frame w n r e x y p) by (symmetry; exact Hj).
  exists w, n, r, e, x, y, p. split.
  { split; [rewrite Hb; reflexivity|]. auto 10. }
  cbn zeta. unfold DeserializeMessage. rewrite Hb, deserialize_frame by assumption.
  cbn [i_wait i_namespace i_room i_event i_body i_isNoOp i_isInvalid i_err].
  destruct (if isServerConnID w then ("", w) else (w, "")) as [w1 fe].
  cbn [m_namespace m_room m_event m_isNoOp m_err m_body].
  do 3 (split; [reflexivity|]).
  split; [apply String.eqb_eq|].
  destruct (String.eqb x "1") eqn:Ex.
  - apply String.eqb_eq in Ex. destruct p as [|c p]; cbn [is_empty].
    + right. auto.
    + left. exists (resolveError ks (String c p)). split; [exact Ex|]. split; [discriminate|].
      split; [reflexivity|]. split; [apply resolveError_resolves|reflexivity].
  - right. apply String.eqb_neq in Ex. split; [auto|]. split; [now destruct (is_empty p)|reflexivity].
Qed.

(*@ex
Example C05_example : 6 <= count_char ";" ";;;;;;;" /\
  m_isInvalid (DeserializeMessage knownErrors0 TextMessage "a;b" false false) = true /\
  m_isInvalid (DeserializeMessage knownErrors0 TextMessage "a;b" true false) = false.
Proof. cbn. split; [repeat constructor|split; reflexivity]. Qed.
@*)

(*@prop C06. When a raw native body arrives at OnNativeMessage unchanged. @*)
Lemma l_C06_native_round_trip_iff : forall ks typ m allow only,
  sent_raw m -> (only = true -> allow = true) ->
  exists b, serializeMessage m = Ok b /\
  let m' := DeserializeMessage ks typ b allow only in
  (m_isInvalid m' = false /\ m_isNative m' = true /\ m_event m' = "_OnNativeMessage" /\ m_body m' = m_body m
   <-> m_body m <> "" /\ (only = true \/ (allow = true /\ count_char ";" (m_body m) < 6))).
Proof.
  intros ks typ m allow only [Hnat Hw] Hoa.
  exists (m_body m). split.
  { unfold serializeMessage. now rewrite Hnat, Hw. }
  set (b := m_body m). cbn zeta.
  destruct (String.eqb b "") eqn:Eb.
  { apply String.eqb_eq in Eb. rewrite Eb. cbn. split; [intros (H & _); discriminate|tauto]. }
  apply String.eqb_neq in Eb.
  assert (Hemp : is_empty b = false) by (now apply is_empty_false).
  destruct only.
  { rewrite (Hoa eq_refl). unfold DeserializeMessage, deserializeInput. rewrite Hemp. cbn. tauto. }
  destruct (Nat.lt_ge_cases (count_char ";" b) 6) as [Hlt|Hge].
  - destruct allow.
    + unfold DeserializeMessage, deserializeInput. rewrite Hemp.
      pose proof (splitN_length validMessageSepCount sep b ltac:(easy)) as Hl.
      unfold sep in Hl at 2. unfold validMessageSepCount in Hl at 2.
      destruct (splitN validMessageSepCount sep b) as [|w [|n [|r [|e [|x [|y [|p [|? ?]]]]]]]];
        cbn [List.length] in Hl; try lia; cbn; tauto.
    + split; [|intros (_ & [H|(H & _)]); discriminate].
      intros (_ & H & _). unfold DeserializeMessage in H. exfalso. revert H.
      destruct (if isServerConnID _ then _ else _) as [w1 fe]. cbn [m_isNative andb]. discriminate.
  - split; [|intros (_ & [H|(_ & H)]); [discriminate|lia]].
    intros (_ & _ & _ & Hb). exfalso.
    destruct (l_C05_fields ks typ b allow Hge) as (w & n & r & e & x & y & rest & (Hfr & _) & _ & _ & _ & _ & Hc).
    assert (Hlen : forall u v : string, String.length (u ++ v) = String.length u + String.length v).
    { induction u; cbn; intros; [reflexivity|now rewrite IHu]. }
    assert (Hlt : String.length rest < String.length b).
    { rewrite Hfr. repeat (rewrite Hlen). cbn [String.length]. lia. }
    destruct Hc as [(e' & _ & _ & _ & _ & Hbody)|(_ & _ & Hbody)]; cbn zeta in Hbody; rewrite Hb in Hbody.
    + congruence.
    + rewrite <- Hbody in Hlt. lia.
Qed.

(*@ex
Example C06_example : sent_raw (Message "" "" "" "" "a;b;c" None false false false "" "" false "" false false true false false).
Proof. split; reflexivity. Qed.
@*)

(*@prop C07. Serialize panics exactly in these two situations. @*)
Lemma l_C07_serialize_panics_iff : forall m,
  (exists w, serializeMessage m = Panic w) <->
  ~ sent_raw m /\
  ((m_fromExplicit m <> "" /\ m_wait m <> "") \/
   (exists e, m_err m = Some e /\ nil_close_error e)).
Proof. exact serializeMessage_panic_iff. Qed.

(*@prop C08. Tokens of the two sides never coincide. @*)
Lemma l_C08_sides_disjoint : forall t1 t2, genWait true t1 <> genWait false t2.
Proof. exact genWait_sides. Qed.

(*@prop C08. Tokens of one side determine the clock reading: they coincide exactly if the clock readings do. @*)
Lemma l_C08_injective : forall client t1 t2, genWait client t1 = genWait client t2 <-> t1 = t2.
Proof. split; [apply genWait_inj|now intros ->]. Qed.

(*@prop C08. Every generated token is received unchanged, in any message. @*)
Lemma l_C08_survives_wire : forall ks typ allow client t m b,
  m_wait m = genWait client t -> m_fromExplicit m = "" -> serializeMessage m = Ok b ->
  m_wait (DeserializeMessage ks typ b allow false) = genWait client t /\
  m_fromStackExchange (DeserializeMessage ks typ b allow false) = false /\
  m_fromExplicit (DeserializeMessage ks typ b allow false) = "".
Proof.
  intros ks typ allow client t m b Hw Hfe Hs.
  assert (Hg : good_token (m_wait m)) by (rewrite Hw; apply genWait_good).
  assert (Hraw : ~ sent_raw m).
  { intros [_ He]. rewrite He in Hw. destruct client.
    - discriminate.
    - destruct (format_int_shape t) as (s & _ & Hne & [Hf|Hf]); rewrite genWait_server, Hf in Hw; [now symmetry in Hw|discriminate]. }
  destruct (deserialize_serialized ks typ allow m b Hraw Hfe Hg Hs) as (x & p & Hb & Hx & -> & Hc).
  cbn. auto.
Qed.

(*@prop C08. A server never treats a client's request token as a reply token; both sides treat their own
    tokens as reply tokens. @*)
Lemma l_C08_recognition : forall t m,
  (m_wait m = genWait true t -> IsWait false m = false /\ IsWait true m = true) /\
  (m_wait m = genWait false t -> IsWait false m = true).
Proof.
  intros t m. split; intros H; unfold IsWait; rewrite H.
  - split; reflexivity.
  - rewrite genWait_server. destruct (format_int_shape t) as (s & Hd & Hne & [-> | ->]); [|reflexivity].
    destruct s as [|c s]; [easy|]. cbn [all_digits] in Hd. apply andb_true_iff in Hd as [Hc _].
    destruct (is_digit_cases c Hc) as [-> |[-> |[-> |[-> |[-> |[-> |[-> |[-> |[-> | ->]]]]]]]]]; reflexivity.
Qed.

(*@ex
Example C08_example : genWait true 1700000000000000000%Z = "$1700000000000000000".
Proof. reflexivity. Qed.
@*)

(*@prop C09 is violated: no token made for a scale-out Ask is recognised as such by the server that
    receives the reply, whatever the message. @*)
Lemma l_C09_token_never_recognised_refuted : forall ks typ allow t m b,
  m_wait m = genWaitStackExchange (genWait false t) -> ~ sent_raw m -> m_fromExplicit m = "" ->
  serializeMessage m = Ok b ->
  m_fromStackExchange (DeserializeMessage ks typ b allow false) = false.
Proof.
  intros ks typ allow t m b Hw Hraw Hfe Hs.
  assert (Hg : good_token (m_wait m)) by (rewrite Hw; apply stack_token_not_marked).
  destruct (deserialize_serialized ks typ allow m b Hraw Hfe Hg Hs) as (x & p & Hb & Hx & -> & Hc).
  reflexivity.
Qed.

(*@ex
Example C09_example :
  let m := Message (genWaitStackExchange (genWait false 1700000000000000000)) "ns" "" "ev" "b" None false false false "" "" false "c1" false false false false false in
  ~ sent_raw m /\ m_fromExplicit m = "" /\ serializeMessage m = Ok "R700000000000000000;ns;;ev;0;0;b".
Proof. cbn. split; [intros [H _]; discriminate|]. split; reflexivity. Qed.

(** A token with the mark inserted (instead of added) would be recognised. *)
Example C09_what_would_work :
  m_fromStackExchange (DeserializeMessage knownErrors0 TextMessage "1!700000000000000000;ns;;ev;0;0;b" false false) = true /\
  m_wait (DeserializeMessage knownErrors0 TextMessage "1!700000000000000000;ns;;ev;0;0;b" false false) = "1700000000000000000".
Proof. split; reflexivity. Qed.
@*)

(*@prop C10. An empty reply decodes to success with exactly its token. @*)
Lemma l_C10_empty_reply : forall ks typ allow w, good_token w ->
  let m := DeserializeMessage ks typ (genEmptyReplyToWait w) allow false in
  m_wait m = w /\ m_err m = None /\ m_isInvalid m = false /\ m_isNoOp m = false /\
  m_namespace m = "" /\ m_room m = "" /\ m_event m = "" /\ m_body m = "" /\
  m_isNative m = false /\ m_fromStackExchange m = false /\ m_fromExplicit m = "".
Proof.
  intros ks typ allow w Hw m. unfold m. rewrite empty_reply_frame.
  rewrite deserialize_message_frame by (auto; reflexivity). cbn.
  rewrite andb_false_r. auto 15.
Qed.

(*@prop C10. In particular for every generated token. @*)
Lemma l_C10_empty_reply_generated : forall ks typ allow client t,
  let m := DeserializeMessage ks typ (genEmptyReplyToWait (genWait client t)) allow false in
  m_wait m = genWait client t /\ m_err m = None /\ m_isInvalid m = false.
Proof.
  intros ks typ allow client t m. unfold m.
  destruct (l_C10_empty_reply ks typ allow (genWait client t) (genWait_good client t)) as (H1 & H2 & H3 & _).
  auto.
Qed.
