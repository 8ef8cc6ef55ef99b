(** * CodecProofs.v : lemmas about the wire format. *)
From Coq Require Import String Ascii List NArith ZArith Bool Lia.
From Coq Require Import DecimalString DecimalZ Decimal.
From Verif Require Import Go Errors Message Spec_Wire.
Import ListNotations.
Local Open Scope string_scope.

(** ** Strings *)
Lemma app_assoc_s : forall a b c : string, (a ++ b) ++ c = a ++ (b ++ c).
Proof. induction a; cbn; intros; [reflexivity|now rewrite IHa]. Qed.

Lemma app_nil_s : forall a : string, a ++ "" = a.
Proof. induction a; cbn; [reflexivity|now rewrite IHa]. Qed.

Lemma app_inv_s : forall a b c : string, a ++ b = a ++ c -> b = c.
Proof. induction a; cbn; intros b c H; [exact H|injection H; auto]. Qed.

Lemma count_app : forall c a b, count_char c (a ++ b) = count_char c a + count_char c b.
Proof. induction a; cbn; intros; [reflexivity|rewrite IHa; lia]. Qed.

Lemma prefix_iff : forall p s, String.prefix p s = true <-> exists r, s = p ++ r.
Proof.
  induction p as [|c p IH]; intros s; cbn.
  - split; [intros _; exists s; reflexivity|intros _; now destruct s].
  - destruct s as [|d s]; cbn.
    + split; [discriminate|intros [r Hr]; discriminate].
    + destruct (ascii_dec c d) as [->|Hne].
      * rewrite IH. split; intros [r Hr].
        -- exists r. now rewrite Hr.
        -- exists r. now injection Hr.
      * split; [discriminate|intros [r Hr]; injection Hr; intros; congruence].
Qed.

Lemma prefix_app : forall p r, String.prefix p (p ++ r) = true.
Proof. intros. apply prefix_iff. now exists r. Qed.

Lemma has_prefix_iff : forall s p, has_prefix s p = true <-> exists r, s = p ++ r.
Proof. intros. apply prefix_iff. Qed.

Lemma is_empty_true : forall s, is_empty s = true <-> s = "".
Proof. destruct s; cbn; split; congruence. Qed.

Lemma is_empty_false : forall s, is_empty s = false <-> s <> "".
Proof. destruct s; cbn; split; congruence. Qed.

(** ** Cut and split *)
Lemma cut_some : forall c s a b, cut c s = Some (a, b) -> s = a ++ String c b /\ count_char c a = 0.
Proof.
  induction s as [|d s IH]; cbn; intros a b H; [discriminate|].
  destruct (Ascii.eqb d c) eqn:E.
  - apply Ascii.eqb_eq in E. subst d. injection H as <- <-. split; reflexivity.
  - destruct (cut c s) as [[a' b']|]; [|discriminate].
    injection H as <- <-. destruct (IH a' b' eq_refl) as [-> H2].
    split; [reflexivity|]. cbn. now rewrite E.
Qed.

Lemma cut_none : forall c s, cut c s = None <-> count_char c s = 0.
Proof.
  induction s as [|d s IH]; cbn; [tauto|].
  destruct (Ascii.eqb d c) eqn:E; cbn.
  - split; [discriminate|lia].
  - destruct (cut c s) as [[a b]|]; split; intros H; try discriminate; try tauto.
    apply IH in H. discriminate.
Qed.

Lemma cut_app : forall c a b, count_char c a = 0 -> cut c (a ++ String c b) = Some (a, b).
Proof.
  induction a as [|d a IH]; cbn; intros b H.
  - now rewrite Ascii.eqb_refl.
  - destruct (Ascii.eqb d c) eqn:E; cbn in H; [lia|].
    now rewrite IH.
Qed.

Lemma splitN_step : forall n c a b, count_char c a = 0 ->
  splitN (S (S n)) c (a ++ String c b) = a :: splitN (S n) c b.
Proof. intros. cbn [splitN]. now rewrite cut_app. Qed.

Lemma splitN_sep : forall n a b, no_semicolon a ->
  splitN (S (S n)) sep (a ++ ";" ++ b) = a :: splitN (S n) sep b.
Proof. intros. now apply splitN_step. Qed.

Lemma splitN_nil : forall n c s, n <> 0 -> splitN n c s <> [].
Proof.
  intros [|[|n]] c s Hn; cbn [splitN]; [easy|easy|].
  destruct (cut c s) as [[a b]|]; easy.
Qed.

(** Splitting loses nothing. *)
Lemma splitN_join : forall n s, n <> 0 -> join ";" (splitN n ";" s) = s.
Proof.
  induction n as [|n IH]; intros s Hn; [easy|].
  destruct n as [|n]; [reflexivity|].
  cbn [splitN]. destruct (cut ";" s) as [[a b]|] eqn:E; [|reflexivity].
  apply cut_some in E as [-> Ha].
  specialize (IH b ltac:(easy)).
  pose proof (splitN_nil (S n) ";" b ltac:(easy)) as Hne.
  cbn [splitN] in IH, Hne. unfold join in *.
  set (l := match n with | 0 => [b] | S _ => _ end) in *.
  destruct l as [|x l]; [easy|]. cbn [String.concat].
  cbn [String.concat] in IH. rewrite IH. reflexivity.
Qed.

Lemma splitN_length : forall n c s, n <> 0 ->
  List.length (splitN n c s) = Nat.min n (S (count_char c s)).
Proof.
  induction n as [|n IH]; intros c s Hn; [easy|].
  destruct n as [|n]; [cbn; lia|].
  cbn [splitN]. destruct (cut c s) as [[a b]|] eqn:E.
  - apply cut_some in E as [-> Ha]. cbn [List.length].
    change (match n with | 0 => [b] | S _ => _ end) with (splitN (S n) c b).
    rewrite IH by easy. rewrite count_app, Ha. cbn [count_char].
    rewrite Ascii.eqb_refl. lia.
  - apply cut_none in E. rewrite E. cbn. lia.
Qed.

(** The seven fields of a frame. *)
Definition frame (w n r e x y b : string) : string := join ";" [w; n; r; e; x; y; b].

Lemma split_frame : forall w n r e x y b,
  no_semicolon w -> no_semicolon n -> no_semicolon r -> no_semicolon e ->
  no_semicolon x -> no_semicolon y ->
  splitN validMessageSepCount sep (frame w n r e x y b) = [w; n; r; e; x; y; b].
Proof.
  intros w n r e x y b Hw Hn Hr He Hx Hy.
  unfold frame, join, validMessageSepCount. cbn [String.concat].
  repeat (rewrite splitN_sep by assumption). reflexivity.
Qed.

Lemma frame_nonempty : forall w n r e x y b, is_empty (frame w n r e x y b) = false.
Proof. intros. unfold frame, join. cbn [String.concat]. destruct w; reflexivity. Qed.

(** ** Replacement *)
Lemma replace_skip : forall old new p s, replace_go old new (String.length p) (p ++ s) = replace_go old new 0 s.
Proof. induction p; cbn; intros; [now destruct s|apply IHp]. Qed.

Lemma escape_cons : forall c s,
  escape (String c s) = (if Ascii.eqb c ";" then messageFieldSeparatorReplacement else String c "") ++ escape s.
Proof.
  intros c s. unfold escape at 1. cbn [is_empty]. unfold replace_all. cbn [replace_go].
  assert (Hes : escape s = replace_go messageSeparator messageFieldSeparatorReplacement 0 s)
    by (destruct s; reflexivity).
  rewrite Hes. unfold messageSeparator. cbn [String.prefix].
  destruct (ascii_dec ";" c) as [<-|Hne].
  - rewrite Ascii.eqb_refl.
    replace (String.prefix "" s) with true by (destruct s; reflexivity).
    reflexivity.
  - destruct (Ascii.eqb c ";") eqn:E; [apply Ascii.eqb_eq in E; congruence|]. reflexivity.
Qed.

Lemma escape_no_semicolon : forall s, no_semicolon (escape s).
Proof.
  unfold no_semicolon. induction s as [|c s IH]; [reflexivity|].
  rewrite escape_cons, count_app, IH.
  destruct (Ascii.eqb c ";") eqn:E; [reflexivity|]. cbn. now rewrite E.
Qed.

Lemma escape_id : forall s, no_semicolon s -> escape s = s.
Proof.
  induction s as [|c s IH]; intros H; [reflexivity|].
  rewrite escape_cons. unfold no_semicolon in *. cbn in H.
  destruct (Ascii.eqb c ";") eqn:E; cbn in H; [lia|]. cbn. now rewrite IH.
Qed.

Definition R := messageFieldSeparatorReplacement.

Lemma unescape_match : forall s, unescape (R ++ s) = String ";" (unescape s).
Proof.
  intros s. unfold unescape. cbn [is_empty R messageFieldSeparatorReplacement String.append].
  unfold replace_all.
  change (String "@" (String "%" ?t)) with (String "@" (String "%" t)).
  assert (Hs : (if is_empty s then s else replace_go messageFieldSeparatorReplacement messageSeparator 0 s)
               = replace_go messageFieldSeparatorReplacement messageSeparator 0 s) by (destruct s; reflexivity).
  rewrite Hs.
  set (body := String "%" _).
  cbn [replace_go].
  replace (String.prefix messageFieldSeparatorReplacement (String "@" body)) with true.
  - reflexivity.
  - symmetry. unfold body. apply (prefix_app messageFieldSeparatorReplacement s).
Qed.

Lemma unescape_skip : forall c s, String.prefix R (String c s) = false ->
  unescape (String c s) = String c (unescape s).
Proof.
  intros c s H. unfold unescape at 1. cbn [is_empty]. unfold replace_all. cbn [replace_go].
  unfold R in H. rewrite H.
  f_equal. unfold unescape. destruct s; reflexivity.
Qed.

(** Where the replacement text shows up in an escaped string that does not
    start with a separator. *)
Definition bad_here (s : string) : bool :=
  String.prefix "@%!semicolon@%!" s || String.prefix "@%!semicolon;" s.

(** One byte of the comparison of an escaped string with the replacement text. *)
Lemma prefix_cons_esc : forall d p c s,
  Ascii.eqb c ";" = false ->
  String.prefix (String d p) (escape (String c s)) =
  if ascii_dec d c then String.prefix p (escape s) else false.
Proof.
  intros d p c s Hc. rewrite escape_cons, Hc. cbn. reflexivity.
Qed.

Lemma prefix_semi_esc : forall p s,
  String.prefix p (escape (String ";" s)) = String.prefix p (R ++ escape s).
Proof. intros. now rewrite escape_cons. Qed.

Lemma prefix_le_R : forall p s, String.length p <= 15 ->
  String.prefix p (R ++ s) = String.prefix p R.
Proof.
  intros p s. change 15 with (String.length R). generalize R. intros q.
  revert q; induction p as [|d p IH]; intros q H; [destruct q; destruct s; reflexivity|].
  destruct q as [|c q]; cbn in H; [lia|]. cbn.
  destruct (ascii_dec d c); [|reflexivity]. apply IH. lia.
Qed.

(** Matching a text none of whose (non empty) suffixes starts the replacement. *)
Fixpoint apart (p : string) : bool :=
  match p with
  | EmptyString => true
  | String d p' => negb (Ascii.eqb d ";") && negb (String.prefix p R) && apart p'
  end.

Lemma prefix_apart : forall p s, String.length p <= 15 -> apart p = true ->
  String.prefix p (escape s) = String.prefix p s.
Proof.
  induction p as [|d p IH]; intros s Hl Ha; [now destruct (escape s), s|].
  cbn [apart] in Ha. apply andb_true_iff in Ha as [Ha Hp].
  apply andb_true_iff in Ha as [Hd HR].
  apply negb_true_iff in Hd, HR. cbn in Hl.
  destruct s as [|c s]; [reflexivity|].
  destruct (Ascii.eqb c ";") eqn:E.
  - apply Ascii.eqb_eq in E; subst c. rewrite prefix_semi_esc, prefix_le_R by (cbn; lia).
    rewrite HR. cbn. destruct (ascii_dec d ";"); [subst; discriminate|reflexivity].
  - rewrite prefix_cons_esc by exact E. cbn.
    destruct (ascii_dec d c); [|reflexivity]. apply IH; [lia|exact Hp].
Qed.

Lemma bad_step : forall d p b1 b2,
  String.length p < 15 -> Ascii.eqb d ";" = false -> String.prefix (String d p) R = false ->
  (forall s, String.prefix p (escape s) = String.prefix b1 s || String.prefix b2 s) ->
  forall s, String.prefix (String d p) (escape s)
            = String.prefix (String d b1) s || String.prefix (String d b2) s.
Proof.
  intros d p b1 b2 Hl Hd HR IH s.
  destruct s as [|c s]; [reflexivity|].
  destruct (Ascii.eqb c ";") eqn:E.
  - apply Ascii.eqb_eq in E; subst c. rewrite prefix_semi_esc, prefix_le_R by (cbn; lia).
    rewrite HR. cbn. destruct (ascii_dec d ";"); [subst; discriminate|reflexivity].
  - rewrite prefix_cons_esc by exact E. cbn.
    destruct (ascii_dec d c); [apply IH|reflexivity].
Qed.

Lemma bad_border : forall s, String.prefix "@%!" (escape s)
  = String.prefix "@%!" s || String.prefix ";" s.
Proof.
  intros [|c s]; [reflexivity|].
  destruct (Ascii.eqb c ";") eqn:E.
  - apply Ascii.eqb_eq in E; subst c. rewrite prefix_semi_esc, prefix_le_R by (cbn; lia).
    cbn. now destruct s.
  - rewrite prefix_cons_esc by exact E. rewrite prefix_apart by (cbn; auto; lia).
    cbn [String.prefix].
    destruct (ascii_dec ";" c); [subst; discriminate|].
    destruct (ascii_dec "@" c); now rewrite orb_false_r.
Qed.

Lemma bad_here_tail : forall s, String.prefix "%!semicolon@%!" (escape s)
  = String.prefix "%!semicolon@%!" s || String.prefix "%!semicolon;" s.
Proof.
  repeat (apply bad_step; [cbn; lia|reflexivity|reflexivity|]).
  exact bad_border.
Qed.

Lemma bad_here_spec : forall c s, Ascii.eqb c ";" = false ->
  String.prefix R (escape (String c s)) = bad_here (String c s).
Proof.
  intros c s Hc. unfold bad_here, R, messageFieldSeparatorReplacement.
  rewrite prefix_cons_esc by exact Hc. cbn [String.prefix].
  destruct (ascii_dec "@" c); [apply bad_here_tail|reflexivity].
Qed.

Lemma bad_here_semi : forall s, bad_here (String ";" s) = false.
Proof. reflexivity. Qed.

(** No bad position anywhere, as a recursion. *)
Fixpoint safe_rec (s : string) : bool :=
  match s with
  | EmptyString => true
  | String _ s' => negb (bad_here s) && safe_rec s'
  end.

Lemma contains_cons : forall sub c s, sub <> "" ->
  (contains sub (String c s) <-> String.prefix sub (String c s) = true \/ contains sub s).
Proof.
  intros sub c s Hne. unfold contains. split.
  - intros (a & b & H). destruct a as [|d a].
    + left. apply prefix_iff. exists b. exact H.
    + right. injection H as -> ->. now exists a, b.
  - intros [H|(a & b & ->)].
    + apply prefix_iff in H as [r H]. exists "", r. exact H.
    + exists (String c a), b. reflexivity.
Qed.

Lemma contains_nil : forall sub, sub <> "" -> ~ contains sub "".
Proof. intros [|c sub] Hne (a & b & H); [easy|]. destruct a; discriminate. Qed.

Lemma safe_rec_spec : forall s, safe_rec s = true <-> safe_name s.
Proof.
  unfold safe_name. induction s as [|c s IH].
  - split; [intros _; split; apply contains_nil; easy|reflexivity].
  - cbn [safe_rec]. rewrite andb_true_iff, negb_true_iff. unfold bad_here.
    rewrite orb_false_iff, IH.
    rewrite !(contains_cons _ c s) by easy.
    rewrite <- !not_true_iff_false. tauto.
Qed.

(** Exactly the safe names survive. *)
Lemma unescape_escape_iff : forall s, unescape (escape s) = s <-> safe_name s.
Proof.
  intros s. rewrite <- safe_rec_spec. induction s as [|c s IH]; [easy|].
  cbn [safe_rec]. destruct (Ascii.eqb c ";") eqn:E.
  - apply Ascii.eqb_eq in E; subst c. rewrite bad_here_semi. cbn [negb andb].
    rewrite escape_cons. cbn [Ascii.eqb Bool.eqb].
    change (unescape (R ++ escape s) = String ";" s <-> safe_rec s = true).
    rewrite unescape_match, <- IH. split; [intros H; now injection H|now intros ->].
  - rewrite <- (bad_here_spec c s E).
    destruct (String.prefix R (escape (String c s))) eqn:P; cbn [negb andb].
    + split; [|discriminate]. intros H. exfalso.
      apply prefix_iff in P as [r Hr]. rewrite Hr, unescape_match in H.
      injection H as <- _. discriminate.
    + rewrite <- IH. rewrite escape_cons, E in P |- *. cbn [String.append] in P |- *.
      rewrite unescape_skip by exact P.
      split; [intros H; now injection H|now intros ->].
Qed.

Lemma unescape_escape : forall s, safe_name s -> unescape (escape s) = s.
Proof. intros s. apply unescape_escape_iff. Qed.

(** ** Errors *)
Lemma resolveError_resolves : forall ks t, resolves ks t (resolveError ks t).
Proof.
  intros ks t. induction ks as [|k ks IH]; cbn [resolveError].
  - apply resolves_new. intros k' [].
  - destruct (known_matches t k) eqn:E.
    + eapply resolves_known with (pre := []) (post := ks); [reflexivity|intros ? []|exact E].
    + inversion IH as [pre k0 post Hk Hpre Hm He | Hnone He].
      * rewrite Hk. eapply resolves_known with (pre := k :: pre) (post := post).
        -- reflexivity.
        -- intros k' [<-|Hin]; auto.
        -- exact Hm.
      * apply resolves_new. intros k' [<-|Hin]; auto.
Qed.

Lemma resolves_unique : forall ks t e, resolves ks t e -> e = resolveError ks t.
Proof.
  intros ks t e H. induction ks as [|k ks IH]; cbn [resolveError].
  - inversion H as [pre k0 post Hk Hpre Hm He | Hnone He]; [destruct pre; discriminate|reflexivity].
  - inversion H as [pre k0 post Hk Hpre Hm He | Hnone He].
    + destruct pre as [|p pre]; injection Hk as <- ->.
      * now rewrite Hm.
      * rewrite (Hpre k (or_introl eq_refl)). subst e. apply IH.
        eapply resolves_known; eauto. intros k' Hin. apply Hpre. now right.
    + rewrite (Hnone k (or_introl eq_refl)). subst e. apply IH.
      apply resolves_new. intros k' Hin. apply Hnone. now right.
Qed.

Lemma err_text_panic_iff : forall e, (exists w, err_text e = Panic w) <-> nil_close_error e.
Proof.
  fix IH 1. intros e.
  destruct e as [| | | | | | |i t|t|b|c [e|]| | | | |o t b].
  all: try (cbn; split; [intros [w Hw]; discriminate|intros Hn; inversion Hn]).
  - cbn. specialize (IH e). destruct (err_text e) as [t|w].
    + split; [intros [w Hw]; discriminate|].
      intros Hn. inversion Hn as [|c' e' Hn']; subst.
      apply IH in Hn' as [w Hw]. discriminate.
    + split; [|now exists w]. intros _. apply nce_inner. apply IH. now exists w.
  - cbn. split; [intros _; constructor|intros _; eauto].
Qed.

(** ** Serialization *)
Lemma serializeOutput_cases : forall w n r e body err noop b,
  serializeOutput w n r e body err noop = Ok b ->
  exists x payload, b = frame w n r e x (if noop then "1" else "0") payload /\
    ((err = None /\ x = "0" /\ payload = body) \/
     (exists rb, err = Some (EReply rb) /\ x = "0" /\ payload = rb) \/
     (exists ge t, err = Some ge /\ (forall rb, ge <> EReply rb) /\ err_text ge = Ok t /\ x = "1" /\ payload = t)).
Proof.
  intros w n r e body err noop b H. unfold serializeOutput in H.
  destruct err as [ge|].
  - destruct (is_reply ge) as [rb|] eqn:Hr.
    + destruct ge; try discriminate. injection Hr as <-. injection H as <-.
      exists "0", body0. split; [reflexivity|]. right. left. eauto.
    + destruct (err_text ge) as [t|] eqn:Ht; [|discriminate]. injection H as <-.
      exists "1", t. split; [reflexivity|]. right. right. exists ge, t.
      repeat split; auto. intros rb ->. discriminate.
  - injection H as <-. exists "0", body. split; [reflexivity|]. now left.
Qed.

Lemma serializeMessage_frame : forall m b,
  ~ sent_raw m -> serializeMessage m = Ok b ->
  exists w x payload,
    b = frame w (escape (m_namespace m)) (escape (m_room m)) (escape (m_event m)) x
              (if m_isNoOp m then "1" else "0") payload /\
    w = (if is_empty (m_fromExplicit m) then m_wait m else m_fromExplicit m) /\
    ((m_err m = None /\ x = "0" /\ payload = m_body m) \/
     (exists rb, m_err m = Some (EReply rb) /\ x = "0" /\ payload = rb) \/
     (exists ge t, m_err m = Some ge /\ (forall rb, ge <> EReply rb) /\ err_text ge = Ok t /\ x = "1" /\ payload = t)).
Proof.
  intros m b Hraw H. unfold serializeMessage in H.
  destruct (m_isNative m && is_empty (m_wait m)) eqn:E.
  { exfalso. apply Hraw. apply andb_true_iff in E as [E1 E2].
    apply is_empty_true in E2. now split. }
  destruct (is_empty (m_fromExplicit m)) eqn:Ef; cbn [negb] in H.
  - apply serializeOutput_cases in H as (x & p & -> & Hc). exists (m_wait m), x, p. auto.
  - destruct (is_empty (m_wait m)) eqn:Ew; cbn [negb] in H; [|discriminate].
    apply serializeOutput_cases in H as (x & p & -> & Hc). exists (m_fromExplicit m), x, p. auto.
Qed.

Lemma serializeMessage_panic_iff : forall m,
  (exists w, serializeMessage m = Panic w) <->
  ~ sent_raw m /\
  ((m_fromExplicit m <> "" /\ m_wait m <> "") \/
   (exists e, m_err m = Some e /\ nil_close_error e)).
Proof.
  intros m. unfold serializeMessage, sent_raw.
  assert (Hout : forall w n r ev, (exists p, serializeOutput w n r ev (m_body m) (m_err m) (m_isNoOp m) = Panic p)
          <-> exists e, m_err m = Some e /\ nil_close_error e).
  { intros w n r ev. unfold serializeOutput. destruct (m_err m) as [ge|].
    - destruct (is_reply ge) as [rb|] eqn:Hr.
      + split; [intros [p Hp]; discriminate|]. intros (e & He & Hn). injection He as <-.
        destruct ge; try discriminate. inversion Hn.
      + pose proof (err_text_panic_iff ge) as Hp.
        destruct (err_text ge) as [t|p].
        * split; [intros [q Hq]; discriminate|]. intros (e & He & Hn). injection He as <-.
          apply Hp in Hn as [q Hq]. discriminate.
        * split; [|eauto]. intros _. exists ge. split; [reflexivity|]. apply Hp. eauto.
    - split; [intros [p Hp]; discriminate|intros (e & He & _); discriminate]. }
  destruct (m_isNative m) eqn:En, (is_empty (m_wait m)) eqn:Ew; cbn [andb].
  1: { apply is_empty_true in Ew. split; [intros [p Hp]; discriminate|]. intros [H _]. tauto. }
  all: destruct (is_empty (m_fromExplicit m)) eqn:Ef; cbn [negb];
    first [apply is_empty_true in Ew|apply is_empty_false in Ew];
    first [apply is_empty_true in Ef|apply is_empty_false in Ef].
  all: try rewrite Hout.
  all: try (split; [intros H; split; [intros []; congruence|auto]|intros [_ [[H1 H2]|H]]; congruence || assumption]).
  all: (split; [intros _; split; [intros []; congruence|left; split; congruence]|eauto]).
Qed.

(** ** Deserialization of frames *)
Lemma reserved_no : forall w, ~ reserved_token w ->
  isServerConnID w = false /\
  (Nat.ltb 2 (String.length w) &&
    match second_byte w with Some c => Ascii.eqb c waitComesFromStackExchange | None => false end) = false.
Proof.
  intros w H. split.
  - unfold isServerConnID. destruct (has_prefix w "neffos(0x") eqn:E; [|reflexivity].
    exfalso. apply H. left. now apply has_prefix_iff.
  - destruct w as [|c [|d [|e w]]]; try reflexivity.
    change (Nat.ltb 2 (String.length (String c (String d (String e w))))) with true.
    cbn [andb second_byte].
    destruct (Ascii.eqb d waitComesFromStackExchange) eqn:E; [|reflexivity].
    exfalso. apply H. right. apply Ascii.eqb_eq in E. subst d. now exists c, e, w.
Qed.

Lemma bool01_no_semicolon : forall b : bool, no_semicolon (if b then "1" else "0").
Proof. intros []; reflexivity. Qed.

Lemma deserialize_frame : forall ks w n r e x y p allow,
  no_semicolon w -> no_semicolon n -> no_semicolon r -> no_semicolon e ->
  no_semicolon x -> no_semicolon y ->
  deserializeInput ks (frame w n r e x y p) allow false =
  {| i_wait := w; i_namespace := n; i_room := r; i_event := e;
     i_body := if String.eqb x "1" then "" else p;
     i_isNoOp := String.eqb y "1"; i_isInvalid := false;
     i_err := if is_empty p then None
              else if String.eqb x "1" then Some (resolveError ks p) else None |}.
Proof.
  intros. unfold deserializeInput. rewrite frame_nonempty. rewrite split_frame by assumption.
  unfold trueByte. destruct p as [|c p]; cbn [is_empty].
  - now destruct (String.eqb x "1").
  - now destruct (String.eqb x "1").
Qed.

Lemma deserialize_message_frame : forall ks typ w n r e x y p allow,
  good_token w -> no_semicolon n -> no_semicolon r -> no_semicolon e ->
  no_semicolon x -> no_semicolon y ->
  DeserializeMessage ks typ (frame w n r e x y p) allow false =
  {| m_wait := w; m_namespace := unescape n; m_room := unescape r; m_event := unescape e;
     m_body := if String.eqb x "1" then "" else p;
     m_err := if is_empty p then None
              else if String.eqb x "1" then Some (resolveError ks p) else None;
     m_isError := negb (is_empty p) && String.eqb x "1";
     m_isNoOp := String.eqb y "1"; m_isInvalid := false;
     m_from := ""; m_fromExplicit := ""; m_fromStackExchange := false; m_to := "";
     m_isForced := false; m_isLocal := false;
     m_isNative := allow && String.eqb e OnNativeMessage;
     m_locked := false;
     m_setBinary := match typ with BinaryMessage => true | TextMessage => false end |}.
Proof.
  intros ks typ w n r e x y p allow [Hw Hres] Hn Hr He Hx Hy.
  unfold DeserializeMessage. rewrite deserialize_frame by assumption.
  cbn [i_wait i_namespace i_room i_event i_body i_isNoOp i_isInvalid i_err].
  apply reserved_no in Hres as [-> H2].
  rewrite H2. f_equal. destruct (is_empty p), (String.eqb x "1"); reflexivity.
Qed.

(** What the receiver decodes from any message that was serialized without an
    explicit sender, names arbitrary. *)
Lemma deserialize_serialized : forall ks typ allow m b,
  ~ sent_raw m -> m_fromExplicit m = "" -> good_token (m_wait m) ->
  serializeMessage m = Ok b ->
  exists x p, 
  b = frame (m_wait m) (escape (m_namespace m)) (escape (m_room m)) (escape (m_event m)) x
              (if m_isNoOp m then "1" else "0") p /\
  (x = "0" \/ x = "1") /\
  DeserializeMessage ks typ b allow false =
  {| m_wait := m_wait m; m_namespace := unescape (escape (m_namespace m));
     m_room := unescape (escape (m_room m)); m_event := unescape (escape (m_event m));
     m_body := if String.eqb x "1" then "" else p;
     m_err := if is_empty p then None
              else if String.eqb x "1" then Some (resolveError ks p) else None;
     m_isError := negb (is_empty p) && String.eqb x "1";
     m_isNoOp := m_isNoOp m; m_isInvalid := false;
     m_from := ""; m_fromExplicit := ""; m_fromStackExchange := false; m_to := "";
     m_isForced := false; m_isLocal := false;
     m_isNative := allow && String.eqb (escape (m_event m)) OnNativeMessage;
     m_locked := false;
     m_setBinary := match typ with BinaryMessage => true | TextMessage => false end |} /\
    ((m_err m = None /\ x = "0" /\ p = m_body m) \/
     (exists rb, m_err m = Some (EReply rb) /\ x = "0" /\ p = rb) \/
     (exists ge t, m_err m = Some ge /\ (forall rb, ge <> EReply rb) /\ err_text ge = Ok t /\ x = "1" /\ p = t)).
Proof.
  intros ks typ allow m b Hraw Hfe Hw Hs.
  apply serializeMessage_frame in Hs as (w & x & p & -> & Hweq & Hc); [|exact Hraw].
  rewrite Hfe in Hweq. cbn in Hweq. subst w.
  assert (Hx : x = "0" \/ x = "1").
  { destruct Hc as [(_ & -> & _)|[(rb & _ & -> & _)|(ge & t & _ & _ & _ & -> & _)]]; auto. }
  exists x, p. split; [reflexivity|]. split; [exact Hx|]. split; [|exact Hc].
  rewrite deserialize_message_frame; auto using escape_no_semicolon, bool01_no_semicolon.
  - f_equal. now destruct (m_isNoOp m).
  - destruct Hx as [-> | ->]; reflexivity.
Qed.

(** ** Numbers and tokens *)
Definition is_digit (c : ascii) : bool :=
  existsb (Ascii.eqb c) ["0"; "1"; "2"; "3"; "4"; "5"; "6"; "7"; "8"; "9"]%char.

Fixpoint all_digits (s : string) : bool :=
  match s with EmptyString => true | String c s' => is_digit c && all_digits s' end.

Lemma nilempty_digits : forall d, all_digits (NilEmpty.string_of_uint d) = true.
Proof. induction d; cbn; auto. Qed.

Lemma nilzero_digits : forall d, all_digits (NilZero.string_of_uint d) = true /\ NilZero.string_of_uint d <> "".
Proof. intros [|d|d|d|d|d|d|d|d|d|d]; split; try discriminate; cbn; auto using nilempty_digits. Qed.

Lemma format_int_shape : forall z, exists s, all_digits s = true /\ s <> "" /\
  (format_int z = s \/ format_int z = String "-" s).
Proof.
  intros z. unfold format_int. destruct (Z.to_int z) as [d|d]; cbn;
    destruct (nilzero_digits d) as [H1 H2]; eauto.
Qed.

Lemma format_int_inj : forall a b, format_int a = format_int b -> a = b.
Proof.
  intros a b H. unfold format_int in H.
  assert (Hc : forall z, NilZero.int_of_string (NilZero.string_of_int (Z.to_int z)) = Some (Z.to_int z)).
  { intros z. apply NilZero.isi.
    - unfold Z.to_int. destruct z; cbn; try discriminate; intros Hz; injection Hz;
        apply DecimalPos.Unsigned.to_uint_nonnil.
    - unfold Z.to_int. destruct z; cbn; try discriminate; intros Hz; injection Hz;
        apply DecimalPos.Unsigned.to_uint_nonnil. }
  pose proof (Hc a) as Ha. rewrite H, Hc in Ha. injection Ha as Ha.
  rewrite <- (DecimalZ.of_to a), <- (DecimalZ.of_to b). now rewrite Ha.
Qed.

Lemma all_digits_count : forall c s, is_digit c = false -> all_digits s = true -> count_char c s = 0.
Proof.
  intros c s Hc. induction s as [|d s IH]; cbn [all_digits count_char]; [reflexivity|].
  intros H. apply andb_true_iff in H as [Hd Hs].
  destruct (Ascii.eqb d c) eqn:E; [apply Ascii.eqb_eq in E; congruence|]. now rewrite IH.
Qed.

Lemma is_digit_cases : forall c, is_digit c = true ->
  c = "0"%char \/ c = "1"%char \/ c = "2"%char \/ c = "3"%char \/ c = "4"%char \/
  c = "5"%char \/ c = "6"%char \/ c = "7"%char \/ c = "8"%char \/ c = "9"%char.
Proof.
  intros c H. unfold is_digit in H. cbn [existsb] in H.
  repeat (apply orb_true_iff in H as [H|H]; [apply Ascii.eqb_eq in H; tauto|]). discriminate.
Qed.

Lemma genWait_client : forall t, genWait true t = String "$" (format_int t).
Proof. reflexivity. Qed.

Lemma genWait_server : forall t, genWait false t = format_int t.
Proof. reflexivity. Qed.

Lemma genWait_good : forall client t, good_token (genWait client t).
Proof.
  intros client t.
  destruct (format_int_shape t) as (s & Hd & Hne & Hf).
  assert (Hs : no_semicolon s) by (apply all_digits_count; auto).
  destruct s as [|c s]; [easy|]. cbn [all_digits] in Hd. apply andb_true_iff in Hd as [Hc Hd].
  split.
  - unfold no_semicolon in *. destruct client; [rewrite genWait_client|rewrite genWait_server];
      destruct Hf as [-> | ->]; exact Hs.
  - intros Hres.
    apply is_digit_cases in Hc.
    destruct client; [rewrite genWait_client in Hres|rewrite genWait_server in Hres];
    destruct Hf as [Hf|Hf]; rewrite Hf in Hres; destruct Hres as [[r Hr]|(a & d & r & Hr)]; injection Hr; intros; subst;
    repeat (destruct Hc as [Hc|Hc]; try discriminate); try discriminate.
Qed.

Lemma genWait_sides : forall t1 t2, genWait true t1 <> genWait false t2.
Proof.
  intros t1 t2 H. change (String "$" (format_int t1) = format_int t2) in H.
  destruct (format_int_shape t2) as (s & Hd & Hne & Hf).
  destruct Hf as [Hf|Hf]; rewrite Hf in H; destruct s as [|c s]; try easy.
  - injection H as <- _. discriminate.
Qed.

Lemma genWait_inj : forall client t1 t2, genWait client t1 = genWait client t2 -> t1 = t2.
Proof.
  intros [] t1 t2 H.
  - change (String "$" (format_int t1) = String "$" (format_int t2)) in H.
    injection H. apply format_int_inj.
  - now apply format_int_inj.
Qed.

(** ** The stack exchange token *)
Lemma stack_token_not_marked : forall t,
  let w := genWaitStackExchange (genWait false t) in good_token w.
Proof.
  intros t w. unfold w. rewrite genWait_server.
  destruct (format_int_shape t) as (s & Hd & Hne & Hf).
  destruct s as [|c s]; [easy|]. cbn [all_digits] in Hd. apply andb_true_iff in Hd as [Hc Hd].
  assert (Hs : no_semicolon s) by (apply all_digits_count; auto).
  pose proof (is_digit_cases c Hc) as Hcs.
  destruct Hf as [-> | ->].
  - destruct s as [|d s]; [split; [reflexivity|]; intros [[r Hr]|(a & b & r & Hr)]; discriminate|].
    cbn [all_digits] in Hd. apply andb_true_iff in Hd as [Hdd Hd]. pose proof (is_digit_cases d Hdd) as Hds.
    split.
    + unfold no_semicolon in *. repeat (destruct Hcs as [-> |Hcs]; [exact Hs|]). subst c. exact Hs.
    + intros [[r Hr]|(a & b & r & Hr)].
      * repeat (destruct Hcs as [-> |Hcs]; [discriminate|]). subst c; discriminate.
      * assert (d = "!"%char).
        { repeat (destruct Hcs as [-> |Hcs]; [now injection Hr|]). subst c; now injection Hr. }
        subst d. discriminate.
  - split.
    + unfold no_semicolon in *. cbn. 
      repeat (destruct Hcs as [-> |Hcs]; [exact Hs|]). subst c. exact Hs.
    + intros [[r Hr]|(a & b & r & Hr)].
      * discriminate.
      * cbn in Hr. injection Hr as _ Hr _. subst c. discriminate.
Qed.

(** ** Empty replies *)
Lemma empty_reply_frame : forall w, genEmptyReplyToWait w = frame w "" "" "" "" "" "".
Proof. reflexivity. Qed.
