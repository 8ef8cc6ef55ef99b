(** * HttpProofs.v *)
From Coq Require Import String Ascii ZArith Lia.
From stdpp Require Import gmap strings list.
From Verif Require Import Go Errors Http Spec_Http.

(*@file Prop_Http.v
From Coq Require Import String Ascii ZArith.
From stdpp Require Import gmap strings list.
From Verif Require Import Go Errors Http Spec_Http. @*)

Lemma upper_dash c : Ascii.eqb (to_upper c) "-" = Ascii.eqb c "-".
Proof. destruct c as [[] [] [] [] [] [] [] []]; reflexivity. Qed.
Lemma lower_dash c : Ascii.eqb (to_lower c) "-" = Ascii.eqb c "-".
Proof. destruct c as [[] [] [] [] [] [] [] []]; reflexivity. Qed.
Lemma upper_idem c : to_upper (to_upper c) = to_upper c.
Proof. destruct c as [[] [] [] [] [] [] [] []]; reflexivity. Qed.
Lemma lower_idem c : to_lower (to_lower c) = to_lower c.
Proof. destruct c as [[] [] [] [] [] [] [] []]; reflexivity. Qed.
Lemma lower_upper c : to_lower (to_upper c) = to_lower c.
Proof. destruct c as [[] [] [] [] [] [] [] []]; reflexivity. Qed.
Lemma upper_lower c : to_upper (to_lower c) = to_upper c.
Proof. destruct c as [[] [] [] [] [] [] [] []]; reflexivity. Qed.
Lemma upper_valid c : valid_header_byte (to_upper c) = valid_header_byte c.
Proof. destruct c as [[] [] [] [] [] [] [] []]; reflexivity. Qed.
Lemma lower_valid c : valid_header_byte (to_lower c) = valid_header_byte c.
Proof. destruct c as [[] [] [] [] [] [] [] []]; reflexivity. Qed.

Lemma canon_length s : forall u, String.length (canon_go u s) = String.length s.
Proof. induction s as [|c s IH]; intros u; cbn; [done|]. by rewrite IH. Qed.
Lemma Canonical_length s : String.length (CanonicalHeaderKey s) = String.length s.
Proof. unfold CanonicalHeaderKey. destruct (all_valid s); [apply canon_length|done]. Qed.
Lemma canon_idem s : forall u, canon_go u (canon_go u s) = canon_go u s.
Proof.
  induction s as [|c s IH]; intros u; cbn; [done|]. f_equal.
  - destruct u; [apply upper_idem|apply lower_idem].
  - replace (Ascii.eqb (if u then to_upper c else to_lower c) "-") with (Ascii.eqb c "-"); [apply IH|].
    destruct u; [by rewrite upper_dash|by rewrite lower_dash].
Qed.
Lemma canon_valid s : forall u, all_valid (canon_go u s) = all_valid s.
Proof.
  induction s as [|c s IH]; intros u; cbn; [done|]. rewrite IH. f_equal.
  destruct u; [apply upper_valid|apply lower_valid].
Qed.
Lemma all_valid_app a b : all_valid (a ++ b) = all_valid a && all_valid b.
Proof. induction a as [|c a IH]; [done|]. change (String c a ++ b)%string with (String c (a ++ b)). cbn. rewrite IH. apply andb_assoc. Qed.

(* canonical tail after a prefix that ends with a dash *)
Lemma canon_tail p : forall u k h, canon_go u k = (p ++ "-" ++ h)%string -> canon_go true h = h.
Proof.
  induction p as [|c p IH]; intros u k h Hk.
  - change ("" ++ "-" ++ h)%string with (String "-" h) in Hk. destruct k as [|d k]; [discriminate|].
    cbn in Hk. injection Hk as Hd Hk. 
    assert (Hdash : Ascii.eqb d "-" = true).
    { destruct u; [rewrite <- upper_dash|rewrite <- lower_dash]; rewrite Hd; reflexivity. }
    rewrite Hdash in Hk. rewrite <- Hk. apply canon_idem.
  - change (String c p ++ "-" ++ h)%string with (String c (p ++ "-" ++ h)) in Hk.
    destruct k as [|d k]; [discriminate|]. cbn in Hk. injection Hk as _ Hk. by eapply IH.
Qed.

Lemma prefix_split : URLParamAsHeaderPrefix = ("X-Websocket-Header" ++ "-")%string.
Proof. reflexivity. Qed.
Lemma Canonical_tail k h : CanonicalHeaderKey k = ("X-Websocket-Header-" ++ h)%string -> CanonicalHeaderKey h = h.
Proof.
  unfold CanonicalHeaderKey at 1. destruct (all_valid k) eqn:Hv; intros Hk.
  - assert (Hh : all_valid h = true).
    { rewrite <- (canon_valid k true), Hk in Hv. rewrite all_valid_app in Hv. by apply andb_true_iff in Hv as [_ Hv]. }
    unfold CanonicalHeaderKey. rewrite Hh. apply (canon_tail "X-Websocket-Header" true k). rewrite Hk. reflexivity.
  - unfold CanonicalHeaderKey. rewrite Hk in Hv. rewrite all_valid_app in Hv.
    destruct (all_valid h) eqn:Hh; [|done]. change (all_valid "X-Websocket-Header-" && true = false) in Hv. discriminate Hv.
Qed.

Lemma add_all_some k vs : CanonicalHeaderKey k = k -> forall m, exists m', add_all (Some m) k vs = Ok (Some m') /\
  header_values (Some m') k = header_values (Some m) k ++ vs /\
  forall name, name <> k -> m' !! name = m !! name.
Proof.
  intros Hk. induction vs as [|v vs IH]; intros m; cbn.
  - exists m. split; [done|]. split; [by rewrite app_nil_r|done].
  - rewrite Hk. destruct (IH (<[k:=default [] (m !! k) ++ [v]]> m)) as (m' & H1 & H2 & H3).
    exists m'. split; [done|]. split.
    + cbn in H2. rewrite H2, lookup_insert. cbn. by rewrite <- app_assoc.
    + intros name Hn. rewrite H3 by done. by rewrite lookup_insert_ne.
Qed.

Lemma prefix_of s p : has_prefix s p = true <-> exists x, s = (p ++ x)%string.
Proof.
  unfold has_prefix. revert s. induction p as [|c p IH]; intros s; cbn.
  - split; [intros _; by exists s|]. intros _. by destruct s.
  - destruct s as [|d s]; cbn; [split; [done|intros [x Hx]; discriminate Hx]|].
    destruct (ascii_dec c d) as [->|Hne].
    + rewrite IH. split; intros [x Hx]; exists x.
      * rewrite Hx. reflexivity.
      * change (String d p ++ x)%string with (String d (p ++ x)) in Hx. by injection Hx.
    + split; [done|]. intros [x Hx]. change (String c p ++ x)%string with (String c (p ++ x)) in Hx. congruence.
Qed.
Lemma drop_prefix p x : Go.drop (String.length p) (p ++ x) = x.
Proof. induction p as [|c p IH]; [by destruct x|]. exact IH. Qed.
Lemma app_len a b : String.length (a ++ b) = String.length a + String.length b.
Proof. induction a as [|c a IH]; [done|]. change (String c a ++ b)%string with (String c (a ++ b)). cbn. by rewrite IH. Qed.
Lemma app_inj_l p x y : (p ++ x)%string = (p ++ y)%string -> x = y.
Proof. intros H. rewrite <- (drop_prefix p x), H. apply drop_prefix. Qed.

Lemma parse_param_spec k vs h : exists h', parse_param k vs h = Ok h' /\
  forall name, header_values h' name = header_values h name ++ (if bool_decide (asks_header k name) then vs else []).
Proof.
  unfold parse_param. change (String.length URLParamAsHeaderPrefix) with 19.
  destruct (String.length k <=? 19) eqn:El.
  { exists h. split; [done|]. intros name. rewrite bool_decide_eq_false_2, app_nil_r; [done|].
    intros [Ha Hn]. apply Nat.leb_le in El. rewrite <- Canonical_length, Ha, app_len in El.
    change (19 + String.length name <= 19) in El. destruct name; [done|]. cbn in El. lia. }
  destruct (has_prefix (CanonicalHeaderKey k) URLParamAsHeaderPrefix) eqn:Ep; cbn [negb].
  - apply prefix_of in Ep as [x Hx].
    assert (Hcx := Canonical_tail k x Hx).
    rewrite Hx. change (Go.drop 19 (URLParamAsHeaderPrefix ++ x)) with (Go.drop (String.length URLParamAsHeaderPrefix) (URLParamAsHeaderPrefix ++ x)). rewrite drop_prefix.
    set (m := match h with Some m => m | None => ∅ end).
    assert (Hm : (match h with None => Some ∅ | Some m => Some m end : header) = Some m) by (by destruct h).
    rewrite Hm. destruct (add_all_some x vs Hcx m) as (m' & H1 & H2 & H3).
    exists (Some m'). split; [done|]. intros name.
    assert (Hv : forall n, header_values h n = header_values (Some m) n) by (intros n; by destruct h).
    rewrite Hv.
    assert (Hne : x <> "").
    { intros ->. apply (f_equal String.length) in Hx. rewrite Canonical_length in Hx.
      change (String.length k = 19) in Hx. rewrite Hx in El. discriminate El. }
    destruct (decide (name = x)) as [->|Hnx].
    + rewrite bool_decide_eq_true_2 by (split; done). exact H2.
    + rewrite bool_decide_eq_false_2, app_nil_r.
      * cbn. by rewrite H3.
      * intros [Ha _]. rewrite Hx in Ha. apply Hnx. symmetry. exact (app_inj_l _ _ _ Ha).
  - exists h. split; [done|]. intros name. rewrite bool_decide_eq_false_2, app_nil_r; [done|].
    intros [Ha _]. assert (Ht : has_prefix (CanonicalHeaderKey k) URLParamAsHeaderPrefix = true) by (apply prefix_of; by exists name).
    rewrite Ht in Ep. discriminate Ep.
Qed.

(*@prop C41.  For all query parameters, in whatever order they are enumerated, and all headers: nothing
    panics and every header has its old values followed by the values of the parameters that ask
    for it, and no other. @*)
Lemma l_C41_headers : forall q h, exists h', tryParseURLParamsToHeaders q h = Ok h' /\
  forall name, header_values h' name = header_values h name ++ given q name.
Proof.
  induction q as [|[k vs] q IH]; intros h; cbn [tryParseURLParamsToHeaders].
  - exists h. split; [done|]. intros name. by rewrite app_nil_r.
  - destruct (parse_param_spec k vs h) as (h1 & H1 & H2). rewrite H1.
    destruct (IH h1) as (h' & H3 & H4). exists h'. split; [done|]. intros name.
    rewrite H4, H2, <- app_assoc. f_equal. unfold given. cbn.
    destruct (bool_decide (asks_header k name)); cbn; done.
Qed.

Lemma lower_canon s : forall u, lower (canon_go u s) = lower s.
Proof.
  induction s as [|c s IH]; intros u; cbn; [done|]. rewrite IH. f_equal. destruct u; [apply lower_upper|apply lower_idem].
Qed.
Lemma canon_lower s : forall u, canon_go u (lower s) = canon_go u s.
Proof.
  induction s as [|c s IH]; intros u; cbn; [done|]. rewrite lower_dash, IH. f_equal. destruct u; [apply upper_lower|apply lower_idem].
Qed.

(*@prop C41.  Parameter names are compared without regard to case: a name of token bytes asks for header
    [name] (given in its canonical form) exactly if it is the prefix and [name] up to case. @*)
Lemma l_C41_case : forall k name, all_valid k = true -> CanonicalHeaderKey name = name -> name <> "" -> all_valid name = true ->
  (asks_header k name <-> lower k = lower ("X-Websocket-Header-" ++ name)).
Proof.
  intros k name Hk Hc Hn Hvn. unfold asks_header.
  assert (Hv : all_valid ("X-Websocket-Header-" ++ name) = true) by (rewrite all_valid_app, Hvn; reflexivity).
  assert (Hcp : canon_go true ("X-Websocket-Header-" ++ name) = ("X-Websocket-Header-" ++ name)%string).
  { unfold CanonicalHeaderKey in Hc. rewrite Hvn in Hc.
    change (("X-Websocket-Header-" ++ canon_go true name)%string = ("X-Websocket-Header-" ++ name)%string). by rewrite Hc. }
  unfold CanonicalHeaderKey. rewrite Hk. split.
  - intros [H _]. rewrite <- (lower_canon k true), H. done.
  - intros H. split; [|done]. rewrite <- (canon_lower k), H, canon_lower. exact Hcp.
Qed.

(*@ex
Example C41_example :
  (exists h, tryParseURLParamsToHeaders [("x-websocket-header-X-token", ["a"; "b"]); ("page", ["1"]); ("X-Websocket-Header-", ["none"])]
     (Some (<["Host" := ["neffos"]]> ∅)) = Ok (Some h) /\ h !! "X-Token" = Some ["a"; "b"] /\ size h = 2) /\
  asks_header "x-websocket-header-X-token" "X-Token".
Proof. split; [eexists; vm_compute; done|]. split; [reflexivity|discriminate]. Qed.
@*)

(*@prop C42.  What Upgrade does before it has a socket: a closed server rejects every request with 500, a
    HEAD request is answered with 302, any other method than GET with 405 and Allow: GET, and the
    upgrader is called exactly for a GET request to an open server. @*)
Lemma l_C42_decisions : forall closed method q h,
  (closed = true -> upgrade_prologue closed method q h = Answered (Response 500 None) EServerClosed) /\
  (closed = false -> method = "HEAD"%string -> upgrade_prologue closed method q h = Answered (Response 302 None) EUpgradeOnRetry) /\
  (closed = false -> method <> "HEAD"%string -> method <> "GET"%string ->
     upgrade_prologue closed method q h = Answered (Response 405 (Some "GET"%string)) EInvalidMethod) /\
  ((exists h0 h', upgrade_prologue closed method q h = Upgrading h0 (Ok h')) <-> closed = false /\ method = "GET"%string) /\
  (forall h0 why, upgrade_prologue closed method q h <> Upgrading h0 (Panic why)).
Proof.
  intros closed method q h. unfold upgrade_prologue.
  destruct (l_C41_headers q h) as (h' & Hh & _). rewrite Hh.
  split; [intros ->; done|]. split; [intros -> ->; done|]. split.
  { intros -> H1 H2. apply String.eqb_neq in H1, H2. by rewrite H1, H2. }
  split.
  - destruct closed; [split; [intros (? & ? & ?); done|intros [? _]; done]|].
    destruct (String.eqb_spec method "HEAD") as [->|_]; [split; [intros (? & ? & ?); done|intros [_ H]; discriminate H]|].
    destruct (String.eqb_spec method "GET") as [->|H]; cbn.
    + split; [done|]. intros _. eauto.
    + split; [intros (? & ? & ?); done|intros [_ ?]; done].
  - intros h0 why. destruct closed; [done|]. destruct (String.eqb method "HEAD"); [done|].
    destruct (negb (String.eqb method "GET")); done.
Qed.

Lemma gerr_retry e : gerr_eqb e EUpgradeOnRetry = true <-> e = EUpgradeOnRetry.
Proof. split; [|intros ->; done]. destruct e as [| | | | | | | | | |? [|]| | | | |]; cbn; done. Qed.

(*@prop C42.  IsTryingToReconnect holds of the error of Upgrade exactly if the server was open and the
    request was a HEAD request, provided that the upgrader and OnConnect do not return that very
    error value themselves. @*)
Lemma l_C42_reconnect : forall closed method q h after err,
  (forall h', after h' <> Some EUpgradeOnRetry) ->
  upgrade_error closed method q h after = Ok err ->
  (IsTryingToReconnect err = true <-> closed = false /\ method = "HEAD"%string).
Proof.
  intros closed method q h after err Ha. unfold upgrade_error, upgrade_prologue.
  destruct (l_C41_headers q h) as (h' & Hh & _). rewrite Hh.
  destruct closed; [intros [= <-]; cbn; split; [done|intros [? _]; done]|].
  destruct (String.eqb_spec method "HEAD") as [->|H1]; [intros [= <-]; cbn; done|].
  destruct (String.eqb_spec method "GET") as [->|H2]; cbn; intros [= <-].
  - split; [|intros [_ H]; discriminate H]. specialize (Ha h'). destruct (after h') as [e|]; cbn; [|done].
    intros He. apply gerr_retry in He as ->. done.
  - cbn. split; [done|intros [_ H]; done].
Qed.

(*@ex
Example C42_example : upgrade_error false "HEAD" [] None (fun _ => None) = Ok (Some EUpgradeOnRetry) /\
  upgrade_error false "POST" [] None (fun _ => None) = Ok (Some EInvalidMethod) /\
  upgrade_error false "GET" [] None (fun _ => Some (EUser 1 "bad origin")) = Ok (Some (EUser 1 "bad origin")).
Proof. done. Qed.
@*)

(** ** Reconnection tries *)
From Coq Require Import Decimal DecimalString DecimalZ DecimalFacts.

Fixpoint dval (acc : Z) (d : uint) : Z :=
  match d with
  | Nil => acc
  | D0 d => dval (acc * 10) d | D1 d => dval (acc * 10 + 1) d | D2 d => dval (acc * 10 + 2) d
  | D3 d => dval (acc * 10 + 3) d | D4 d => dval (acc * 10 + 4) d | D5 d => dval (acc * 10 + 5) d
  | D6 d => dval (acc * 10 + 6) d | D7 d => dval (acc * 10 + 7) d | D8 d => dval (acc * 10 + 8) d
  | D9 d => dval (acc * 10 + 9) d
  end.

Lemma dval_pos d : forall p, Z.pos (Pos.of_uint_acc d p) = dval (Z.pos p) d.
Proof. induction d; intros p; cbn [Pos.of_uint_acc dval]; [done|..]; rewrite IHd; f_equal; lia. Qed.
Lemma dval_N d : Z.of_N (Pos.of_uint d) = dval 0 d.
Proof. induction d; cbn [Pos.of_uint dval Z.mul Z.add]; try done; cbn [Z.of_N]; rewrite dval_pos; f_equal. Qed.
Lemma digits_dval d : forall acc, digits_value acc (NilEmpty.string_of_uint d) = Some (dval acc d).
Proof.
  induction d; intros acc; cbn [NilEmpty.string_of_uint digits_value dval]; [done|..];
    rewrite <- IHd;
    match goal with |- (if is_digit ?c then _ else _) = _ =>
      let b := eval vm_compute in (is_digit c) in change (is_digit c) with b;
      let z := eval vm_compute in (Z.of_nat (nat_of_ascii c - 48)) in change (Z.of_nat (nat_of_ascii c - 48)) with z
    end; cbv iota; f_equal; lia.
Qed.

Lemma format_pos z : (0 <= z)%Z -> exists d, format_int z = NilZero.string_of_uint d /\ dval 0 d = z.
Proof.
  intros Hz. unfold format_int. destruct (Z.to_int z) as [d|d] eqn:E.
  - exists d. split; [done|]. rewrite <- dval_N.
    assert (H := DecimalZ.of_to z). rewrite E in H. cbn in H. exact H.
  - exfalso. destruct z; cbn in E; try done; lia.
Qed.

Lemma atoi_format z : (0 <= z)%Z -> Atoi (format_int z) = Z.min (2 ^ 63 - 1) z /\ format_int z <> "".
Proof.
  intros Hz. destruct (format_pos z) as (d & -> & Hd); [lia|].
  assert (Hc : clamp64 z = Z.min (2 ^ 63 - 1) z) by (unfold clamp64; lia).
  assert (Hg : d = Nil \/ exists c s, NilZero.string_of_uint d = String c s /\ NilZero.string_of_uint d = NilEmpty.string_of_uint d /\
    c <> "+"%char /\ c <> "-"%char).
  { destruct d; [by left|..]; right; eexists _, _; (split; [reflexivity|]); done. }
  destruct Hg as [->|(c & s & Hs & He & Hp & Hm)].
  - cbn in Hd. subst z. split; [reflexivity|discriminate].
  - split; [|rewrite Hs; discriminate].
    assert (Hat : Atoi (NilZero.string_of_uint d) = match digits_value 0 (NilZero.string_of_uint d) with Some z => clamp64 z | None => 0%Z end).
    { rewrite Hs. unfold Atoi. destruct c as [[] [] [] [] [] [] [] []]; try reflexivity; by exfalso. }
    rewrite Hat, He, digits_dval, Hd. exact Hc.
Qed.

Lemma atoi_negative z : (z < 0)%Z -> Atoi (format_int z) = Z.max (- 2 ^ 63) z /\ format_int z <> "".
Proof.
  intros Hz. destruct (format_pos (- z)) as (d & Hf & Hd); [lia|].
  assert (E : format_int z = String "-" (NilZero.string_of_uint d)).
  { destruct z as [|p|p]; try lia.
    change (NilZero.string_of_uint (Pos.to_uint p) = NilZero.string_of_uint d) in Hf. rewrite <- Hf. reflexivity. }
  assert (Hn : d <> Nil) by (intros ->; cbn in Hd; lia).
  assert (He : NilZero.string_of_uint d = NilEmpty.string_of_uint d) by (destruct d; [congruence|reflexivity..]).
  rewrite E. split; [|discriminate].
  assert (Hat : Atoi (String "-" (NilZero.string_of_uint d)) = match digits_value 0 (NilZero.string_of_uint d) with Some z => clamp64 (- z) | None => 0%Z end).
  { destruct d; reflexivity. }
  rewrite Hat, He, digits_dval, Hd. unfold clamp64. lia.
Qed.

Lemma tries_first h v rest : header_values h "X-Websocket-Reconnect" = v :: rest ->
  ReconnectTries h = if String.eqb v "" then 0%Z else Atoi v.
Proof.
  intros Hh. unfold ReconnectTries, header_Get.
  change (CanonicalHeaderKey websocketReconectHeaderKey) with "X-Websocket-Reconnect"%string. rewrite Hh. reflexivity.
Qed.

(*@prop C53.  A browser client that announces the number of its reconnection attempts with a header or, since
    browsers cannot set headers, with the URL parameter for it, is recognised with that number, whatever its sign. @*)
Lemma l_C53_reconnect_tries : forall n h, (- 2 ^ 63 <= n < 2 ^ 63)%Z ->
  (header_values h "X-Websocket-Reconnect" = [format_int n] -> ReconnectTries h = n /\ WasReconnected h = (0 <? n)%Z) /\
  (forall q h', header_values h "X-Websocket-Reconnect" = [] ->
     given q "X-Websocket-Reconnect" = [format_int n] ->
     tryParseURLParamsToHeaders q h = Ok h' -> ReconnectTries h' = n /\ WasReconnected h' = (0 <? n)%Z).
Proof.
  intros n h Hn.
  assert (Ha : Atoi (format_int n) = n /\ format_int n <> "").
  { destruct (Z.lt_ge_cases n 0) as [H|H]; [destruct (atoi_negative n H) as [-> ?]|destruct (atoi_format n H) as [-> ?]]; split; try assumption; lia. }
  destruct Ha as [Ha Hne].
  assert (Hgen : forall h, header_values h "X-Websocket-Reconnect" = [format_int n] -> ReconnectTries h = n /\ WasReconnected h = (0 <? n)%Z).
  { intros h0 Hh. assert (Hr : ReconnectTries h0 = n); [|split; [exact Hr|unfold WasReconnected; rewrite Hr; reflexivity]].
    rewrite (tries_first _ _ _ Hh). apply String.eqb_neq in Hne. rewrite Hne. exact Ha. }
  split; [apply Hgen|]. intros q h' H0 Hg Hq.
  destruct (l_C41_headers q h) as (h2 & Hh & Hv). rewrite Hq in Hh. injection Hh as <-.
  apply Hgen. rewrite Hv, H0, Hg. done.
Qed.

(*@prop C53.  A number that is no 64 bit integer counts as the nearest one. @*)
Lemma l_C53_range : forall n h rest, header_values h "X-Websocket-Reconnect" = format_int n :: rest ->
  ReconnectTries h = Z.max (- 2 ^ 63) (Z.min (2 ^ 63 - 1) n) /\ WasReconnected h = (0 <? n)%Z.
Proof.
  intros n h rest Hh.
  assert (Hr : ReconnectTries h = Z.max (- 2 ^ 63) (Z.min (2 ^ 63 - 1) n)).
  { rewrite (tries_first _ _ _ Hh).
    destruct (Z.lt_ge_cases n 0) as [H|H]; [destruct (atoi_negative n H) as [-> Hne]|destruct (atoi_format n H) as [-> Hne]];
      apply String.eqb_neq in Hne; rewrite Hne; lia. }
  split; [exact Hr|]. unfold WasReconnected. rewrite Hr. destruct (Z.ltb_spec 0 n); [apply Z.ltb_lt|apply Z.ltb_ge]; lia.
Qed.

Lemma digits_value_all s : forall acc z, digits_value acc s = Some z -> Forall (fun c => 48 <= nat_of_ascii c <= 57) (list_ascii_of_string s).
Proof.
  induction s as [|c s IH]; intros acc z H; [constructor|]. cbn [digits_value] in H. cbn [list_ascii_of_string].
  destruct (is_digit c) eqn:E; [|discriminate]. unfold is_digit in E. apply andb_true_iff in E as [E1 E2].
  apply Nat.leb_le in E1. apply Nat.leb_le in E2. constructor; [lia|]. eapply IH, H.
Qed.
Lemma atoi_garbage v : ~ numeral v -> Atoi v = 0%Z.
Proof.
  intros Hv.
  assert (Hd : forall s (f : Z -> Z), ~ digits_only s -> match s with EmptyString => 0%Z | _ => match digits_value 0 s with Some z => f z | None => 0%Z end end = 0%Z).
  { intros s f Hs. destruct (digits_value 0 s) as [z|] eqn:E; [|destruct s; reflexivity].
    destruct s as [|c s]; [reflexivity|]. exfalso. apply Hs. split; [discriminate|]. eapply digits_value_all, E. }
  destruct v as [|c v]; [reflexivity|].
  destruct (Ascii.eqb_spec c "+") as [->|Hp]; [|destruct (Ascii.eqb_spec c "-") as [->|Hm]].
  - apply (Hd v clamp64). intros H. apply Hv. right. eauto.
  - apply (Hd v (fun z => clamp64 (- z))). intros H. apply Hv. right. eauto.
  - assert (He : Atoi (String c v) = match String c v with EmptyString => 0%Z | _ => match digits_value 0 (String c v) with Some z => clamp64 z | None => 0%Z end end).
    { unfold Atoi. destruct c as [[] [] [] [] [] [] [] []]; try reflexivity; by exfalso. }
    rewrite He. apply (Hd (String c v) clamp64). intros H. apply Hv. left. exact H.
Qed.

(*@prop C53.  Anything that is not a decimal number counts as no reconnection. @*)
Lemma l_C53_garbage : forall h v rest, header_values h "X-Websocket-Reconnect" = v :: rest ->
  ~ numeral v -> ReconnectTries h = 0%Z /\ WasReconnected h = false.
Proof.
  intros h v rest Hh Hv.
  assert (Hr : ReconnectTries h = 0%Z).
  { rewrite (tries_first _ _ _ Hh), (atoi_garbage v Hv). destruct (String.eqb v ""); reflexivity. }
  split; [done|]. unfold WasReconnected. by rewrite Hr.
Qed.

(*@prop C53.  A number with a minus sign, of any length, counts as no reconnection; a plus sign changes nothing. @*)
Lemma l_C53_sign : forall h h' v rest rest', digits_only v ->
  (header_values h "X-Websocket-Reconnect" = String "-" v :: rest -> (ReconnectTries h <= 0)%Z /\ WasReconnected h = false) /\
  (header_values h "X-Websocket-Reconnect" = String "+" v :: rest -> header_values h' "X-Websocket-Reconnect" = v :: rest' ->
     ReconnectTries h = ReconnectTries h' /\ WasReconnected h = WasReconnected h').
Proof.
  intros h h' v rest rest' [Hn Hd].
  assert (Hpos : forall s acc z, (0 <= acc)%Z -> digits_value acc s = Some z -> (0 <= z)%Z).
  { clear. intros s. induction s as [|c s IH]; intros acc z Ha H; cbn [digits_value] in H; [congruence|].
    destruct (is_digit c); [|discriminate]. eapply IH, H. lia. }
  split.
  - intros Hh. assert (Hr : (ReconnectTries h <= 0)%Z).
    { rewrite (tries_first _ _ _ Hh). change (Atoi (String "-" v)) with (match v with EmptyString => 0%Z | _ => match digits_value 0 v with Some z => clamp64 (- z) | None => 0%Z end end).
      cbn [String.eqb]. destruct (digits_value 0 v) as [z|] eqn:E; [|destruct v; lia]. apply Hpos in E; [|lia].
      destruct v; unfold clamp64; lia. }
    split; [exact Hr|]. unfold WasReconnected. apply Z.ltb_ge, Hr.
  - intros Hh Hh'. assert (Hr : ReconnectTries h = ReconnectTries h').
    { rewrite (tries_first _ _ _ Hh), (tries_first _ _ _ Hh'). apply String.eqb_neq in Hn as Hb. rewrite Hb. cbn [String.eqb].
      destruct v as [|c v]; [congruence|]. inversion Hd as [|? ? Hc _]; subst. clear -Hc.
      change (Atoi (String "+" (String c v))) with (match digits_value 0 (String c v) with Some z => clamp64 z | None => 0%Z end).
      symmetry. unfold Atoi. destruct c as [[] [] [] [] [] [] [] []]; try reflexivity; exfalso; vm_compute in Hc; lia. }
    split; [exact Hr|]. unfold WasReconnected. rewrite Hr. reflexivity.
Qed.

(*@ex
Example C53_example : given [("X-Websocket-Header-X-Websocket-Reconnect", ["12"]); ("room", ["r"])] "X-Websocket-Reconnect" = [format_int 12] /\
  ReconnectTries (Some {[ "X-Websocket-Reconnect" := ["99999999999999999999"] ]}) = (2 ^ 63 - 1)%Z /\
  ReconnectTries (Some {[ "X-Websocket-Reconnect" := ["1x"] ]}) = 0%Z /\ ~ numeral "1x" /\
  digits_only "12" /\ ReconnectTries (Some {[ "X-Websocket-Reconnect" := ["-12"] ]}) = (-12)%Z /\ format_int (-12) = "-12".
Proof.
  split; [vm_compute; reflexivity|]. split; [vm_compute; reflexivity|]. split; [vm_compute; reflexivity|]. split.
  - intros [[_ H]|(s & [E|E] & _)]; [|discriminate E..]. inversion H as [|? ? _ H']; subst. inversion H' as [|? ? H'' _]; subst. vm_compute in H''. lia.
  - split; [split; [discriminate|repeat constructor; vm_compute; lia]|]. split; vm_compute; reflexivity.
Qed.
@*)
