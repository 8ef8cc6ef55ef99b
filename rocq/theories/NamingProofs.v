(** * NamingProofs.v : timeouts of handlers and the namespace of a struct handler (C73, C74). *)
From Coq Require Import ZArith Lia.
From stdpp Require Import strings list.
From Verif Require Import Go Handlers Naming Spec_Naming.

(*@file Prop_Naming.v
From Coq Require Import ZArith.
From stdpp Require Import strings list.
From Verif Require Import Go Handlers Naming Spec_Naming NamingProofs. @*)

(*@prop C73, the part that holds: a connection made with a WithTimeout value or with a Struct has the timeouts that were asked for;
    so if such a timeout is positive, then every read, or write, ends at most that long after it began. @*)
Lemma l_C73_partial : forall h,
  (forall rt wt n e, h <> TimeoutPointer rt wt n e) ->
  conn_timeouts h = asked_timeouts h /\
  forall starts i now, starts !! i = Some now ->
    ((0 < fst (asked_timeouts h))%Z -> deadlines (fst (conn_timeouts h)) None starts !! i = Some (Some (now + fst (asked_timeouts h))%Z)) /\
    ((0 < snd (asked_timeouts h))%Z -> deadlines (snd (conn_timeouts h)) None starts !! i = Some (Some (now + snd (asked_timeouts h))%Z)).
Proof.
  intros h Hp. assert (E : conn_timeouts h = asked_timeouts h) by (destruct h as [| | |rt wt n e|]; try reflexivity; destruct (Hp rt wt n e eq_refl)).
  split; [exact E|]. rewrite E.
  assert (H : forall t starts old i now, (0 < t)%Z -> starts !! i = Some now -> deadlines t old starts !! i = Some (Some (now + t)%Z)).
  { intros t starts. induction starts as [|x l IH]; intros old i now Ht Hi; [discriminate|]. cbn [deadlines].
    assert (Ea : arm t x old = Some (x + t)%Z) by (unfold arm; destruct (Z.ltb_spec 0 t); [reflexivity|lia]).
    destruct i as [|i]; cbn in Hi |- *; [injection Hi as ->; rewrite Ea; reflexivity|]. apply IH; assumption. }
  intros starts i now Hi. split; intros Ht; apply H; assumption.
Qed.
(*@prop C73 is violated: handlers that were joined have no timeouts, whatever theirs were: no read or write has a deadline. @*)
Lemma l_C73_joined_refuted : forall (H : Type) (l : list handler_value) (h : @heap H) starts i,
  i < length starts ->
  let joined := fst (join l h) in
  conn_timeouts joined = (0, 0)%Z /\
  deadlines (fst (conn_timeouts joined)) None starts !! i = Some None /\ deadlines (snd (conn_timeouts joined)) None starts !! i = Some None.
Proof.
  intros H l h starts i Hi joined. assert (E : conn_timeouts joined = (0, 0)%Z) by (unfold joined, join; destruct (join_with _ _ _); reflexivity).
  rewrite E. split; [reflexivity|]. cbn [fst snd].
  assert (Hd : deadlines 0 None starts !! i = Some None).
  { revert i Hi. induction starts as [|x l' IH]; intros i Hi; cbn in Hi; [lia|]. destruct i as [|i]; [reflexivity|]. apply IH. lia. }
  split; exact Hd.
Qed.
(*@prop C73 is violated: nor has a connection that is made with a pointer to a WithTimeout. @*)
Lemma l_C73_pointer_refuted : forall rt wt n e, rt <> 0%Z \/ wt <> 0%Z -> conn_timeouts (TimeoutPointer rt wt n e) <> asked_timeouts (TimeoutPointer rt wt n e).
Proof. intros rt wt n e H E. injection E as <- <-. destruct H as [H|H]; apply H; reflexivity. Qed.
(*@exl C73.  Two handlers with timeouts, alone and joined. @*)
Lemma x_C73_example :
  let a := TimeoutValue 30 10 (Some 0) None in let b := StructPointer 5 5 "chat" 1 in
  conn_timeouts a = (30, 10)%Z /\ conn_timeouts b = (5, 5)%Z /\ deadlines 30 None [100; 200]%Z = [Some 130; Some 230]%Z /\
  asked_timeouts (TimeoutPointer 30 10 (Some 0) None) = (30, 10)%Z /\
  let h := Heap (H := nat) {[1 := {["x" := 1]}]} {[0 := {["ns" := Some 1]}]} 2 [] in
  fst (join [a; b] h) = PlainNamespaces (Some 2) /\ nss_at (snd (join [a; b] h)) (Some 2) !! "chat" <> None.
Proof. cbv zeta. split; [reflexivity|]. split; [reflexivity|]. split; [reflexivity|]. split; [reflexivity|]. split; [vm_compute; reflexivity|]. vm_compute. discriminate. Qed.

(** ** The namespace of a struct. *)
Lemma behind_in fs f t : f ∈ fs -> forall x d, has_field x (behind f) d t -> has_field x fs (S d) t.
Proof.
  intros Hf x d H. destruct f as [n e ty]. destruct e; [|cbn in H; inversion H; subst; match goal with H : _ ∈ [] |- _ => inversion H end].
  destruct ty as [v|tn p fs'|tn]; try (cbn in H; inversion H; subst; match goal with H : _ ∈ [] |- _ => inversion H end).
  eapply promoted_field; eassumption.
Qed.
Lemma level_has x d fs t : t ∈ level x d fs <-> has_field x fs d t.
Proof.
  revert fs t. induction d as [|d IH]; intros fs t; cbn [level].
  - split.
    + intros H. apply elem_of_list_In, in_map_iff in H as (f & <- & H). apply filter_In in H as [H Hx]. apply String.eqb_eq in Hx. destruct f as [n e ty]. cbn in *. subst.
      eapply own_field, elem_of_list_In, H.
    + intros H. inversion H; subst. apply elem_of_list_In, in_map_iff. exists (Field x e t). split; [reflexivity|]. apply filter_In. split; [apply elem_of_list_In; assumption|apply String.eqb_refl].
  - split.
    + intros H. apply elem_of_list_In, in_flat_map in H as (f & Hf & H). apply elem_of_list_In in Hf, H. apply (behind_in fs f t Hf). apply IH. exact H.
    + intros H. inversion H; subst. apply elem_of_list_In, in_flat_map. eexists. split; [apply elem_of_list_In; eassumption|]. apply elem_of_list_In, IH. assumption.
Qed.
Lemma indexed_snd x d i fs : map snd (indexed x d i fs) = level x d fs.
Proof.
  revert i. induction fs as [|f fs IH]; intros i; [destruct d; reflexivity|]. cbn [indexed]. rewrite map_app, map_map. cbn [snd]. rewrite map_id, IH.
  destruct d as [|d]; cbn [level]; [|reflexivity]. cbn [List.filter]. destruct (String.eqb (f_name f) x); reflexivity.
Qed.
Lemma indexed_nil x d i fs : (forall t, ~ has_field x fs d t) -> indexed x d i fs = [].
Proof.
  intros H. destruct (indexed x d i fs) as [|r l] eqn:E; [reflexivity|]. exfalso. apply (H (snd r)), level_has. rewrite <- (indexed_snd x d i), E. left.
Qed.
Lemma indexed_app x d i fs1 fs2 : indexed x d i (fs1 ++ fs2) = indexed x d i fs1 ++ indexed x d (i + length fs1) fs2.
Proof.
  revert i. induction fs1 as [|f fs IH]; intros i; cbn [indexed app length]; [rewrite Nat.add_0_r; reflexivity|].
  rewrite IH, <- app_assoc. do 2 f_equal. f_equal. lia.
Qed.
Lemma not_named x fs1 f fs2 : distinct (fs1 ++ f :: fs2) -> f_name f = x -> (forall t, ~ has_field x fs1 0 t) /\ (forall t, ~ has_field x fs2 0 t).
Proof.
  unfold distinct. rewrite map_app, NoDup_app. cbn. intros (_ & H1 & H2) <-. apply NoDup_cons in H2 as [H2 _].
  assert (Hi : forall l t, has_field (f_name f) l 0 t -> f_name f ∈ map f_name l).
  { intros l t H. inversion H as [l' e' t' Hin|]; subst. apply elem_of_list_In, in_map_iff. exists (Field (f_name f) e' t). split; [reflexivity|]. apply elem_of_list_In, Hin. }
  split; intros t H; apply Hi in H; [apply (H1 _ H); left|exact (H2 H)].
Qed.
Lemma search_own fs1 e t fs2 n : distinct (fs1 ++ Field "Namespace" e t :: fs2) -> search "Namespace" 0 n (fs1 ++ Field "Namespace" e t :: fs2) = Some (length fs1, t).
Proof.
  intros Hd. destruct (not_named "Namespace" fs1 _ fs2 Hd eq_refl) as [H1 H2].
  assert (E : indexed "Namespace" 0 0 (fs1 ++ Field "Namespace" e t :: fs2) = [(length fs1, t)]).
  { rewrite indexed_app, (indexed_nil _ _ _ _ H1). cbn. rewrite (indexed_nil _ _ _ _ H2). reflexivity. }
  destruct n; cbn [search]; rewrite E; reflexivity.
Qed.

(*@prop C74, the parts that hold.  The namespace is the one given by SetNamespace, if any; else the result of a method Namespace() string, if there is one; else
    the value of the field Namespace, if the struct itself has one of kind string; and it is empty if the struct has such a
    field of another kind, or no such field, not even one of an embedded struct. @*)
Lemma l_C74_partial : forall given v,
  (given <> "" -> struct_namespace given v = given) /\
  (forall ns, sv_method v = Some (Some ns) -> struct_namespace "" v = ns) /\
  ((forall ns, sv_method v <> Some (Some ns)) -> distinct (sv_fields v) ->
    (forall e ns, Field "Namespace" e (FString ns) ∈ sv_fields v -> struct_namespace "" v = ns) /\
    (forall e t, Field "Namespace" e t ∈ sv_fields v -> ~ is_string t -> struct_namespace "" v = "") /\
    ((forall d t, ~ has_field "Namespace" (sv_fields v) d t) -> struct_namespace "" v = "")).
Proof.
  intros given v. split; [|split].
  - intros H. unfold struct_namespace. apply String.eqb_neq in H. rewrite H. reflexivity.
  - intros ns H. unfold struct_namespace, resolveStructNamespace. rewrite H. reflexivity.
  - intros Hm Hd. assert (Er : forall r, FieldByName "Namespace" (sv_fields v) = r -> struct_namespace "" v = fst (match r with
      | Some (i, FString _) => match sv_fields v !! i with Some f => (value_string (f_ty f), true) | None => ("", false) end | _ => ("", false) end)).
    { intros r <-. unfold struct_namespace, resolveStructNamespace. cbn [String.eqb]. destruct (sv_method v) as [[ns|]|]; [destruct (Hm ns eq_refl)|reflexivity|reflexivity]. }
    split; [|split].
    + intros e ns H. apply elem_of_list_split in H as (fs1 & fs2 & E). rewrite E in Hd. rewrite (Er (Some (length fs1, FString ns))).
      * rewrite E, list_lookup_middle by reflexivity. reflexivity.
      * unfold FieldByName. rewrite E. apply search_own, Hd.
    + intros e t H Ht. apply elem_of_list_split in H as (fs1 & fs2 & E). rewrite E in Hd. rewrite (Er (Some (length fs1, t))).
      * destruct t; [destruct Ht; exact Logic.I|reflexivity|reflexivity].
      * unfold FieldByName. rewrite E. apply search_own, Hd.
    + intros H. rewrite (Er None); [reflexivity|]. unfold FieldByName. generalize (fold_right (fun g n => Nat.max (height g) n) 0 (sv_fields v)). intros n.
      generalize 0. induction n as [|n IH]; intros d; cbn [search]; rewrite (indexed_nil _ _ _ _ (H d)); [reflexivity|apply IH].
Qed.

Lemma sole_has x fs d t : sole_field x fs d t -> has_field x fs d t.
Proof.
  induction 1 as [fs e t _ H|fs1 n tn p fs' fs2 d t _ IH _ _]; [eapply own_field, H|]. eapply promoted_field; [|exact IH]. apply elem_of_app. right. left.
Qed.
Lemma sole_level x fs d t : sole_field x fs d t -> level x d fs = [t].
Proof.
  induction 1 as [fs e t Hd Hin|fs1 n tn p fs' fs2 d t _ IH H1 H2].
  - apply elem_of_list_split in Hin as (gs1 & gs2 & ->). rewrite <- (indexed_snd _ _ 0), indexed_app.
    destruct (not_named x gs1 _ gs2 Hd eq_refl) as [G1 G2]. rewrite (indexed_nil _ _ _ _ G1). cbn. rewrite String.eqb_refl, (indexed_nil _ _ _ _ G2). reflexivity.
  - rewrite <- (indexed_snd _ _ 0), indexed_app, (indexed_nil _ _ _ _ H1). cbn [indexed behind app]. rewrite (indexed_nil _ _ _ _ H2), app_nil_r, IH. reflexivity.
Qed.
Lemma height_in f fs : f ∈ fs -> height f <= fold_right (fun g n => Nat.max (height g) n) 0 fs.
Proof. induction 1 as [f l|f g l _ IH]; cbn; lia. Qed.
Lemma has_height x fs d t : has_field x fs d t -> d <= fold_right (fun g n => Nat.max (height g) n) 0 fs.
Proof.
  induction 1 as [fs e t _|fs n tn p fs' d t Hin _ IH]; [lia|]. apply height_in in Hin. cbn [height] in Hin. lia.
Qed.
Lemma search_skips x fs k : forall d n, (forall d' t, d <= d' -> d' < d + k -> ~ has_field x fs d' t) -> k <= n -> search x d n fs = search x (d + k) (n - k) fs.
Proof.
  induction k as [|k IH]; intros d n H Hn; [rewrite Nat.add_0_r, Nat.sub_0_r; reflexivity|]. destruct n as [|n]; [lia|]. cbn [search Nat.sub].
  rewrite (indexed_nil x d 0 fs) by (intros t; apply H; lia). rewrite (IH (S d) n); [f_equal; lia| |lia]. intros d' t H1 H2. apply H; lia.
Qed.

Lemma has_indexed x d i fs t : has_field x fs d t -> exists r l, indexed x d i fs = r :: l.
Proof.
  intros H. apply level_has in H. rewrite <- (indexed_snd x d i) in H. destruct (indexed x d i fs) as [|r l]; [inversion H|eauto].
Qed.
Lemma has_app x fs1 fs2 d t : has_field x fs1 d t -> has_field x (fs1 ++ fs2) d t.
Proof.
  intros H. inversion H; subst; [eapply own_field|eapply promoted_field]; try eassumption; apply elem_of_app; left; eassumption.
Qed.
(*@prop C74.  If two embedded structs have a field Namespace at the same depth, and none is less deep, then Go selects none of them, and
    the namespace is empty. @*)
Lemma l_C74_ambiguous : forall v fs1 fs2 d t1 t2,
  (forall ns, sv_method v <> Some (Some ns)) -> sv_fields v = fs1 ++ fs2 ->
  (forall d' t, d' < d -> ~ has_field "Namespace" (sv_fields v) d' t) ->
  has_field "Namespace" fs1 d t1 -> has_field "Namespace" fs2 d t2 -> struct_namespace "" v = "".
Proof.
  intros v fs1 fs2 d t1 t2 Hm E H0 H1 H2.
  assert (Es : FieldByName "Namespace" (sv_fields v) = None).
  { unfold FieldByName. rewrite (search_skips _ _ d); [|intros d' t _ Hd; apply H0; lia|rewrite E; apply (has_height _ _ _ _ (has_app _ _ fs2 _ _ H1))].
    rewrite Nat.add_0_l.
    assert (Ei : exists r1 r2 l, indexed "Namespace" d 0 (sv_fields v) = r1 :: r2 :: l).
    { rewrite E, indexed_app. destruct (has_indexed _ d 0 _ _ H1) as (r & l & ->). destruct (has_indexed _ d (0 + length fs1) _ _ H2) as (r' & l' & ->).
      destruct l as [|x l]; cbn; eauto. }
    destruct Ei as (r1 & r2 & l & Ei).
    generalize (fold_right (fun g n0 => Nat.max (height g) n0) 0 (sv_fields v) - d). intros k. destruct k; cbn [search]; rewrite Ei; destruct r1; reflexivity. }
  unfold struct_namespace, resolveStructNamespace. cbn [String.eqb]. rewrite Es.
  destruct (sv_method v) as [[ns'|]|]; [destruct (Hm ns' eq_refl)|reflexivity|reflexivity].
Qed.
(*@exl C74.  A struct with two embedded structs that both have a field Namespace. @*)
Lemma x_C74_ambiguous_example :
  let base n ns := Field n true (FStruct n false [Field "Namespace" false (FString ns)]) in
  has_field "Namespace" [base "A" "a"] 1 (FString "a") /\ has_field "Namespace" [base "B" "b"] 1 (FString "b") /\
  (forall d' t, d' < 1 -> ~ has_field "Namespace" [base "A" "a"; base "B" "b"] d' t) /\
  struct_namespace "" (StructValue None [base "A" "a"; base "B" "b"]) = "".
Proof.
  cbv zeta. split; [eapply promoted_field; [left|eapply own_field; left]|]. split; [eapply promoted_field; [left|eapply own_field; left]|].
  split; [|reflexivity]. intros d' t Hd H. apply level_has in H. destruct d'; [|lia]. inversion H.
Qed.

(*@prop C74 is violated: if the field Namespace is one of an embedded struct (or pointer to a struct) of type T, or of a struct embedded in that and so on to any depth,
    which Go lets the struct use like its own, then the namespace is the text "<T Value>", whatever the value of the field. @*)
Lemma l_C74_refuted : forall v fs1 n tn ptr fs fs2 d ns,
  (forall ns, sv_method v <> Some (Some ns)) -> sv_fields v = fs1 ++ Field n true (FStruct tn ptr fs) :: fs2 ->
  (forall d' t, d' <= d -> ~ has_field "Namespace" (sv_fields v) d' t) ->
  sole_field "Namespace" fs d (FString ns) ->
  (forall t, ~ has_field "Namespace" fs1 (S d) t) -> (forall t, ~ has_field "Namespace" fs2 (S d) t) ->
  has_field "Namespace" (sv_fields v) (S d) (FString ns) /\
  struct_namespace "" v = String.append "<" (String.append (if ptr then String.append "*" tn else tn) " Value>").
Proof.
  intros v fs1 n tn ptr fs fs2 d ns Hm E H0 Hs H1 H2.
  assert (Hf : has_field "Namespace" (sv_fields v) (S d) (FString ns)).
  { rewrite E. eapply promoted_field; [apply elem_of_app; right; left|]. apply sole_has, Hs. }
  split; [exact Hf|].
  assert (Es : FieldByName "Namespace" (sv_fields v) = Some (length fs1, FString ns)).
  { unfold FieldByName. rewrite (search_skips _ _ (S d)); [|intros d' t _ Hd; apply H0; lia|apply (has_height _ _ _ _ Hf)]. rewrite Nat.add_0_l.
    assert (Ei : indexed "Namespace" (S d) 0 (sv_fields v) = [(length fs1, FString ns)]).
    { rewrite E, indexed_app, (indexed_nil _ _ _ _ H1). cbn [indexed behind app]. rewrite (indexed_nil _ _ _ _ H2), app_nil_r, (sole_level _ _ _ _ Hs). reflexivity. }
    generalize (fold_right (fun g n0 => Nat.max (height g) n0) 0 (sv_fields v) - S d). intros k. destruct k; cbn [search]; rewrite Ei; reflexivity. }
  unfold struct_namespace, resolveStructNamespace. cbn [String.eqb]. rewrite Es, E, list_lookup_middle by reflexivity.
  destruct (sv_method v) as [[ns'|]|]; [destruct (Hm ns' eq_refl)|reflexivity|reflexivity].
Qed.
(*@exl C74.  type Base struct { Namespace string }; type Chat struct { Title string; Base }; with &Chat{Base: Base{"chat"}} the namespace is "<main.Base Value>"; and with
    type Room struct { *Chat } that of &Room{&Chat{Base: Base{"chat"}}} is "<*main.Chat Value>". @*)
Lemma x_C74_example :
  let chat := StructValue None [Field "Title" false (FString "Chat"); Field "Base" true (FStruct "main.Base" false [Field "Namespace" false (FString "chat")])] in
  let plain := StructValue None [Field "Namespace" false (FString "chat"); Field "Base" true (FStruct "main.Base" false [Field "Namespace" false (FString "other")])] in
  let room := StructValue None [Field "Chat" true (FStruct "main.Chat" true (sv_fields chat))] in
  sole_field "Namespace" (sv_fields chat) 1 (FString "chat") /\ (forall d t, d <= 1 -> ~ has_field "Namespace" (sv_fields room) d t) /\ struct_namespace "" room = "<*main.Chat Value>" /\
  has_field "Namespace" (sv_fields chat) 1 (FString "chat") /\ distinct (sv_fields chat) /\ (forall t, ~ has_field "Namespace" (sv_fields chat) 0 t) /\
  struct_namespace "" chat = "<main.Base Value>" /\ struct_namespace "lobby" chat = "lobby" /\ distinct (sv_fields plain) /\ struct_namespace "" plain = "chat".
Proof.
  cbv zeta. split; [|split; [|split; [vm_compute; reflexivity|split; [|split; [|split; [|split; [|split; [|split]]]]]]]]; try (vm_compute; reflexivity).
  - apply (sole_promoted "Namespace" [Field "Title" false (FString "Chat")] "Base" "main.Base" false [Field "Namespace" false (FString "chat")] []).
    + eapply sole_own; [apply (bool_decide_eq_true_1 (NoDup _)); vm_compute; reflexivity|left].
    + intros t H. apply level_has in H. vm_compute in H. inversion H.
    + intros t H. apply level_has in H. vm_compute in H. inversion H.
  - intros d t Hd H. apply level_has in H. destruct d as [|[|d]]; [vm_compute in H; inversion H|vm_compute in H; inversion H|lia].
  - eapply promoted_field; [right; left|]. eapply own_field. left.
  - unfold distinct. apply (bool_decide_eq_true_1 (NoDup _)). vm_compute. reflexivity.
  - intros t H. inversion H; subst. repeat match goal with H : _ ∈ _ |- _ => inversion H; clear H; subst end.
  - unfold distinct. apply (bool_decide_eq_true_1 (NoDup _)). vm_compute. reflexivity.
Qed.
