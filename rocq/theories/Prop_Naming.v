(** * Prop_Naming.v : property theorems (generated by tools/genprops.py from NamingProofs.v).
    Every proof is the lemma of the same name in NamingProofs.v. *)
From Coq Require Import ZArith.
From stdpp Require Import strings list.
From Verif Require Import Go Handlers Naming Spec_Naming NamingProofs.
From Verif Require Import NamingProofs.

(** C73, the part that holds: a connection made with a WithTimeout value or with a Struct has the timeouts that were asked for;
    so if such a timeout is positive, then every read, or write, ends at most that long after it began. *)
Theorem C73_partial : forall h,
  (forall rt wt n e, h <> TimeoutPointer rt wt n e) ->
  conn_timeouts h = asked_timeouts h /\
  forall starts i now, starts !! i = Some now ->
    ((0 < fst (asked_timeouts h))%Z -> deadlines (fst (conn_timeouts h)) None starts !! i = Some (Some (now + fst (asked_timeouts h))%Z)) /\
    ((0 < snd (asked_timeouts h))%Z -> deadlines (snd (conn_timeouts h)) None starts !! i = Some (Some (now + snd (asked_timeouts h))%Z)).
Proof. exact l_C73_partial. Qed.
Print Assumptions C73_partial.

(** C73 is violated: handlers that were joined have no timeouts, whatever theirs were: no read or write has a deadline. *)
Theorem C73_joined_refuted : forall (H : Type) (l : list handler_value) (h : @heap H) starts i,
  i < length starts ->
  let joined := fst (join l h) in
  conn_timeouts joined = (0, 0)%Z /\
  deadlines (fst (conn_timeouts joined)) None starts !! i = Some None /\ deadlines (snd (conn_timeouts joined)) None starts !! i = Some None.
Proof. exact l_C73_joined_refuted. Qed.
Print Assumptions C73_joined_refuted.

(** C73 is violated: nor has a connection that is made with a pointer to a WithTimeout. *)
Theorem C73_pointer_refuted : forall rt wt n e, rt <> 0%Z \/ wt <> 0%Z -> conn_timeouts (TimeoutPointer rt wt n e) <> asked_timeouts (TimeoutPointer rt wt n e).
Proof. exact l_C73_pointer_refuted. Qed.
Print Assumptions C73_pointer_refuted.

(** C73.  Two handlers with timeouts, alone and joined. *)
Example C73_example :
  let a := TimeoutValue 30 10 (Some 0) None in let b := StructPointer 5 5 "chat" 1 in
  conn_timeouts a = (30, 10)%Z /\ conn_timeouts b = (5, 5)%Z /\ deadlines 30 None [100; 200]%Z = [Some 130; Some 230]%Z /\
  asked_timeouts (TimeoutPointer 30 10 (Some 0) None) = (30, 10)%Z /\
  let h := Heap (H := nat) {[1 := {["x" := 1]}]} {[0 := {["ns" := Some 1]}]} 2 [] in
  fst (join [a; b] h) = PlainNamespaces (Some 2) /\ nss_at (snd (join [a; b] h)) (Some 2) !! "chat" <> None.
Proof. exact x_C73_example. Qed.

(** C74, the parts that hold.  The namespace is the one given by SetNamespace, if any; else the result of a method Namespace() string, if there is one; else
    the value of the field Namespace, if the struct itself has one of kind string; and it is empty if the struct has such a
    field of another kind, or no such field, not even one of an embedded struct. *)
Theorem C74_partial : forall given v,
  (given <> "" -> struct_namespace given v = given) /\
  (forall ns, sv_method v = Some (Some ns) -> struct_namespace "" v = ns) /\
  ((forall ns, sv_method v <> Some (Some ns)) -> distinct (sv_fields v) ->
    (forall e ns, Field "Namespace" e (FString ns) ∈ sv_fields v -> struct_namespace "" v = ns) /\
    (forall e t, Field "Namespace" e t ∈ sv_fields v -> ~ is_string t -> struct_namespace "" v = "") /\
    ((forall d t, ~ has_field "Namespace" (sv_fields v) d t) -> struct_namespace "" v = "")).
Proof. exact l_C74_partial. Qed.
Print Assumptions C74_partial.

(** C74.  If two embedded structs have a field Namespace at the same depth, and none is less deep, then Go selects none of them, and
    the namespace is empty. *)
Theorem C74_ambiguous : forall v fs1 fs2 d t1 t2,
  (forall ns, sv_method v <> Some (Some ns)) -> sv_fields v = fs1 ++ fs2 ->
  (forall d' t, d' < d -> ~ has_field "Namespace" (sv_fields v) d' t) ->
  has_field "Namespace" fs1 d t1 -> has_field "Namespace" fs2 d t2 -> struct_namespace "" v = "".
Proof. exact l_C74_ambiguous. Qed.
Print Assumptions C74_ambiguous.

(** C74.  A struct with two embedded structs that both have a field Namespace. *)
Example C74_ambiguous_example :
  let base n ns := Field n true (FStruct n false [Field "Namespace" false (FString ns)]) in
  has_field "Namespace" [base "A" "a"] 1 (FString "a") /\ has_field "Namespace" [base "B" "b"] 1 (FString "b") /\
  (forall d' t, d' < 1 -> ~ has_field "Namespace" [base "A" "a"; base "B" "b"] d' t) /\
  struct_namespace "" (StructValue None [base "A" "a"; base "B" "b"]) = "".
Proof. exact x_C74_ambiguous_example. Qed.

(** C74 is violated: if the field Namespace is one of an embedded struct (or pointer to a struct) of type T, or of a struct embedded in that and so on to any depth,
    which Go lets the struct use like its own, then the namespace is the text "<T Value>", whatever the value of the field. *)
Theorem C74_refuted : forall v fs1 n tn ptr fs fs2 d ns,
  (forall ns, sv_method v <> Some (Some ns)) -> sv_fields v = fs1 ++ Field n true (FStruct tn ptr fs) :: fs2 ->
  (forall d' t, d' <= d -> ~ has_field "Namespace" (sv_fields v) d' t) ->
  sole_field "Namespace" fs d (FString ns) ->
  (forall t, ~ has_field "Namespace" fs1 (S d) t) -> (forall t, ~ has_field "Namespace" fs2 (S d) t) ->
  has_field "Namespace" (sv_fields v) (S d) (FString ns) /\
  struct_namespace "" v = String.append "<" (String.append (if ptr then String.append "*" tn else tn) " Value>").
Proof. exact l_C74_refuted. Qed.
Print Assumptions C74_refuted.

(** C74.  type Base struct { Namespace string }; type Chat struct { Title string; Base }; with &Chat{Base: Base{"chat"}} the namespace is "<main.Base Value>"; and with
    type Room struct { *Chat } that of &Room{&Chat{Base: Base{"chat"}}} is "<*main.Chat Value>". *)
Example C74_example :
  let chat := StructValue None [Field "Title" false (FString "Chat"); Field "Base" true (FStruct "main.Base" false [Field "Namespace" false (FString "chat")])] in
  let plain := StructValue None [Field "Namespace" false (FString "chat"); Field "Base" true (FStruct "main.Base" false [Field "Namespace" false (FString "other")])] in
  let room := StructValue None [Field "Chat" true (FStruct "main.Chat" true (sv_fields chat))] in
  sole_field "Namespace" (sv_fields chat) 1 (FString "chat") /\ (forall d t, d <= 1 -> ~ has_field "Namespace" (sv_fields room) d t) /\ struct_namespace "" room = "<*main.Chat Value>" /\
  has_field "Namespace" (sv_fields chat) 1 (FString "chat") /\ distinct (sv_fields chat) /\ (forall t, ~ has_field "Namespace" (sv_fields chat) 0 t) /\
  struct_namespace "" chat = "<main.Base Value>" /\ struct_namespace "lobby" chat = "lobby" /\ distinct (sv_fields plain) /\ struct_namespace "" plain = "chat".
Proof. exact x_C74_example. Qed.
