(** * Spec_Naming.v : the namespace of a struct handler, and timeouts (C73, C74). *)
From Coq Require Import ZArith.
From stdpp Require Import strings list.
From Verif Require Import Naming.

(** Go: a struct with these fields has, at depth [d], a field called [x], of this type and value. *)
Inductive has_field (x : string) : list field -> nat -> fty -> Prop :=
| own_field fs e t : Field x e t ∈ fs -> has_field x fs 0 t
| promoted_field fs n tn p fs' d t : Field n true (FStruct tn p fs') ∈ fs -> has_field x fs' d t -> has_field x fs (S d) t.

(** The names of the fields of a struct are distinct. *)
Definition distinct (fs : list field) : Prop := NoDup (map f_name fs).

(** ... and it is the only one of that name at that depth. *)
Inductive sole_field (x : string) : list field -> nat -> fty -> Prop :=
| sole_own fs e t : distinct fs -> Field x e t ∈ fs -> sole_field x fs 0 t
| sole_promoted fs1 n tn p fs' fs2 d t : sole_field x fs' d t ->
    (forall t', ~ has_field x fs1 (S d) t') -> (forall t', ~ has_field x fs2 (S d) t') ->
    sole_field x (fs1 ++ Field n true (FStruct tn p fs') :: fs2) (S d) t.

Definition is_string (t : fty) : Prop := match t with FString _ => True | _ => False end.

(** The timeouts that the application asks for with a handler. *)
Definition asked_timeouts (h : handler_value) : Z * Z :=
  match h with
  | TimeoutValue rt wt _ _ | TimeoutPointer rt wt _ _ | StructPointer rt wt _ _ => (rt, wt)
  | _ => (0, 0)%Z
  end.
