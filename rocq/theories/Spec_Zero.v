(** * Spec_Zero.v : fields whose types have an IsZero method (C79). *)
From stdpp Require Import strings list.
From Verif Require Import Go Errors Message Reflect.

(** Every struct type that occurs in the value and has a method IsZero without arguments has one with exactly one result, a bool,
    and does not occur in an unexported field.  [hidden]: the value itself is in one. *)
Fixpoint proper (hidden : bool) (v : gval) : Prop :=
  match v with
  | VStruct m l =>
      match m with IsZero O outs _ => outs = [true] /\ hidden = false | _ => True end /\
      (fix go l := match l with [] => True | (exported, x) :: l' => proper (hidden || negb exported) x /\ go l' end) l
  | VArray l => (fix go l := match l with [] => True | x :: l' => proper hidden x /\ go l' end) l
  | _ => True
  end.

(** A time.Time: three unexported fields and a method IsZero. *)
Definition a_time (zero : bool) (wall ext loc : nat) : gval :=
  VStruct (IsZero 0 [true] zero) [(false, VBasic wall); (false, VBasic ext); (false, VBasic loc)].
