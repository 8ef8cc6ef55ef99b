(** * Spec_Store.v : counters. *)
From Coq Require Import ZArith.
From stdpp Require Import gmap strings list.
From Verif Require Import Store.

(** The number a counter stands for: zero if there is none yet or the value is
    not an int. *)
Definition counter (st : store) (key : string) : Z :=
  match store_Get st key with SInt z => z | _ => 0%Z end.

(** A Go int. *)
Definition is_int (z : Z) : Prop := (- 2 ^ 63 <= z < 2 ^ 63)%Z.

(** [n] calls in a row. *)
Fixpoint times {A} (n : nat) (f : A -> A) (x : A) : A := match n with O => x | S n' => times n' f (f x) end.

Definition finished (t : sthread) : Prop := exists z, t = TDone z.
