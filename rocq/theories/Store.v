(** * Store.v : the value store of a connection (conn.go:186-269). *)
From Coq Require Import ZArith.
From stdpp Require Import gmap strings list.

(** A Go interface{} value in the store, as far as the code looks at it: nil, an
    int, or something else. *)
Inductive sval : Type := SNil | SInt (z : Z) | SOther (id : nat).
Notation store := (gmap string sval).

(** 64 bit int arithmetic *)
Definition wrap64 (z : Z) : Z := ((z + 2 ^ 63) mod 2 ^ 64 - 2 ^ 63)%Z.

(** conn.go:197-207 Get: nil for an absent key or a nil map *)
Definition store_Get (st : store) (key : string) : sval := default SNil (st !! key).
(** conn.go:187-194 Set *)
Definition store_Set (st : store) (key : string) (v : sval) : store := <[key := v]> st.

(** conn.go:222-236 and 255-268: what Increment ([d] = 1) and Decrement ([d] = -1)
    store and return when Get gave [v] *)
Definition bump_value (d : Z) (v : sval) : Z :=
  match v with
  | SNil => d
  | SInt z => wrap64 (z + d)
  | SOther _ => d
  end.

(** conn.go:219-237 Increment and conn.go:252-269 Decrement, undisturbed *)
Definition Increment (st : store) (key : string) : Z * store :=
  let z := bump_value 1 (store_Get st key) in (z, store_Set st key (SInt z)).
Definition Decrement (st : store) (key : string) : Z * store :=
  let z := bump_value (-1) (store_Get st key) in (z, store_Set st key (SInt z)).

(** Goroutines that call Increment or Decrement.  Get and Set are atomic (each
    holds storeMutex), the two together are not. *)
Inductive sthread : Type :=
| TStart (d : Z) (key : string)                 (* before Get *)
| TRead (d : Z) (key : string) (v : sval)       (* between Get and Set *)
| TDone (result : Z).

Definition sthread_step (st : store) (t : sthread) : store * sthread :=
  match t with
  | TStart d key => (st, TRead d key (store_Get st key))
  | TRead d key v => let z := bump_value d v in (store_Set st key (SInt z), TDone z)
  | TDone z => (st, TDone z)
  end.

(** A schedule says which goroutine moves next. *)
Fixpoint store_run (sched : list nat) (st : store) (ts : list sthread) : store * list sthread :=
  match sched with
  | [] => (st, ts)
  | i :: sched' =>
      match ts !! i with
      | Some t => let '(st', t') := sthread_step st t in store_run sched' st' (<[i := t']> ts)
      | None => store_run sched' st ts
      end
  end.
