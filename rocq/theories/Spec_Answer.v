(** * Spec_Answer.v : what a call can return, whatever happens around it.

    [returns n p a]: if every operation of [p] is answered by some result that
    [ok] allows, for instance because other goroutines and the network changed
    the world in between, then [p] can end with [a] (after at most [n] nested
    steps).  Every schedule of the machine gives such answers, so what no
    [returns] allows happens in no schedule. *)
From Coq Require Import ZArith.
From stdpp Require Import gmap strings list relations.
From Verif Require Import Go Errors Message World Lang Code Sem.

Section returns.
Context (G : cfg) (ok : forall o : op, res o -> Prop).
Fixpoint returns (n : nat) {A : Type} (p : prog A) (a : A) : Prop :=
  match n with
  | O => False
  | S n =>
      match p with
      | Ret b => a = b
      | Do o k => exists r, ok o r /\ returns n (k r) a
      | Call api k => exists r, returns n (impl G api) r /\ returns n (k r) a
      | Crash _ => False
      end
  end.
Definition may_return {A : Type} (p : prog A) (a : A) : Prop := exists n, returns n p a.
End returns.

(** The peer of [c] never acknowledges. *)
Definition never_acked (c : cid) (o : op) : res o -> Prop :=
  match o as o return res o -> Prop with
  | OIsAcked c' => fun r => c' = c -> r = false
  | _ => fun _ => True
  end.
(** And [c] is never closed. *)
Definition never_acked_open (c : cid) (o : op) : res o -> Prop :=
  match o as o return res o -> Prop with
  | OIsAcked c' => fun r => c' = c -> r = false
  | OIsClosed c' => fun r => c' = c -> r = false
  | _ => fun _ => True
  end.

(** ** Schedules *)

(** Two programs that behave the same (equal up to the continuations being
    equal at every argument). *)
Fixpoint same {A : Type} (p q : prog A) : Prop :=
  match p, q with
  | Ret a, Ret b => a = b
  | Do o k, Do o' k' => exists E : o = o', forall r, same (k r) (k' (eq_rect o res r o' E))
  | Call a k, Call a' k' => exists E : a = a', forall r, same (k r) (k' (eq_rect a ares r a' E))
  | Crash why, Crash why' => why = why'
  | _, _ => False
  end.

(** [inside G p p']: a goroutine that began with [p] can be at [p']. *)
Inductive inside (G : cfg) {A : Type} (p : prog A) : prog A -> Prop :=
| inside_here : inside G p p
| inside_do o k r : inside G p (Do o k) -> inside G p (k r)
| inside_call a k : inside G p (Call a k) -> inside G p (bind (impl G a) k).

(** An execution all of whose worlds satisfy [J], at least up to its last step. *)
Definition while (G : cfg) (J : world -> Prop) : sys -> sys -> Prop :=
  rtc (fun s s' => J (s_w s) /\ sstep G s s').

(** In state [s], goroutine [t], which in an earlier state was about to do [p]
    and then [k], is still doing [p]. *)
Definition still (G : cfg) (s : sys) (t : tid) {A : Type} (p : prog A) (k : A -> prog (option tcode)) : Prop :=
  exists q p', s_th s !! t = Some q /\ inside G p p' /\ same q (bind p' k).
(** Goroutine [t] continues with [k a] in state [s]. *)
Definition got (s : sys) (t : tid) {A : Type} (k : A -> prog (option tcode)) (a : A) : Prop :=
  exists q, s_th s !! t = Some q /\ same q (k a).
