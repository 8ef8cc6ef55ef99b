(** * Spec_Pair.v : the callbacks of a connection, in the order in which they ran. *)
From Coq Require Import ZArith.
From stdpp Require Import gmap strings list relations.
From Verif Require Import Go Errors Message World Lang Code Sem.

(** The callbacks that ran for connection [c]: namespace and event, first one first. *)
Definition fired (c : cid) (l : list event) : list (string * string) :=
  omap (fun e => match e with LFire n ev _ => if decide (n_conn n = c) then Some (n_name n, ev) else None | _ => None end) (rev l).

(** No goroutine is left but the one of the server, which waits for the next event. *)
Definition nothing_left (s : sys) : Prop := forall (t : tid) p, s_th s !! t = Some p -> t = 0 /\ exists k, p = Do OSrvSelect k.
