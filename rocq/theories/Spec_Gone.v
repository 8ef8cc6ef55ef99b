(** * Spec_Gone.v : broadcasts and functions for the server loop, read off a history (C67). *)
From Coq Require Import ZArith.
From stdpp Require Import gmap strings list relations.
From Verif Require Import Go Errors Message World Lang Code Sem.

(** IsClosed returns true. *)
Definition is_closed (G : cfg) (s : sys) (c : cid) : Prop := forall t, exec t (impl G (AIsClosed c)) (s_w s) = XDone (s_w s) true.

(** The broadcasts that the server loop took up (most recent first). *)
Definition casts (l : list event) : list (list message) :=
  omap (fun e => match e with LSrv (SBroadcast msgs) => Some msgs | _ => None end) l.

(** The functions passed to Do that the server loop took up (most recent first). *)
Definition dos (l : list event) : list nat :=
  omap (fun e => match e with LSrv (SAction (Act (ActUser k) _ _)) => Some k | _ => None end) l.
