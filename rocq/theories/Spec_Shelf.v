(** * Spec_Shelf.v : the store of a connection in a state of the process. *)
From Coq Require Import ZArith.
From stdpp Require Import gmap strings list.
From RecordUpdate Require Import RecordUpdate.
From Verif Require Store.
From Verif Require Import Go Errors Message World Lang Code Sem.

Definition stored (v : sval) : Store.sval := match v with SInt z => Store.SInt z | SOther k => Store.SOther k end.
Definition shelf (w : world) (c : cid) : gmap string Store.sval := stored <$> c_store (conn_of w c).

(** Only connection [c] differs, and only in its store. *)
Definition others_kept (c : cid) (w w' : world) : Prop :=
  (forall c', c' <> c -> conn_of w' c' = conn_of w c') /\
  (w_nss w', w_chans w', w_procs w', w_srv w', w_log w', w_spawn w', w_ctxs w', w_now w') = (w_nss w, w_chans w, w_procs w, w_srv w, w_log w, w_spawn w, w_ctxs w, w_now w) /\
  exists st, conn_of w' c = (conn_of w c) <| c_store := st |>.
