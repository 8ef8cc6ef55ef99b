(** * Spec_Handlers.v : what it means that a ConnHandler defines a callback. *)
From stdpp Require Import gmap strings list.
From Verif Require Import Handlers.

Section spec.
Context {H : Type}.

(** The callback that [Namespaces] value [n] holds for an event of a namespace. *)
Definition callback (h : heap H) (n : mref) (ns ev : string) : option H :=
  match nss_at h n !! ns with
  | Some e => events_at h e !! ev
  | None => None
  end.

(** [n] lists the namespace with Events that are not nil. *)
Definition declared (h : heap H) (n : mref) (ns : string) : Prop :=
  exists a, nss_at h n !! ns = Some (Some a).

(** What a handler defines, read off its documentation. *)
Definition defines (h : heap H) (x : conn_handler) (ns ev : string) : option H :=
  match x with
  | HEvents e => if decide (ns = "") then events_at h e !! ev else None
  | HNamespaces n => callback h n ns ev
  | HStruct s e => if decide (ns = s) then events_at h (Some e) !! ev else None
  | HWithTimeout n e =>
      match (if decide (ns = "") then events_at h e !! ev else None) with
      | Some f => Some f
      | None => callback h n ns ev
      end
  end.

Definition lists (h : heap H) (x : conn_handler) (ns : string) : Prop :=
  match x with
  | HEvents e => ns = "" /\ e <> None
  | HNamespaces n => declared h n ns
  | HStruct s _ => ns = s
  | HWithTimeout n e => declared h n ns \/ (ns = "" /\ e <> None)
  end.

(** The last [Some] of a list. *)
Fixpoint last_some {A} (l : list (option A)) : option A :=
  match l with
  | [] => None
  | x :: l' => match last_some l' with Some y => Some y | None => x end
  end.

(** Every reference points to an allocated map. *)
Definition ref_ok {V} (m : gmap nat V) (r : mref) : Prop :=
  match r with Some a => is_Some (m !! a) | None => True end.
Definition heap_ok (h : heap H) : Prop :=
  (forall a m, hp_events h !! a = Some m -> a < hp_next h) /\
  (forall a m, hp_nss h !! a = Some m -> a < hp_next h) /\
  (forall a m ns e, hp_nss h !! a = Some m -> m !! ns = Some e -> ref_ok (hp_events h) e).
Definition handler_ok (h : heap H) (x : conn_handler) : Prop :=
  match x with
  | HEvents e => ref_ok (hp_events h) e
  | HNamespaces n => ref_ok (hp_nss h) n
  | HStruct _ e => ref_ok (hp_events h) (Some e)
  | HWithTimeout n e => ref_ok (hp_nss h) n /\ ref_ok (hp_events h) e
  end.

(** No map that existed in [h] has another content in [h']. *)
Definition untouched (h h' : heap H) : Prop :=
  (forall a m, hp_events h !! a = Some m -> hp_events h' !! a = Some m) /\
  (forall a m, hp_nss h !! a = Some m -> hp_nss h' !! a = Some m).

End spec.
