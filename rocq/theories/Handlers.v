(** * Handlers.v : ConnHandler values and JoinConnHandlers (conn_handler.go).

    Events and Namespaces are Go maps, that is references.  They live in a heap
    so that "the given maps are not modified" can be said.  A callback is an
    element of an arbitrary type [H]. *)
From stdpp Require Import gmap strings list.
From RecordUpdate Require Import RecordUpdate.
From Verif Require Import Go World.

(** A map header, or nil. *)
Notation mref := (option nat).

Section handlers.
Context {H : Type}.

(** [hp_events]: the Events maps (conn_handler.go:32); [hp_nss]: the
    Namespaces maps (conn_handler.go:61); [hp_seeds] resolves map iteration
    order. *)
Record heap : Type := Heap {
  hp_events : gmap nat (gmap string H);
  hp_nss : gmap nat (gmap string mref);
  hp_next : nat;
  hp_seeds : list nat }.

(** Reading a nil map gives nothing. *)
Definition events_at (h : heap) (e : mref) : gmap string H :=
  match e with Some a => default ∅ (hp_events h !! a) | None => ∅ end.
Definition nss_at (h : heap) (n : mref) : gmap string mref :=
  match n with Some a => default ∅ (hp_nss h !! a) | None => ∅ end.

Definition set_events (a : nat) (m : gmap string H) (h : heap) : heap :=
  Heap (<[a := m]> (hp_events h)) (hp_nss h) (hp_next h) (hp_seeds h).
Definition set_nss (a : nat) (m : gmap string mref) (h : heap) : heap :=
  Heap (hp_events h) (<[a := m]> (hp_nss h)) (hp_next h) (hp_seeds h).
(** [make(Events)], [Namespaces{...}] *)
Definition new_events (m : gmap string H) (h : heap) : nat * heap :=
  (hp_next h, Heap (<[hp_next h := m]> (hp_events h)) (hp_nss h) (S (hp_next h)) (hp_seeds h)).
Definition new_nss (m : gmap string mref) (h : heap) : nat * heap :=
  (hp_next h, Heap (hp_events h) (<[hp_next h := m]> (hp_nss h)) (S (hp_next h)) (hp_seeds h)).

(** [for k, v := range m]: the entries in some order *)
Definition range {V} (m : gmap string V) (h : heap) : list (string * V) * heap :=
  (permute (hd 0 (hp_seeds h)) (map_to_list m), Heap (hp_events h) (hp_nss h) (hp_next h) (tl (hp_seeds h))).

(** The ConnHandler implementations (conn_handler.go:16-21).  A Struct is given
    by its namespace and its Events, which Reflect.v builds. *)
Inductive conn_handler : Type :=
| HEvents (e : mref)
| HNamespaces (n : mref)
| HWithTimeout (n : mref) (e : mref)
| HStruct (namespace : string) (e : nat).

(** conn_handler.go:51-53 Events.On; panics on a nil map *)
Definition events_On (e : mref) (name : string) (f : H) (h : heap) : result heap :=
  match e with
  | Some a => Ok (set_events a (<[name := f]> (events_at h e)) h)
  | None => Panic "assignment to entry in nil map"
  end.

(** conn_handler.go:68-77 Namespaces.On *)
Definition namespaces_On (n : mref) (namespace name : string) (f : H) (h : heap) : result (mref * heap) :=
  match n with
  | None => Panic "assignment to entry in nil map"
  | Some a =>
      let h1 := match default None (nss_at h n !! namespace) with
                | None => let (e, h') := new_events ∅ h in
                          set_nss a (<[namespace := Some e]> (nss_at h' n)) h'
                | Some _ => h
                end in
      let cur := default None (nss_at h1 n !! namespace) in
      match cur with
      | Some e => Ok (cur, set_events e (<[name := f]> (events_at h1 cur)) h1)
      | None => Panic "assignment to entry in nil map"
      end
  end.

(** conn_handler.go:290-310: the body of the two loops of JoinConnHandlers for
    one namespace of one handler; [out] is the map under construction *)
Definition join_events (out : nat) (namespace : string) (e : mref) (h : heap) : heap :=
  match e with
  | None => h
  | Some _ =>
      let (entries, h) := range (events_at h e) h in
      let (cloned, h) := new_events ∅ h in
      let h := fold_left (fun h p => set_events cloned (<[fst p := snd p]> (events_at h (Some cloned))) h) entries h in
      match nss_at h (Some out) !! namespace with
      | Some cur =>
          let (entries, h) := range (events_at h (Some cloned)) h in
          match cur with
          | Some a => fold_left (fun h p => set_events a (<[fst p := snd p]> (events_at h (Some a))) h) entries h
          | None => h (* not reached: the maps stored in [out] are not nil *)
          end
      | None => set_nss out (<[namespace := Some cloned]> (nss_at h (Some out))) h
      end
  end.

(** conn_handler.go:283-314 JoinConnHandlers, for any way [get] to call GetNamespaces *)
Definition join_with (get : conn_handler -> heap -> mref * heap) (l : list conn_handler) (h : heap) : mref * heap :=
  let (out, h) := new_nss ∅ h in
  (Some out,
   fold_left (fun h x =>
     let (nss, h) := get x h in
     let (entries, h) := range (nss_at h nss) h in
     fold_left (fun h p => join_events out (fst p) (snd p) h) entries h) l h).

(** GetNamespaces of Events, Namespaces and Struct (conn_handler.go:35-37, 64,
    269-278).  Struct.namespace was resolved before. *)
Definition get_simple (x : conn_handler) (h : heap) : mref * heap :=
  match x with
  | HEvents e => let (a, h) := new_nss {["" := e]} h in (Some a, h)
  | HNamespaces n => (n, h)
  | HStruct ns e => let (a, h) := new_nss {[ns := Some e]} h in (Some a, h)
  | HWithTimeout _ _ => (None, h) (* not used *)
  end.

(** GetNamespaces; for WithTimeout conn_handler.go:93-95 *)
Definition GetNamespaces (x : conn_handler) (h : heap) : mref * heap :=
  match x with
  | HWithTimeout n e => join_with get_simple [HNamespaces n; HEvents e] h
  | _ => get_simple x h
  end.

(** conn_handler.go:283-314 *)
Definition JoinConnHandlers (l : list conn_handler) (h : heap) : conn_handler * heap :=
  let (n, h) := join_with GetNamespaces l h in (HNamespaces n, h).

End handlers.
Arguments heap : clear implicits.
