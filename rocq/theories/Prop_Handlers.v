(** * Prop_Handlers.v : property theorems (generated by tools/genprops.py from HandlerProofs.v).
    Every proof is the lemma of the same name in HandlerProofs.v. *)
From stdpp Require Import gmap strings list.
From Verif Require Import Go World Handlers Spec_Handlers.
From Verif Require Import HandlerProofs.

(** C11.  Joining any list of handlers gives one Namespaces value.  Its callback for any
    namespace and event is that of the last handler defining it; it lists exactly the namespaces
    that some handler lists; no existing map is changed, and the maps of the result are new ones,
    so that changing the result later cannot change the handlers. *)
Theorem C11_join_handlers : forall (H : Type) (h : heap H) (l : list conn_handler),
  heap_ok h -> Forall (handler_ok h) l ->
  exists n h', JoinConnHandlers l h = (HNamespaces n, h') /\
  (forall ns ev, callback h' n ns ev = last_some (map (fun x => defines h x ns ev) l)) /\
  (forall ns, declared h' n ns <-> Exists (fun x => lists h x ns) l) /\
  untouched h h' /\
  (exists a, n = Some a /\ hp_nss h !! a = None) /\
  (forall ns a, nss_at h' n !! ns = Some (Some a) -> hp_events h !! a = None) /\
  heap_ok h' /\ handler_ok h' (HNamespaces n).
Proof. exact l_C11_join_handlers. Qed.
Print Assumptions C11_join_handlers.

(** Three handlers: Events, Namespaces (with a nil entry) and WithTimeout.  The event "a" of the
    empty namespace is defined three times, the last one wins. *)
Definition C11_heap : heap nat :=
  Heap {[0 := {["a" := 10; "b" := 11]}; 1 := {["a" := 20]}; 2 := {["c" := 30; "a" := 31]}]}
       {[3 := {["" := Some 1; "chat" := Some 2; "nil" := None]}]} 4 [1].
Definition C11_list : list conn_handler := [HEvents (Some 0); HNamespaces (Some 3); HWithTimeout (Some 3) (Some 2)].
Definition C11_result (ns ev : string) : option nat :=
  match JoinConnHandlers C11_list C11_heap with
  | (HNamespaces n, h') => callback h' n ns ev
  | _ => None
  end.
Example C11_example : heap_ok C11_heap /\ Forall (handler_ok C11_heap) C11_list /\
  C11_result "" "a" = Some 31 /\ C11_result "" "b" = Some 11 /\ C11_result "" "c" = Some 30 /\
  C11_result "chat" "a" = Some 31 /\ C11_result "nil" "a" = None.
Proof.
  split; [|split; [repeat constructor; vm_compute; eauto|repeat split; vm_compute; reflexivity]].
  split; [|split].
  - intros a m. unfold C11_heap. cbn. intros Ha.
    destruct (decide (a < 4)) as [|Hn]; [done|]. exfalso.
    rewrite !lookup_insert_ne in Ha by lia. rewrite lookup_singleton_ne in Ha by lia. done.
  - intros a m. unfold C11_heap. cbn. intros Ha. apply lookup_singleton_Some in Ha as [<- _]. lia.
  - intros a m ns e. unfold C11_heap. cbn. intros Ha Hm. apply lookup_singleton_Some in Ha as [_ <-].
    destruct e as [e|]; [|done]. cbn.
    rewrite lookup_insert_Some in Hm. destruct Hm as [[_ [= <-]]|[_ Hm]]; [vm_compute; eauto|].
    rewrite lookup_insert_Some in Hm. destruct Hm as [[_ [= <-]]|[_ Hm]]; [vm_compute; eauto|].
    apply lookup_singleton_Some in Hm as [_ [=]].
Qed.

(** C11.  Namespaces.On registers one callback: the others of this Namespaces value stay as they are, unless two of its
    namespaces share one Events map; it panics only on a nil map. *)
Theorem C11_on : forall (H : Type) (h : heap H) (n : mref) (ns ev : string) (f : H),
  heap_ok h -> ref_ok (hp_nss h) n ->
  match n with
  | None => exists why, namespaces_On n ns ev f h = Panic why
  | Some _ =>
      exists e h', namespaces_On n ns ev f h = Ok (e, h') /\ heap_ok h' /\
      callback h' n ns ev = Some f /\
      forall ns' ev', (ns' <> ns \/ ev' <> ev) ->
        (forall a, nss_at h n !! ns = Some (Some a) -> ns' <> ns -> nss_at h n !! ns' <> Some (Some a)) ->
        callback h' n ns' ev' = callback h n ns' ev'
  end.
Proof. exact l_C11_on. Qed.
Print Assumptions C11_on.

(** C11.  Events.On registers one callback: the other events of this Events value, all other Events values and all
    Namespaces values stay as they are; it panics only on a nil map. *)
Theorem C11_events_on : forall (H : Type) (h : heap H) (e : mref) (ev : string) (f : H),
  match e with
  | None => exists why, events_On e ev f h = Panic why
  | Some _ =>
      exists h', events_On e ev f h = Ok h' /\ events_at h' e !! ev = Some f /\
      (forall ev', ev' <> ev -> events_at h' e !! ev' = events_at h e !! ev') /\
      (forall e', e' <> e -> events_at h' e' = events_at h e') /\ (forall n, nss_at h' n = nss_at h n)
  end.
Proof. exact l_C11_events_on. Qed.
Print Assumptions C11_events_on.

(** On with a known and with a new namespace. *)
Example C11_on_example : heap_ok C11_heap /\ ref_ok (hp_nss C11_heap) (Some 3) /\
  (forall ns', ns' <> "chat" -> nss_at C11_heap (Some 3) !! ns' <> Some (Some 2)) /\
  match namespaces_On (Some 3) "new" "x" 77 C11_heap with
  | Ok (_, h') => callback h' (Some 3) "new" "x" = Some 77 /\ callback h' (Some 3) "chat" "c" = Some 30
  | Panic _ => False
  end /\
  match events_On (Some 2) "x" 77 C11_heap with
  | Ok h' => callback h' (Some 3) "chat" "x" = Some 77 /\ callback h' (Some 3) "chat" "c" = Some 30
  | Panic _ => False
  end.
Proof.
  split; [apply C11_example|]. split; [vm_compute; eauto|]. split; [|vm_compute; auto].
  intros ns' Hn H. change (nss_at C11_heap (Some 3)) with (<["" := Some 1]> (<["chat" := Some 2]> {["nil" := None]}) : gmap string mref) in H.
  apply lookup_insert_Some in H as [[_ H]|[_ H]]; [discriminate H|]. apply lookup_insert_Some in H as [[H _]|[_ H]]; [congruence|].
  apply lookup_singleton_Some in H as [_ H]. discriminate H.
Qed.
