(** * RouteProofs.v : routing of published messages through redis and nats. *)
From Coq Require Import String Ascii Lia.
From stdpp Require Import gmap strings list.
From Verif Require Import Go Errors Message Spec_Wire CodecProofs Exchange Spec_Exchange.

(*@file Prop_Route.v
From Coq Require Import String Ascii.
From stdpp Require Import gmap strings list.
From Verif Require Import Go Errors Message Spec_Wire Exchange Spec_Exchange. @*)

Lemma glob_plain p : plain p -> forall n s, String.length p < n -> glob n p s = String.eqb p s.
Proof.
  induction p as [|c p IH]; intros Hp n s Hn; (destruct n as [|n]; [lia|]).
  - cbn. by destruct s.
  - unfold plain in Hp. cbn in Hp. apply Forall_cons in Hp as [(H1 & H2 & H3 & H4) Hp].
    cbn in Hn. assert (IH' := fun s => IH Hp n s ltac:(lia)).
    transitivity (match s with EmptyString => false | String d s' => Ascii.eqb c d && glob n p s' end).
    + destruct c as [[] [] [] [] [] [] [] []]; try reflexivity; by exfalso.
    + destruct s as [|d s]; [done|]. rewrite IH'. cbn. destruct (Ascii.eqb_spec c d) as [->|Hne]; cbn.
      * done.
      * done.
Qed.

Lemma chars_app a b : list_ascii_of_string (a ++ b)%string = (list_ascii_of_string a ++ list_ascii_of_string b)%list.
Proof. induction a as [|c a IH]; cbn; [done|]. by rewrite <- IH. Qed.
Lemma chars_inj a b : list_ascii_of_string a = list_ascii_of_string b -> a = b.
Proof. intros E. by rewrite <- (string_of_list_ascii_of_string a), E, string_of_list_ascii_of_string. Qed.

Definition rchan (prefix n : string) : string := (prefix ++ "." ++ n ++ ".")%string.
Definition nchan (prefix n : string) : string := (prefix ++ "." ++ n)%string.
Lemma rchan_inj prefix a b : rchan prefix a = rchan prefix b -> a = b.
Proof.
  intros E. apply (f_equal list_ascii_of_string) in E. unfold rchan in E. rewrite !chars_app in E.
  apply app_inv_head in E. apply app_inv_head in E. apply app_inv_tail in E. by apply chars_inj.
Qed.
Lemma nchan_inj prefix a b : nchan prefix a = nchan prefix b -> a = b.
Proof.
  intros E. apply (f_equal list_ascii_of_string) in E. unfold nchan in E. rewrite !chars_app in E.
  apply app_inv_head in E. apply app_inv_head in E. by apply chars_inj.
Qed.
Lemma rchan_plain prefix n : plain prefix -> plain n -> plain (rchan prefix n).
Proof.
  unfold plain, rchan. rewrite !chars_app, !Forall_app. intros H1 H2.
  assert (Forall (fun c => c <> "*"%char /\ c <> "?"%char /\ c <> "["%char /\ c <> "\"%char) (list_ascii_of_string "."))
    by (repeat constructor; discriminate).
  done.
Qed.

Lemma redis_channel_id prefix id : redis_getChannel prefix "" "" id = Ok (rchan prefix id).
Proof. unfold redis_getChannel. by destruct id. Qed.
Lemma redis_channel_ns prefix ns : redis_getChannel prefix ns "" "" = Ok (rchan prefix ns).
Proof. unfold redis_getChannel. by destruct ns. Qed.
Lemma nats_subject_id prefix id : nats_getSubject prefix "" "" id = Ok (nchan prefix id).
Proof. unfold nats_getSubject. by destruct id. Qed.
Lemma nats_subject_ns prefix ns : nats_getSubject prefix ns "" "" = Ok (nchan prefix ns).
Proof. unfold nats_getSubject. by destruct ns. Qed.

(* the name that stands for the receivers of a message *)
Definition target (m : message) : string := if is_empty (m_to m) then m_namespace m else m_to m.
Lemma redis_channel_msg prefix m ch :
  redis_getChannel prefix (m_namespace m) (m_room m) (m_to m) = Ok ch -> ch = rchan prefix (target m).
Proof.
  unfold redis_getChannel, target. destruct (is_empty (m_to m)); cbn; [|by intros [= <-]].
  destruct (_ && _); [done|]. by intros [= <-].
Qed.
Lemma nats_subject_msg prefix m ch :
  nats_getSubject prefix (m_namespace m) (m_room m) (m_to m) = Ok ch -> ch = nchan prefix (target m).
Proof.
  unfold nats_getSubject, target. destruct (is_empty (m_to m)); cbn; [|by intros [= <-]].
  destruct (_ && _); [done|]. by intros [= <-].
Qed.
Lemma target_meant c m id nss l : id_apart c id l m nss ->
  (target m = id \/ target m ∈ nss) <-> meant_for m id nss.
Proof.
  intros (_ & H2 & H3). unfold target, meant_for. destruct (m_to m) as [|a s] eqn:E; cbn.
  - specialize (H2 eq_refl). split; [intros [?|?]; [done|by right]|]. intros [[? ?]|[_ ?]]; [done|by right].
  - assert (Hs : String a s <> ""%string) by done. specialize (H3 Hs). split; [intros [?|?]; [by left|done]|].
    intros [[? ?]|[? _]]; [by left|done].
Qed.

(** ** Counting deliveries *)
Lemma filter_one {A} (f : A -> bool) (l : list A) x :
  NoDup l -> x ∈ l -> f x = true -> (forall y, y ∈ l -> f y = true -> y = x) -> length (List.filter f l) = 1.
Proof.
  induction l as [|a l IH]; intros Hnd Hx Hf Hall; [by apply elem_of_nil in Hx|].
  apply NoDup_cons in Hnd as [Ha Hnd]. cbn. destruct (f a) eqn:Efa.
  - assert (a = x) as -> by (apply Hall; [left|done]). cbn. f_equal.
    assert (Hn : forall y, y ∈ l -> f y = false).
    { intros y Hy. destruct (f y) eqn:E; [|done]. exfalso. apply Ha. rewrite <- (Hall y); [done|by right|done]. }
    clear -Hn. induction l as [|y l IH]; [done|]. cbn. rewrite Hn by left. apply IH. intros z Hz. apply Hn. by right.
  - apply elem_of_cons in Hx as [->|Hx]; [congruence|]. apply IH; auto. intros y Hy. apply Hall. by right.
Qed.
Lemma filter_none {A} (f : A -> bool) (l : list A) : (forall y, y ∈ l -> f y = false) -> length (List.filter f l) = 0.
Proof. induction l as [|y l IH]; intros Hn; [done|]. cbn. rewrite Hn by left. apply IH. intros z Hz. apply Hn. by right. Qed.

Lemma copies_app c a b : copies c (a ++ b) = copies c a + copies c b.
Proof. unfold copies. by rewrite filter_app, app_length. Qed.
Lemma copies_same {A} c d (b : string) (l : list A) :
  copies c (map (fun _ => (d, b)) l) = if decide (d = c) then length l else 0.
Proof.
  unfold copies. induction l as [|x l IH]; cbn [map].
  - cbn. by destruct (decide _).
  - rewrite filter_cons. cbn [fst]. destruct (decide (d = c)) as [->|Hne].
    + cbn. rewrite IH. done.
    + rewrite IH. done.
Qed.
Lemma bind_cons' {A B} (f : A -> list B) x l : (x :: l) ≫= f = f x ++ (l ≫= f).
Proof. done. Qed.
Lemma copies_bind {K B} (c : nat) (b : string) (f : K -> list B) (s : gmap nat K) :
  copies c (map_to_list s ≫= fun p => map (fun _ => (p.1, b)) (f p.2)) =
  match s !! c with Some k => length (f k) | None => 0 end.
Proof.
  assert (Hnd := NoDup_fst_map_to_list s).
  assert (Hin : forall k, (c, k) ∈ map_to_list s <-> s !! c = Some k) by (intros; apply elem_of_map_to_list).
  destruct (s !! c) as [k|] eqn:E.
  - assert (Hk : (c, k) ∈ map_to_list s) by by apply Hin.
    clear Hin E. induction (map_to_list s) as [|[d x] l IH]; [by apply elem_of_nil in Hk|].
    cbn [fmap list_fmap fst snd] in Hnd. apply NoDup_cons in Hnd as [Hd Hnd]. rewrite bind_cons', copies_app, copies_same. cbn [fst snd].
    apply elem_of_cons in Hk as [[= <- <-]|Hk].
    + rewrite decide_True by done.
      assert (copies c (l ≫= fun p => map (fun _ => (p.1, b)) (f p.2)) = 0) as H0; [|lia].
      clear -Hd. induction l as [|[e y] l IH]; [done|]. cbn [fmap list_fmap fst snd] in Hd. rewrite bind_cons', copies_app, copies_same. cbn [fst snd].
      apply not_elem_of_cons in Hd as [Hne Hd]. rewrite decide_False by done. rewrite (IH Hd). done.
    + rewrite decide_False; [by apply IH|]. intros ->. apply Hd. by apply elem_of_list_fmap_1 with (f := fst) in Hk.
  - assert (Hno : forall k, (c, k) ∉ map_to_list s) by (intros k Hk; apply Hin in Hk; congruence).
    clear Hin E Hnd. induction (map_to_list s) as [|[d x] l IH]; [done|].
    rewrite bind_cons', copies_app, copies_same. cbn [fst snd]. rewrite decide_False; [apply IH|].
    + intros k Hk. apply (Hno k). by right.
    + intros ->. apply (Hno x). left.
Qed.
Lemma in_bind {K B} (b : string) (f : K -> list B) (l : list (nat * K)) p :
  In p (l ≫= fun p => map (fun _ => (p.1, b)) (f p.2)) -> p.2 = b.
Proof.
  induction l as [|x l IH]; [done|]. rewrite bind_cons', in_app_iff, in_map_iff. intros [(? & <- & _)|H]; [done|auto].
Qed.

Lemma Permutation_filter_bool {A} (f : A -> bool) (l l' : list A) : l ≡ₚ l' -> List.filter f l ≡ₚ List.filter f l'.
Proof.
  induction 1; cbn; [done| | |by etrans].
  - destruct (f x); [by constructor|done].
  - destruct (f x), (f y); try done. by constructor.
Qed.

(** ** redis *)
Lemma redis_run_snoc prefix l e : redis_run prefix (l ++ [e]) = redis_step prefix (redis_run prefix l) e.
Proof. unfold redis_run. by rewrite fold_left_app. Qed.

Lemma redis_state prefix c l :
  match subscribed c (rev l) with
  | None => redis_run prefix l !! c = None
  | Some (id, nss) => (forall ns, XEUnsubscribe c ns ∈ l -> ns <> id) ->
      redis_run prefix l !! c = Some ({[ rchan prefix id ]} ∪ set_map (rchan prefix) nss)
  end.
Proof.
  induction l as [|e l IH] using rev_ind; [done|].
  rewrite rev_unit, redis_run_snoc. cbn [subscribed]. destruct e as [d id|d ns|d ns|d]; cbn [redis_step].
  - rewrite redis_channel_id. destruct (decide (d = c)) as [->|Hne].
    + intros _. rewrite lookup_insert. f_equal. set_solver.
    + destruct (subscribed c (rev l)) as [[id' nss]|]; rewrite lookup_insert_ne by done; [|exact IH].
      intros Hu. apply IH. intros ns Hns. apply Hu. set_solver.
  - rewrite redis_channel_ns. destruct (decide (d = c)) as [->|Hne].
    + destruct (subscribed c (rev l)) as [[id' nss]|]; cbn.
      * intros Hu. rewrite IH by (intros n Hn; apply Hu; set_solver). rewrite lookup_insert. f_equal. set_solver.
      * by rewrite IH.
    + assert (E : (match redis_run prefix l !! d with Some l0 => <[d:={[rchan prefix ns]} ∪ l0]> (redis_run prefix l) | None => redis_run prefix l end) !! c = redis_run prefix l !! c).
      { destruct (redis_run prefix l !! d); [by rewrite lookup_insert_ne|done]. }
      rewrite E. destruct (subscribed c (rev l)) as [[id' nss]|]; [|exact IH].
      intros Hu. apply IH. intros n Hn. apply Hu. set_solver.
  - rewrite redis_channel_ns. destruct (decide (d = c)) as [->|Hne].
    + destruct (subscribed c (rev l)) as [[id' nss]|]; cbn.
      * intros Hu. rewrite IH by (intros n Hn; apply Hu; set_solver). rewrite lookup_insert. f_equal.
        assert (ns <> id') by (apply Hu; set_solver).
        apply leibniz_equiv. intros x. rewrite elem_of_difference, !elem_of_union, !elem_of_singleton, !elem_of_map. split.
        -- intros [[->|(y & -> & Hy)] Hx]; [by left|]. right. exists y. split; [done|]. set_solver.
        -- intros [->|(y & -> & Hy)].
           ++ split; [by left|]. intros E. apply rchan_inj in E. congruence.
           ++ split; [right; exists y; set_solver|]. intros E. apply rchan_inj in E. set_solver.
      * by rewrite IH.
    + assert (E : (match redis_run prefix l !! d with Some l0 => <[d:=l0 ∖ {[rchan prefix ns]}]> (redis_run prefix l) | None => redis_run prefix l end) !! c = redis_run prefix l !! c).
      { destruct (redis_run prefix l !! d); [by rewrite lookup_insert_ne|done]. }
      rewrite E. destruct (subscribed c (rev l)) as [[id' nss]|]; [|exact IH].
      intros Hu. apply IH. intros n Hn. apply Hu. set_solver.
  - destruct (decide (d = c)) as [->|Hne].
    + apply lookup_delete.
    + rewrite lookup_delete_ne by done. destruct (subscribed c (rev l)) as [[id' nss]|]; [|exact IH].
      intros Hu. apply IH. intros n Hn. apply Hu. set_solver.
Qed.

(*@prop C44 (redis).  After every history of connects, subscriptions and disconnects, on any number of
    servers, a published message reaches a connection exactly once if it is meant for it (its ID, or
    without receiver one of its namespaces) and not at all otherwise; what it gets is the serialized
    message.  Provided that the names have no pattern bytes and the ID is not used as a namespace. @*)
Lemma l_C44_redis : forall prefix l c m ds,
  plain prefix -> redis_publish prefix (redis_run prefix l) m = Ok ds ->
  (forall p, In p ds -> serializeMessage m = Ok (snd p)) /\
  match subscribed c (rev l) with
  | None => copies c ds = 0
  | Some (id, nss) =>
      plain id -> (forall ns, ns ∈ nss -> plain ns) -> id_apart c id l m nss ->
      (meant_for m id nss -> copies c ds = 1) /\ (~ meant_for m id nss -> copies c ds = 0)
  end.
Proof.
  intros prefix l c m ds Hp Hpub. unfold redis_publish in Hpub.
  destruct (redis_getChannel _ _ _ _) as [ch|] eqn:Ech; [|done]. apply redis_channel_msg in Ech as ->.
  destruct (serializeMessage m) as [b|] eqn:Eb; [|done]. injection Hpub as <-. split.
  { intros p Hin. apply (in_bind b (fun k => List.filter (fun pat => redis_match pat _) (elements k))) in Hin as ->. done. }
  rewrite (copies_bind c b (fun k => List.filter (fun pat => redis_match pat _) (elements k))). assert (Hst := redis_state prefix c l).
  destruct (subscribed c (rev l)) as [[id nss]|]; [|by rewrite Hst].
  intros Hid Hnss Hap. assert (Hm := target_meant _ _ _ _ _ Hap). rewrite Hst by (destruct Hap; auto). clear Hst.
  assert (Hmatch : forall pat, pat ∈ {[ rchan prefix id ]} ∪ (set_map (rchan prefix) nss : gset string) ->
            redis_match pat (rchan prefix (target m)) = true <-> pat = rchan prefix (target m)).
  { intros pat Hpat. unfold redis_match. rewrite glob_plain; [apply String.eqb_eq| |lia].
    apply elem_of_union in Hpat as [Hpat|Hpat].
    - apply elem_of_singleton in Hpat as ->. by apply rchan_plain.
    - apply elem_of_map in Hpat as (ns & -> & Hns). apply rchan_plain; auto. }
  assert (Hin : rchan prefix (target m) ∈ {[ rchan prefix id ]} ∪ (set_map (rchan prefix) nss : gset string) <-> meant_for m id nss).
  { rewrite <- Hm, elem_of_union, elem_of_singleton, elem_of_map. split.
    - intros [E|(y & E & Hy)]; apply rchan_inj in E; subst; auto.
    - intros [->|Hy]; [by left|]. right. eauto. }
  split; intros Hmf.
  - apply Hin in Hmf. apply filter_one with (x := rchan prefix (target m)).
    + apply NoDup_elements.
    + by apply elem_of_elements.
    + by apply Hmatch.
    + intros y Hy. apply elem_of_elements in Hy. apply Hmatch. done.
  - apply filter_none. intros y Hy. apply elem_of_elements in Hy.
    destruct (redis_match y _) eqn:E; [|done]. apply Hmatch in E as ->; [|done]. exfalso. by apply Hmf, Hin.
Qed.

(** ** nats *)
Lemma nats_run_snoc prefix l e : nats_run prefix (l ++ [e]) = nats_step prefix (nats_run prefix l) e.
Proof. unfold nats_run. by rewrite fold_left_app. Qed.

Definition nat_inv (prefix id : string) (nss : gset string) (k : natsub) : Prop :=
  0 < ns_next k /\ ns_open k !! 0 = Some (nchan prefix id) /\
  (forall i sj, ns_open k !! i = Some sj -> i < ns_next k) /\
  (forall i sj, i <> 0 -> ns_open k !! i = Some sj -> exists ns, ns ∈ nss /\ sj = nchan prefix ns /\ ns_handles k !! sj = Some i) /\
  (forall ns, ns ∈ nss -> exists i, i <> 0 /\ ns_handles k !! nchan prefix ns = Some i /\ ns_open k !! i = Some (nchan prefix ns)) /\
  (forall sj i, ns_handles k !! sj = Some i -> 0 < i < ns_next k) /\
  (forall sj sj' i, ns_handles k !! sj = Some i -> ns_handles k !! sj' = Some i -> sj = sj').

Lemma nat_inv_sub prefix id nss k ns : nat_inv prefix id nss k -> ns ∉ nss ->
  nat_inv prefix id ({[ ns ]} ∪ nss)
    (NatSub (S (ns_next k)) (<[ns_next k := nchan prefix ns]> (ns_open k)) (<[nchan prefix ns := ns_next k]> (ns_handles k))).
Proof.
  intros (H0 & H1 & H2 & H3 & H4 & H5 & H6) Hns. unfold nat_inv. cbn. repeat apply conj.
  - lia.
  - by rewrite lookup_insert_ne by lia.
  - intros i sj. rewrite lookup_insert_Some. intros [[<- _]|[_ Hi]]; [lia|]. apply H2 in Hi. lia.
  - intros i sj Hi. rewrite lookup_insert_Some. intros [[<- <-]|[Hne Ho]].
    + exists ns. rewrite lookup_insert. set_solver.
    + destruct (H3 i sj Hi Ho) as (n & Hn & -> & Hh). exists n. split; [set_solver|]. split; [done|].
      rewrite lookup_insert_ne; [done|]. intros E. apply nchan_inj in E. congruence.
  - intros n Hn. apply elem_of_union in Hn as [Hn|Hn].
    + apply elem_of_singleton in Hn as ->. exists (ns_next k). rewrite !lookup_insert. split; [lia|done].
    + destruct (H4 n Hn) as (i & Hi & Hh & Ho). exists i. split; [done|].
      rewrite !lookup_insert_ne; [done| |].
      * apply H2 in Ho. lia.
      * intros E. apply nchan_inj in E. congruence.
  - intros sj i. rewrite lookup_insert_Some. intros [[_ <-]|[_ Hh]]; [lia|]. apply H5 in Hh. lia.
  - intros sj sj' i. rewrite !lookup_insert_Some. intros [[<- <-]|[? Hh]] [[<- E]|[? Hh']]; try done.
    + apply H5 in Hh'. lia.
    + subst. apply H5 in Hh. lia.
    + eauto.
Qed.
Lemma nat_inv_unsub prefix id nss k ns i : nat_inv prefix id nss k -> ns_handles k !! nchan prefix ns = Some i ->
  nat_inv prefix id (nss ∖ {[ ns ]}) (NatSub (ns_next k) (delete i (ns_open k)) (ns_handles k)).
Proof.
  intros (H0 & H1 & H2 & H3 & H4 & H5 & H6) Hns. unfold nat_inv. cbn. repeat apply conj; auto.
  - apply H5 in Hns. rewrite lookup_delete_ne by lia. done.
  - intros j sj. rewrite lookup_delete_Some. intros [_ Hj]. eauto.
  - intros j sj Hj. rewrite lookup_delete_Some. intros [Hne Ho]. destruct (H3 j sj Hj Ho) as (n & Hn & -> & Hh).
    exists n. split; [|done]. apply elem_of_difference. split; [done|]. rewrite elem_of_singleton. intros ->. congruence.
  - intros n Hn. apply elem_of_difference in Hn as [Hn Hne]. destruct (H4 n Hn) as (j & Hj & Hh & Ho). exists j.
    split; [done|]. split; [done|]. rewrite lookup_delete_ne; [done|]. intros <-.
    assert (E := H6 _ _ _ Hns Hh). apply nchan_inj in E. set_solver.
Qed.

Lemma nats_state prefix c l : no_resubscribe c (rev l) ->
  match subscribed c (rev l) with
  | None => nats_run prefix l !! c = None
  | Some (id, nss) => exists k, nats_run prefix l !! c = Some k /\ nat_inv prefix id nss k
  end.
Proof.
  induction l as [|e l IH] using rev_ind; [done|].
  rewrite rev_unit, nats_run_snoc. cbn [subscribed no_resubscribe]. intros [Hno Hlast]. specialize (IH Hno).
  destruct e as [d id|d ns|d ns|d]; cbn [nats_step].
  - rewrite nats_subject_id. destruct (decide (d = c)) as [->|Hne].
    + eexists. rewrite lookup_insert. split; [done|]. unfold nat_inv. cbn. repeat apply conj; try set_solver; [lia| |].
      * intros i sj Hi. apply lookup_singleton_Some in Hi as [<- _]. lia.
      * intros i sj Hi Hs. apply lookup_singleton_Some in Hs as [<- _]. done.
    + destruct (subscribed c (rev l)) as [[id' nss]|]; rewrite lookup_insert_ne by done; exact IH.
  - rewrite nats_subject_ns. destruct (decide (d = c)) as [->|Hne].
    + specialize (Hlast eq_refl). destruct (subscribed c (rev l)) as [[id' nss]|]; cbn.
      * destruct IH as (k & -> & Hk). rewrite lookup_insert. eexists. split; [done|]. apply nat_inv_sub; eauto.
      * by rewrite IH.
    + assert (E : forall f, (match nats_run prefix l !! d with Some l0 => <[d:= f l0]> (nats_run prefix l) | None => nats_run prefix l end) !! c = nats_run prefix l !! c).
      { intros f. destruct (nats_run prefix l !! d); [by rewrite lookup_insert_ne|done]. }
      rewrite E. exact IH.
  - rewrite nats_subject_ns. destruct (decide (d = c)) as [->|Hne].
    + destruct (subscribed c (rev l)) as [[id' nss]|]; cbn.
      * destruct IH as (k & E & Hk). rewrite E. destruct (ns_handles k !! nchan prefix ns) as [i|] eqn:Eh.
        -- rewrite lookup_insert. eexists. split; [done|]. by apply nat_inv_unsub.
        -- exists k. split; [done|]. replace (nss ∖ {[ ns ]}) with nss; [done|].
           destruct Hk as (_ & _ & _ & _ & H4 & _). apply leibniz_equiv. intros x. rewrite elem_of_difference, elem_of_singleton.
           split; [|tauto]. intros Hx. split; [done|]. intros ->. destruct (H4 _ Hx) as (? & _ & Hh & _). congruence.
      * by rewrite IH.
    + destruct (nats_run prefix l !! d) as [k|]; [|exact IH]. destruct (ns_handles k !! _); [|exact IH].
      rewrite lookup_insert_ne by done. exact IH.
  - destruct (decide (d = c)) as [->|Hne].
    + apply lookup_delete.
    + rewrite lookup_delete_ne by done. exact IH.
Qed.

Lemma tokens_nonempty s : nats_tokens s <> [].
Proof. destruct s as [|c s]; cbn; [done|]. destruct (Ascii.eqb _ _); [done|]. by destruct (nats_tokens s). Qed.
Lemma tokens_inj a : forall b, nats_tokens a = nats_tokens b -> a = b.
Proof.
  induction a as [|c a IH]; intros [|d b]; cbn; [done| | |].
  - destruct (Ascii.eqb d "."); [|by destruct (nats_tokens b)]. intros [= E]. by destruct (tokens_nonempty b).
  - destruct (Ascii.eqb c "."); [|by destruct (nats_tokens a)]. intros [= E]. by destruct (tokens_nonempty a).
  - destruct (Ascii.eqb_spec c ".") as [->|Hc], (Ascii.eqb_spec d ".") as [->|Hd].
    + intros [= E]. f_equal. auto.
    + destruct (nats_tokens b) eqn:Eb; [|done]. by destruct (tokens_nonempty b).
    + destruct (nats_tokens a) eqn:Ea; [|done]. by destruct (tokens_nonempty a).
    + destruct (nats_tokens a) as [|t ts] eqn:Ea; [by destruct (tokens_nonempty a)|].
      destruct (nats_tokens b) as [|u us] eqn:Eb; [by destruct (tokens_nonempty b)|].
      intros [= <- <- <-]. f_equal. apply IH. done.
Qed.
Lemma tokens_plain s : nats_plain s -> Forall (fun t => t <> "*"%string /\ t <> ">"%string) (nats_tokens s).
Proof.
  unfold nats_plain. induction s as [|c s IH]; cbn; [by constructor|]. intros Hs. apply Forall_cons in Hs as [[Hc1 Hc2] Hs].
  specialize (IH Hs). destruct (Ascii.eqb c ".").
  - by constructor.
  - destruct (nats_tokens s); constructor; try done; try (split; congruence). by apply Forall_cons in IH as [_ IH].
Qed.
Lemma tokens_match_plain p : Forall (fun t => t <> "*"%string /\ t <> ">"%string) p -> forall s, tokens_match p s = true <-> p = s.
Proof.
  induction 1 as [|x p [H1 H2] Hp IH]; intros s.
  - destruct s; cbn; by split.
  - apply String.eqb_neq in H1, H2. destruct s as [|y s]; [by destruct p|].
    assert (E : tokens_match (x :: p) (y :: s) = String.eqb x y && tokens_match p s).
    { cbn [tokens_match]. rewrite H1, H2. destruct p as [|z p]; destruct s; cbn; try done; try by rewrite ?orb_false_r, ?andb_false_r, ?andb_true_r.
      all: rewrite ?orb_false_r; done. }
    rewrite E, andb_true_iff, String.eqb_eq, IH. split; [intros [-> ->]; done|intros [= -> ->]; done].
Qed.
Lemma nats_match_plain p s : nats_plain p -> nats_match p s = true <-> p = s.
Proof.
  intros Hp. unfold nats_match. rewrite tokens_match_plain by by apply tokens_plain. split; [apply tokens_inj|congruence].
Qed.
Lemma nchan_plain prefix n : nats_plain prefix -> nats_plain n -> nats_plain (nchan prefix n).
Proof.
  unfold nats_plain, nchan. rewrite !chars_app, !Forall_app. intros H1 H2. split; [done|]. split; [|done].
  repeat constructor; discriminate.
Qed.

Lemma tokens_match_refl p : tokens_match p p = true.
Proof.
  induction p as [|x p IH]; [done|]. assert (E : (String.eqb x "*" || String.eqb x x || (String.eqb x ">" && match p with [] => true | _ => false end)) = true).
  { rewrite String.eqb_refl, orb_true_r. done. }
  destruct p as [|y p]; cbn [tokens_match]; [by rewrite E|]. rewrite E. exact IH.
Qed.

(*@prop C44 (nats).  The same, provided that no namespace is subscribed twice without an unsubscription
    in between. @*)
Lemma l_C44_nats : forall prefix l c m ds,
  nats_plain prefix -> no_resubscribe c (rev l) -> nats_publish prefix (nats_run prefix l) m = Ok ds ->
  (forall p, In p ds -> serializeMessage m = Ok (snd p)) /\
  match subscribed c (rev l) with
  | None => copies c ds = 0
  | Some (id, nss) =>
      nats_plain id -> (forall ns, ns ∈ nss -> nats_plain ns) -> id_apart c id l m nss ->
      (meant_for m id nss -> copies c ds = 1) /\ (~ meant_for m id nss -> copies c ds = 0)
  end.
Proof.
  intros prefix l c m ds Hp Hre Hpub. unfold nats_publish in Hpub.
  destruct (nats_getSubject _ _ _ _) as [ch|] eqn:Ech; [|done]. apply nats_subject_msg in Ech as ->.
  destruct (serializeMessage m) as [b|] eqn:Eb; [|done]. injection Hpub as <-. split.
  { intros p Hin. apply (in_bind b (fun k => List.filter (fun q => nats_match q.2 _) (map_to_list (ns_open k)))) in Hin as ->. done. }
  rewrite (copies_bind c b (fun k => List.filter (fun q => nats_match q.2 _) (map_to_list (ns_open k)))).
  assert (Hst := nats_state prefix c l Hre).
  destruct (subscribed c (rev l)) as [[id nss]|] eqn:Esub; [|by rewrite Hst].
  destruct Hst as (k & -> & H0 & H1 & H2 & H3 & H4 & H5 & H6).
  intros Hid Hnss Hap. assert (Hm := target_meant _ _ _ _ _ Hap).
  (* all namespaces differ from the ID *)
  assert (Hdiff : forall ns, ns ∈ nss -> ns <> id).
  { destruct Hap as [Hap _]. clear -Hap Esub. revert id nss Hap Esub.
    induction l as [|e l IH] using rev_ind; [done|]. rewrite rev_unit. cbn [subscribed]. intros id nss Hap Hs ns Hns.
    assert (Hap' : forall n, XESubscribe c n ∈ l \/ XEUnsubscribe c n ∈ l -> n <> id) by (intros n Hn; apply Hap; set_solver).
    destruct e as [d i|d n|d n|d]; (destruct (decide (d = c)) as [->|Hd]; [|by eapply IH]).
    - injection Hs as <- <-. set_solver.
    - destruct (subscribed c (rev l)) as [[i' n']|] eqn:E; [|done]. injection Hs as <- <-.
      apply elem_of_union in Hns as [Hns|Hns]; [|by eapply IH]. apply elem_of_singleton in Hns as ->. apply Hap. left. set_solver.
    - destruct (subscribed c (rev l)) as [[i' n']|] eqn:E; [|done]. injection Hs as <- <-.
      apply elem_of_difference in Hns as [Hns _]. by eapply IH.
    - done. }
  assert (Hmatch : forall i sj, (i, sj) ∈ map_to_list (ns_open k) -> nats_match sj (nchan prefix (target m)) = true -> sj = nchan prefix (target m)).
  { intros i sj Hi. apply elem_of_map_to_list in Hi. apply nats_match_plain. destruct (decide (i = 0)) as [->|Hi0].
    - rewrite H1 in Hi. injection Hi as <-. by apply nchan_plain.
    - destruct (H3 i sj Hi0 Hi) as (ns & Hns & -> & _). apply nchan_plain; auto. }
  assert (Hself : nats_match (nchan prefix (target m)) (nchan prefix (target m)) = true) by apply tokens_match_refl.
  split; intros Hmf.
  - apply Hm in Hmf. assert (Hi : exists i, ns_open k !! i = Some (nchan prefix (target m))).
    { destruct Hmf as [->|Hmf]; [eauto|]. destruct (H4 _ Hmf) as (i & _ & _ & Ho). eauto. }
    destruct Hi as [i Hi]. apply filter_one with (x := (i, nchan prefix (target m))).
    + apply NoDup_map_to_list.
    + by apply elem_of_map_to_list.
    + exact Hself.
    + intros [j sj] Hj Hmt. assert (sj = nchan prefix (target m)) as -> by by eapply Hmatch.
      apply elem_of_map_to_list in Hj. f_equal.
      destruct (decide (i = 0)) as [->|Hi0], (decide (j = 0)) as [->|Hj0]; try done.
      * rewrite H1 in Hi. injection Hi as Hi. apply nchan_inj in Hi. destruct (H3 j _ Hj0 Hj) as (n & Hn & E & _). apply nchan_inj in E. subst.
        destruct (Hdiff _ Hn). congruence.
      * rewrite H1 in Hj. injection Hj as Hj. apply nchan_inj in Hj. destruct (H3 i _ Hi0 Hi) as (n & Hn & E & _). apply nchan_inj in E. subst.
        destruct (Hdiff _ Hn). congruence.
      * destruct (H3 j _ Hj0 Hj) as (? & _ & _ & Ha). destruct (H3 i _ Hi0 Hi) as (? & _ & _ & Hb). congruence.
  - apply filter_none. intros [j sj] Hj. cbn [snd]. destruct (nats_match sj _) eqn:E; [|done]. assert (Es := Hmatch _ _ Hj E). subst sj.
    exfalso. apply Hmf, Hm. apply elem_of_map_to_list in Hj. destruct (decide (j = 0)) as [->|Hj0].
    + rewrite H1 in Hj. injection Hj as Hj. apply nchan_inj in Hj. by left.
    + destruct (H3 j _ Hj0 Hj) as (n & Hn & E' & _). apply nchan_inj in E' as ->. by right.
Qed.

(*@ex
(** Two servers' connections: 1 in "chat" and "game", 2 in "chat" again after leaving it, 3 gone. *)
Definition C44_history : list xevent :=
  [XEConnect 1 "a"; XEConnect 2 "b"; XESubscribe 1 "chat"; XESubscribe 2 "chat"; XEConnect 3 "c"; XESubscribe 3 "chat";
   XESubscribe 1 "game"; XEUnsubscribe 2 "chat"; XEDisconnect 3; XESubscribe 2 "chat"].
Example C44_example :
  let hi := set_event "hi" (set_namespace "chat" no_message) in
  subscribed 1 (rev C44_history) = Some ("a"%string, {["chat"; "game"]}%string) /\
  subscribed 3 (rev C44_history) = None /\
  plain "neffos" /\ plain "chat" /\ nats_plain "neffos" /\ id_apart 1 "a" C44_history hi {["chat"; "game"]}%string /\
  no_resubscribe 1 (rev C44_history) /\ no_resubscribe 2 (rev C44_history) /\
  redis_publish "neffos" (redis_run "neffos" C44_history) hi = Ok [(1, ";chat;;hi;0;0;"); (2, ";chat;;hi;0;0;")]%string /\
  nats_publish "neffos" (nats_run "neffos" C44_history) (set_to "b" hi) = Ok [(2, ";chat;;hi;0;0;")]%string /\
  meant_for hi "a" {["chat"; "game"]}%string /\ ~ meant_for (set_to "b" hi) "a" {["chat"; "game"]}%string.
Proof.
  cbv zeta. assert (Hs : subscribed 1 (rev C44_history) = Some ("a"%string, {["chat"; "game"]}%string)).
  { cbn. do 2 f_equal. apply (bool_decide_unpack _). vm_compute. exact I. }
  split; [exact Hs|]. split; [reflexivity|]. split; [repeat constructor; discriminate|]. split; [repeat constructor; discriminate|].
  split; [repeat constructor; discriminate|]. split.
  { split; [|done]. intros ns Hns. unfold C44_history in Hns. set_solver. }
  split. { cbn. repeat split; try (intros; done). all: intros _ id nss [= <- <-]; apply (bool_decide_unpack _); vm_compute; exact I. }
  split. { cbn. repeat split; try (intros; done). all: intros _ id nss [= <- <-]; apply (bool_decide_unpack _); vm_compute; exact I. }
  split; [vm_compute; reflexivity|]. split; [vm_compute; reflexivity|].
  split; [right; split; [done|set_solver]|]. intros [[E _]|[E _]]; discriminate.
Qed.
@*)

(*@prop C44.  Publishing fails only on a message without receiver to a room of the empty namespace, and on
    a message that cannot be serialized; then it panics. @*)
Lemma l_C44_publish_panics : forall prefix s s' m,
  let fails := (m_to m = "" /\ m_namespace m = "" /\ m_room m <> "")%string \/ exists w, serializeMessage m = Panic w in
  ((exists w, redis_publish prefix s m = Panic w) <-> fails) /\ ((exists w, nats_publish prefix s' m = Panic w) <-> fails).
Proof.
  intros prefix s s' m fails. unfold fails, redis_publish, nats_publish, redis_getChannel, nats_getSubject.
  destruct (is_empty (m_to m)) eqn:E1; cbn [negb].
  - apply is_empty_true in E1. destruct (is_empty (m_namespace m)) eqn:E2; cbn [andb].
    + apply is_empty_true in E2. destruct (is_empty (m_room m)) eqn:E3; cbn [negb].
      * apply is_empty_true in E3. destruct (serializeMessage m); split; (split; [intros [w Hw]|intros [(? & ? & ?)|[w Hw]]]); try done; eauto.
      * assert (m_room m <> ""%string) by (intros E; by rewrite E in E3).
        split; (split; [intros _; by left|eauto]).
    + assert (m_namespace m <> ""%string) by (intros E; by rewrite E in E2).
      destruct (serializeMessage m); split; (split; [intros [w Hw]|intros [(? & ? & ?)|[w Hw]]]); try done; eauto.
  - assert (m_to m <> ""%string) by (intros E; by rewrite E in E1).
    destruct (serializeMessage m); split; (split; [intros [w Hw]|intros [(? & ? & ?)|[w Hw]]]); try done; eauto.
Qed.

(*@prop C44 (violated with pattern bytes).  A redis connection whose ID is "*" gets every published
    message, of every namespace and to every receiver. @*)
Lemma l_C44_redis_pattern_id_refuted : forall prefix c m b, 
  plain prefix -> (m_to m <> "" \/ m_namespace m <> "" \/ m_room m = "")%string -> serializeMessage m = Ok b ->
  redis_publish prefix (redis_run prefix [XEConnect c "*"]) m = Ok [(c, b)].
Proof.
  intros prefix c m b Hp Hr Hb. unfold redis_publish.
  assert (Hch : redis_getChannel prefix (m_namespace m) (m_room m) (m_to m) = Ok (rchan prefix (target m))).
  { unfold redis_getChannel, target. destruct (is_empty (m_to m)) eqn:E1; [|done]. cbn.
    destruct (is_empty (m_namespace m) && negb (is_empty (m_room m))) eqn:E; [|done].
    exfalso. apply andb_true_iff in E as [E2 E3]. apply is_empty_true in E1, E2. destruct Hr as [?|[?|E]]; [done|done|].
    by rewrite E in E3. }
  rewrite Hch, Hb. f_equal. unfold redis_run. cbn [fold_left redis_step]. rewrite redis_channel_id.
  rewrite insert_empty, map_to_list_singleton. rewrite bind_cons'. cbn [fst snd]. rewrite elements_singleton. cbn [List.filter].
  assert (E : redis_match (rchan prefix "*") (rchan prefix (target m)) = true); [|by rewrite E].
  unfold redis_match.
  assert (Htail : forall n t, 2 < n -> glob n "*." (t ++ ".") = true).
  { intros n t Hn. destruct n as [|[|[|n]]]; try lia.
    assert (Hany : forall t, any_suffix (glob (S (S n)) ".") (t ++ ".") = true).
    { clear. induction t as [|d t IH].
      - change ("" ++ ".")%string with "."%string. cbn. done.
      - change (String d t ++ ".")%string with (String d (t ++ ".")).
        cbn [any_suffix]. rewrite IH. by rewrite orb_true_r. }
    apply Hany. }
  assert (Hgo : forall p n s q, plain p -> glob n q s = true -> glob (String.length p + n) (p ++ q) (p ++ s) = true).
  { clear. induction p as [|a p IH]; intros n s q Hp Hg; [done|].
    unfold plain in Hp. cbn in Hp. apply Forall_cons in Hp as [(H1 & H2 & H3 & H4) Hp].
    change (String a p ++ q)%string with (String a (p ++ q)). change (String a p ++ s)%string with (String a (p ++ s)).
    cbn [String.length Nat.add].
    transitivity (Ascii.eqb a a && glob (String.length p + n) (p ++ q) (p ++ s)).
    - destruct a as [[] [] [] [] [] [] [] []]; try reflexivity; by exfalso.
    - rewrite Ascii.eqb_refl. by apply IH. }
  replace (S (String.length (rchan prefix "*"))) with (String.length (prefix ++ ".") + 3).
  - unfold rchan. rewrite <- !(app_assoc_s prefix "."). apply Hgo.
    + unfold plain. rewrite chars_app, Forall_app. split; [done|]. repeat constructor; discriminate.
    + apply Htail. lia.
  - unfold rchan. rewrite <- !(app_assoc_s prefix "."). 
    assert (Hl : forall a b, String.length (a ++ b) = String.length a + String.length b).
    { clear. induction a as [|x a IH]; intros b; [done|]. change (String x a ++ b)%string with (String x (a ++ b)). cbn. by rewrite IH. }
    rewrite (Hl _ ("*" ++ ".")%string). change (String.length ("*" ++ ".")) with 2. lia.
Qed.

Lemma tokens_app a b : nats_tokens (a ++ "." ++ b) = nats_tokens a ++ nats_tokens b.
Proof.
  induction a as [|c a IH]; [reflexivity|]. change (String c a ++ "." ++ b)%string with (String c (a ++ "." ++ b)).
  cbn [nats_tokens]. rewrite IH. destruct (Ascii.eqb c "."); [reflexivity|].
  pose proof (tokens_nonempty a). destruct (nats_tokens a) as [|t ts]; [done|reflexivity].
Qed.
Lemma tokens_match_rest p s : s <> [] -> tokens_match (p ++ [">"%string]) (p ++ s) = true.
Proof.
  intros Hs. induction p as [|x p IH].
  - destruct s as [|y [|z s]]; [done| |reflexivity]. cbn. by rewrite orb_true_r.
  - cbn [app tokens_match].
    assert (E : forall b, (String.eqb x "*" || String.eqb x x || b) = true) by (intros b; rewrite String.eqb_refl, orb_true_r; done).
    destruct (p ++ [">"%string]) as [|y l] eqn:Ep; [by destruct p|]. rewrite E. exact IH.
Qed.

(*@prop C44 (violated with pattern bytes).  A nats connection whose ID is ">" gets every published
    message, of every namespace and to every receiver. @*)
Lemma l_C44_nats_pattern_id_refuted : forall prefix c m b,
  (m_to m <> "" \/ m_namespace m <> "" \/ m_room m = "")%string -> serializeMessage m = Ok b ->
  nats_publish prefix (nats_run prefix [XEConnect c ">"]) m = Ok [(c, b)].
Proof.
  intros prefix c m b Hr Hb. unfold nats_publish.
  assert (Hch : nats_getSubject prefix (m_namespace m) (m_room m) (m_to m) = Ok (nchan prefix (target m))).
  { unfold nats_getSubject, target. destruct (is_empty (m_to m)) eqn:E1; [|done]. cbn.
    destruct (is_empty (m_namespace m) && negb (is_empty (m_room m))) eqn:E; [|done].
    exfalso. apply andb_true_iff in E as [E2 E3]. apply is_empty_true in E1, E2. destruct Hr as [?|[?|E]]; [done|done|].
    by rewrite E in E3. }
  rewrite Hch, Hb. f_equal. unfold nats_run. cbn [fold_left nats_step]. rewrite nats_subject_id.
  rewrite insert_empty, map_to_list_singleton. rewrite bind_cons'. cbn [fst snd ns_open]. rewrite map_to_list_singleton. cbn [List.filter snd].
  assert (E : nats_match (nchan prefix ">") (nchan prefix (target m)) = true); [|by rewrite E].
  unfold nats_match, nchan. rewrite !tokens_app. apply tokens_match_rest, tokens_nonempty.
Qed.

(*@prop C44 (violated when an ID is the name of a namespace).  A message to the connection with the ID
    "chat" reaches every connection in the namespace "chat", whatever the IDs; and what is sent to the
    namespace reaches the connection with that ID.  Both exchanges. @*)
Lemma l_C44_id_namespace_refuted : forall prefix c d ns id m b,
  plain prefix -> plain ns -> plain id -> nats_plain prefix -> nats_plain ns -> nats_plain id ->
  c <> d -> ns <> ""%string -> id <> ns -> serializeMessage m = Ok b ->
  let l := [XEConnect c id; XESubscribe c ns; XEConnect d ns] in
  m_to m = ns \/ (m_to m = ""%string /\ m_namespace m = ns) ->
  (exists ds, redis_publish prefix (redis_run prefix l) m = Ok ds /\ copies c ds = 1 /\ copies d ds = 1) /\
  (exists ds, nats_publish prefix (nats_run prefix l) m = Ok ds /\ copies c ds = 1 /\ copies d ds = 1).
Proof.
  intros prefix c d ns id m b Hp Hns Hid Hnp Hnn Hni Hcd Hne Hin Hb l Hm.
  assert (Ht : target m = ns).
  { unfold target. destruct Hm as [-> |[-> ->]]; [|done]. by destruct ns. }
  assert (Hr : is_empty (m_to m) && (is_empty (m_namespace m) && negb (is_empty (m_room m))) = false).
  { destruct Hm as [-> |[-> ->]]; by destruct ns. }
  assert (Hrc : forall a, redis_match (rchan prefix a) (rchan prefix ns) = String.eqb (rchan prefix a) (rchan prefix ns) -> redis_match (rchan prefix a) (rchan prefix ns) = String.eqb a ns).
  { intros a ->. destruct (String.eqb_spec a ns) as [->|Hn]; [apply String.eqb_refl|]. apply String.eqb_neq. intros E. by apply rchan_inj in E. }
  assert (Hnc : forall a, nats_plain a -> nats_match (nchan prefix a) (nchan prefix ns) = String.eqb a ns).
  { intros a Ha. destruct (String.eqb_spec a ns) as [->|Hn]; [apply tokens_match_refl|].
    destruct (nats_match _ _) eqn:E; [|done]. apply nats_match_plain in E; [|by apply nchan_plain]. by apply nchan_inj in E. }
  split; eexists; (split; [|]).
  - unfold redis_publish.
    assert (E : redis_getChannel prefix (m_namespace m) (m_room m) (m_to m) = Ok (rchan prefix ns)).
    { unfold redis_getChannel. rewrite <- Ht. unfold target. destruct (is_empty (m_to m)); [|done]. cbn in Hr. rewrite Hr. done. }
    rewrite E, Hb. done.
  - rewrite !(copies_bind _ b (fun k => List.filter (fun pat => redis_match pat _) (elements k))).
    unfold l, redis_run. cbn [fold_left redis_step]. rewrite !redis_channel_id, !redis_channel_ns. rewrite lookup_insert.
    rewrite (lookup_insert_ne _ d c) by done. rewrite !lookup_insert. rewrite elements_singleton.
    split.
    + apply filter_one with (x := rchan prefix ns).
      * apply NoDup_elements.
      * apply elem_of_elements, elem_of_union. left. by apply elem_of_singleton.
      * rewrite Hrc; [apply String.eqb_refl|]. apply glob_plain; [by apply rchan_plain|lia].
      * intros y Hy. apply elem_of_elements, elem_of_union in Hy. rewrite !elem_of_singleton in Hy. destruct Hy as [-> | ->]; [done|].
        rewrite Hrc; [|apply glob_plain; [by apply rchan_plain|lia]]. intros E. apply String.eqb_eq in E. done.
    + cbn [List.filter]. rewrite Hrc; [by rewrite String.eqb_refl|]. apply glob_plain; [by apply rchan_plain|lia].
  - unfold nats_publish.
    assert (E : nats_getSubject prefix (m_namespace m) (m_room m) (m_to m) = Ok (nchan prefix ns)).
    { unfold nats_getSubject. rewrite <- Ht. unfold target. destruct (is_empty (m_to m)); [|done]. cbn in Hr. rewrite Hr. done. }
    rewrite E, Hb. done.
  - rewrite !(copies_bind _ b (fun k => List.filter (fun q => nats_match q.2 _) (map_to_list (ns_open k)))).
    unfold l, nats_run. cbn [fold_left nats_step]. rewrite !nats_subject_id, !nats_subject_ns. rewrite !lookup_insert.
    rewrite (lookup_insert_ne _ d c) by done. rewrite !lookup_insert. cbn [ns_open ns_next]. rewrite map_to_list_singleton.
    split.
    + apply filter_one with (x := (1, nchan prefix ns)).
      * apply NoDup_map_to_list.
      * apply elem_of_map_to_list. by rewrite lookup_insert.
      * cbn [snd]. rewrite Hnc by done. apply String.eqb_refl.
      * intros [j sj] Hj. apply elem_of_map_to_list in Hj. cbn [snd].
        apply lookup_insert_Some in Hj as [[<- <-]|[_ Hj]]; [done|]. apply lookup_singleton_Some in Hj as [<- <-].
        rewrite Hnc by done. intros E. apply String.eqb_eq in E. done.
    + cbn [List.filter snd]. rewrite Hnc by done. by rewrite String.eqb_refl.
Qed.

(*@ex
Example C44_id_namespace_example :
  let to_chat := set_to "chat" (set_event "secret" no_message) in
  redis_publish "neffos" (redis_run "neffos" [XEConnect 1 "a"; XESubscribe 1 "chat"; XEConnect 2 "chat"]) to_chat =
    Ok [(1, ";;;secret;0;0;"); (2, ";;;secret;0;0;")]%string.
Proof. vm_compute. reflexivity. Qed.
@*)

(*@prop C44 (violated by a repeated subscription).  With nats, a connection that subscribes a namespace
    twice gets every message twice, and still gets it after the unsubscription. @*)
Lemma l_C44_nats_twice_refuted : forall prefix c ns id m b,
  nats_plain prefix -> nats_plain ns -> nats_plain id -> id <> ns -> ns <> ""%string -> m_to m = ""%string -> m_namespace m = ns ->
  serializeMessage m = Ok b ->
  (exists ds, nats_publish prefix (nats_run prefix [XEConnect c id; XESubscribe c ns; XESubscribe c ns]) m = Ok ds /\ copies c ds = 2) /\
  (exists ds, nats_publish prefix (nats_run prefix [XEConnect c id; XESubscribe c ns; XESubscribe c ns; XEUnsubscribe c ns]) m = Ok ds /\
     copies c ds = 1).
Proof.
  intros prefix c ns id m b Hp Hns Hid Hne Hn0 Hto Hm Hb.
  assert (Hnc : forall a, nats_plain a -> nats_match (nchan prefix a) (nchan prefix ns) = String.eqb a ns).
  { intros a Ha. destruct (String.eqb_spec a ns) as [->|Hn]; [apply tokens_match_refl|].
    destruct (nats_match _ _) eqn:E; [|done]. apply nats_match_plain in E; [|by apply nchan_plain]. by apply nchan_inj in E. }
  assert (E : nats_getSubject prefix (m_namespace m) (m_room m) (m_to m) = Ok (nchan prefix ns)).
  { unfold nats_getSubject. rewrite Hto, Hm. by destruct ns. }
  assert (Hne' : String.eqb id ns = false) by by apply String.eqb_neq.
  split; eexists; (split; [unfold nats_publish; rewrite E, Hb; done|]).
  - rewrite (copies_bind _ b (fun k => List.filter (fun q => nats_match q.2 _) (map_to_list (ns_open k)))).
    unfold nats_run. cbn [fold_left nats_step]. rewrite !nats_subject_id, !nats_subject_ns. 
    repeat first [rewrite lookup_insert | progress cbn [ns_open ns_next ns_handles]].
    rewrite (Permutation_length (l' := List.filter (fun q => nats_match q.2 (nchan prefix ns)) [(2, nchan prefix ns); (1, nchan prefix ns); (0, nchan prefix id)])).
    { cbn [List.filter snd]. rewrite !Hnc by done. rewrite String.eqb_refl, Hne'. done. }
    apply Permutation_filter_bool. rewrite map_to_list_insert by by rewrite lookup_insert_ne.
    rewrite map_to_list_insert by done. by rewrite map_to_list_singleton.
  - rewrite (copies_bind _ b (fun k => List.filter (fun q => nats_match q.2 _) (map_to_list (ns_open k)))).
    unfold nats_run. cbn [fold_left nats_step]. rewrite !nats_subject_id, !nats_subject_ns. 
    repeat first [rewrite lookup_insert | progress cbn [ns_open ns_next ns_handles]].
    rewrite (Permutation_length (l' := List.filter (fun q => nats_match q.2 (nchan prefix ns)) [(1, nchan prefix ns); (0, nchan prefix id)])).
    { cbn [List.filter snd]. rewrite !Hnc by done. rewrite String.eqb_refl, Hne'. done. }
    apply Permutation_filter_bool. rewrite delete_insert by by rewrite lookup_insert_ne.
    rewrite map_to_list_insert by done. by rewrite map_to_list_singleton.
Qed.

(*@prop C44 (violated: exclusion of an ID).  A broadcast that excludes a connection by its ID is published
    exactly like one that excludes nobody. @*)
Lemma l_C44_exclude_id_refuted : forall s m, m_fromExplicit m = ""%string ->
  serializeMessage (prepare (ExceptName s) m) = serializeMessage m /\
  m_to (prepare (ExceptName s) m) = m_to m /\ m_namespace (prepare (ExceptName s) m) = m_namespace m /\
  m_room (prepare (ExceptName s) m) = m_room m.
Proof.
  intros s m Hm. unfold prepare. destruct (is_empty s).
  - repeat split. unfold serializeMessage. cbn. rewrite Hm. done.
  - repeat split.
Qed.
