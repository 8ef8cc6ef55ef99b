(** * HandlerProofs.v : proofs about JoinConnHandlers. *)
From stdpp Require Import gmap strings list.
From Verif Require Import Go World Handlers Spec_Handlers.
From Verif Require Import ExecProofs.

Section proofs.
Context {H : Type}.
Implicit Types h : heap H.

Lemma range_spec {V} (m : gmap string V) h l h' :
  range m h = (l, h') ->
  NoDup (l.*1) /\ list_to_map l = m /\
  hp_events h' = hp_events h /\ hp_nss h' = hp_nss h /\ hp_next h' = hp_next h.
Proof.
  unfold range. intros [= <- <-]. cbn.
  assert (Hp : permute (hd 0 (hp_seeds h)) (map_to_list m) ≡ₚ map_to_list m) by apply permute_perm.
  split; [rewrite Hp; apply NoDup_fst_map_to_list|].
  split; [|done].
  rewrite (list_to_map_proper _ (map_to_list m)); [apply list_to_map_to_list| |done].
  rewrite Hp. apply NoDup_fst_map_to_list.
Qed.

(** Assigning all entries to one map. *)
Lemma fill_spec (a : nat) (l : list (string * H)) : NoDup (l.*1) -> forall h m,
  hp_events h !! a = Some m ->
  let h' := fold_left (fun h p => set_events a (<[fst p := snd p]> (events_at h (Some a))) h) l h in
  hp_events h' = <[a := list_to_map l ∪ m]> (hp_events h) /\
  hp_nss h' = hp_nss h /\ hp_next h' = hp_next h.
Proof.
  induction l as [|[k v] l IH]; intros Hnd h m Ha; cbn.
  { rewrite (left_id_L ∅ (∪)). split; [|done]. symmetry. by apply insert_id. }
  cbn in Hnd. apply NoDup_cons in Hnd as [Hk Hnd].
  unfold events_at. rewrite Ha. cbn.
  destruct (IH Hnd (set_events a (<[k := v]> m) h) (<[k := v]> m)) as (E1 & E2 & E3).
  { unfold set_events. cbn. by rewrite lookup_insert. }
  cbn in E1, E2, E3. rewrite E1, E2, E3. split; [|done].
  unfold set_events. cbn. rewrite insert_insert. f_equal.
  rewrite <- insert_union_l. rewrite insert_union_r; [done|].
  by apply not_elem_of_list_to_map_1.
Qed.

(** ** The map under construction *)
Definition owns h (out a : nat) : Prop := exists ns, nss_at h (Some out) !! ns = Some (Some a).

Record built (b : nat) (out : nat) (P : string -> string -> option H) (D : string -> Prop) h : Prop := {
  bt_ok : heap_ok h;
  bt_out : is_Some (hp_nss h !! out);
  bt_notnil : forall ns, nss_at h (Some out) !! ns <> Some None;
  bt_fresh : forall a, owns h out a -> b <= a;
  bt_inj : forall n1 n2 a, nss_at h (Some out) !! n1 = Some (Some a) ->
             nss_at h (Some out) !! n2 = Some (Some a) -> n1 = n2;
  bt_P : forall ns ev, callback h (Some out) ns ev = P ns ev;
  bt_D : forall ns, declared h (Some out) ns <-> D ns }.

(** What is kept. *)
Definition keeps (out : nat) h h' : Prop :=
  (forall a m, hp_events h !! a = Some m -> ~ owns h out a -> hp_events h' !! a = Some m) /\
  (forall a m, hp_nss h !! a = Some m -> a <> out -> hp_nss h' !! a = Some m) /\
  (forall a, owns h' out a -> owns h out a \/ hp_next h <= a) /\
  hp_next h <= hp_next h'.

Lemma keeps_refl out h : keeps out h h.
Proof. repeat split; auto. Qed.
Lemma keeps_trans out h1 h2 h3 : heap_ok h1 -> keeps out h1 h2 -> keeps out h2 h3 -> keeps out h1 h3.
Proof.
  intros (O1 & O2 & O3) (A1 & A2 & A3 & A4) (B1 & B2 & B3 & B4).
  repeat split; [| | |lia].
  - intros a m Ha Ho. apply B1; [by apply A1|]. intros Hb. destruct (A3 a Hb) as [?|?]; [done|].
    specialize (O1 a m Ha). lia.
  - intros a m Ha Ho. apply B2; [by apply A2|done].
  - intros a Ha. destruct (B3 a Ha) as [Hb|?]; [by apply A3|right; lia].
Qed.

Definition orelse {A} (x y : option A) : option A := match x with Some _ => x | None => y end.

Lemma join_events_spec b out P D h ns a m :
  built b out P D h -> hp_events h !! a = Some m -> ~ owns h out a -> b <= hp_next h ->
  let h' := join_events out ns (Some a) h in
  built b out (fun ns' ev => if decide (ns' = ns) then orelse (m !! ev) (P ns' ev) else P ns' ev)
    (fun ns' => ns' = ns \/ D ns') h' /\ keeps out h h'.
Proof.
  intros [Hok [mo Hout] Hnn Hfr Hinj HP HD] Ha Hna Hb. cbv zeta. unfold join_events.
  destruct (range (events_at h (Some a)) h) as [l1 h1] eqn:Er1.
  apply range_spec in Er1 as (Nd1 & Lm1 & Ev1 & Ns1 & Nx1).
  unfold new_events. cbv iota. rewrite Nx1, Ev1, Ns1.
  set (h2 := Heap _ _ _ _).
  destruct (fill_spec (hp_next h) l1 Nd1 h2 ∅) as (Ev3 & Ns3 & Nx3).
  { unfold h2. cbn. by rewrite lookup_insert. }
  set (h3 := fold_left _ l1 h2) in *.
  cbn in Ev3, Ns3, Nx3. rewrite insert_insert in Ev3.
  rewrite (right_id_L ∅ (∪)) in Ev3.
  unfold events_at in Lm1. rewrite Ha in Lm1. cbn in Lm1. rewrite Lm1 in Ev3.
  assert (Hno : nss_at h3 (Some out) = mo) by (unfold nss_at; rewrite Ns3, Hout; done).
  assert (Hno0 : nss_at h (Some out) = mo) by (unfold nss_at; rewrite Hout; done).
  rewrite Hno. destruct Hok as (O1 & O2 & O3).
  assert (Hlt : a < hp_next h) by (eapply O1; eassumption).
  destruct (mo !! ns) as [[cur|]|] eqn:Ecur.
  - (* the namespace is there: add to its events *)
    destruct (range (events_at h3 (Some (hp_next h))) h3) as [l4 h4] eqn:Er4.
    apply range_spec in Er4 as (Nd4 & Lm4 & Ev4 & Ns4 & Nx4).
    unfold events_at in Lm4. rewrite Ev3, lookup_insert in Lm4. cbn in Lm4.
    assert (Hown : owns h out cur) by (exists ns; rewrite Hno0; done).
    assert (Hcm : exists mc, hp_events h !! cur = Some mc).
    { assert (Hr := O3 out mo ns (Some cur) Hout Ecur). destruct Hr as [mc Hmc]. eauto. }
    destruct Hcm as [mc Hmc].
    assert (Hcl : cur < hp_next h) by (eapply O1; eassumption).
    assert (Hne : cur <> a) by (intros ->; done).
    destruct (fill_spec cur l4 Nd4 h4 mc) as (Ev5 & Ns5 & Nx5).
    { rewrite Ev4, Ev3. rewrite lookup_insert_ne by lia. done. }
    set (h5 := fold_left _ l4 h4) in *. cbn zeta in Ev5, Ns5, Nx5.
    rewrite Lm4, Ev4, Ev3 in Ev5. rewrite Ns4, Ns3 in Ns5. rewrite Nx4, Nx3 in Nx5.
    assert (Hn5 : nss_at h5 (Some out) = mo) by (unfold nss_at; rewrite Ns5, Hout; done).
    assert (Hlk : forall x, hp_events h5 !! x =
      if decide (x = cur) then Some (m ∪ mc) else if decide (x = hp_next h) then Some m else hp_events h !! x).
    { intros x. rewrite Ev5. destruct (decide (x = cur)) as [->|]; [by rewrite lookup_insert|].
      rewrite lookup_insert_ne by done. destruct (decide (x = hp_next h)) as [->|]; [by rewrite lookup_insert|].
      by rewrite lookup_insert_ne by done. }
    assert (Howneq : forall x, owns h5 out x <-> owns h out x).
    { intros x. unfold owns. by rewrite Hn5, Hno0. }
    split; [split|].
    + split; [|split].
      * intros x mx. rewrite Hlk, Nx5. repeat case_decide; try (intros; lia). intros Hx. apply O1 in Hx. lia.
      * intros x mx. rewrite Ns5, Nx5. intros Hx. apply O2 in Hx. lia.
      * intros x mx n e. rewrite Ns5. intros Hx Hn. specialize (O3 x mx n e Hx Hn). unfold ref_ok in *.
        destruct e as [e|]; [|done]. rewrite Hlk. repeat case_decide; eauto.
    + rewrite Ns5. eauto.
    + rewrite Hn5, <- Hno0. done.
    + intros x Hx. apply Hfr. by apply Howneq.
    + intros n1 n2 x. rewrite Hn5, <- Hno0. apply Hinj.
    + intros ns' ev. rewrite <- HP. unfold callback. rewrite Hn5, Hno0.
      destruct (decide (ns' = ns)) as [->|Hns].
      * rewrite Ecur. unfold events_at. rewrite Hlk. rewrite decide_True by done. cbn.
        rewrite Hmc. cbn. rewrite lookup_union. unfold orelse. destruct (m !! ev); [|by destruct (mc !! ev)].
        by destruct (mc !! ev).
      * destruct (mo !! ns') as [[x|]|] eqn:Ex; [|done|done].
        assert (x <> cur).
        { intros ->. apply Hns. apply (Hinj ns' ns cur); by rewrite Hno0. }
        assert (owns h out x) by (exists ns'; by rewrite Hno0).
        unfold events_at. rewrite Hlk. rewrite decide_False by done. rewrite decide_False; [done|].
        assert (Hr := O3 out mo ns' (Some x) Hout Ex). destruct Hr as [mx Hmx]. apply O1 in Hmx. lia.
    + intros ns'. rewrite <- HD. unfold declared. rewrite Hn5, Hno0. split; [|intros [->|?]; eauto]. eauto.
    + split; [|split; [|split]].
      * intros x mx Hx Hox. rewrite Hlk. rewrite decide_False by (intros ->; done).
        rewrite decide_False by (apply O1 in Hx; lia). done.
      * intros x mx Hx _. by rewrite Ns5.
      * intros x Hx. left. by apply Howneq.
      * rewrite Nx5. lia.
  - exfalso. apply (Hnn ns). rewrite Hno0. done.
  - (* a new namespace *)
    set (h4 := set_nss out _ h3).
    assert (Hn4 : nss_at h4 (Some out) = <[ns := Some (hp_next h)]> mo).
    { unfold h4, nss_at, set_nss. cbn. rewrite lookup_insert. done. }
    assert (Hlk : forall x, hp_events h4 !! x = if decide (x = hp_next h) then Some m else hp_events h !! x).
    { intros x. unfold h4, set_nss. cbn. rewrite Ev3. destruct (decide (x = hp_next h)) as [->|]; [by rewrite lookup_insert|].
      by rewrite lookup_insert_ne by done. }
    assert (Hns4 : hp_nss h4 = <[out := <[ns := Some (hp_next h)]> mo]> (hp_nss h)).
    { unfold h4, set_nss. cbn. rewrite Ns3. done. }
    assert (Hnx4 : hp_next h4 = S (hp_next h)) by (unfold h4, set_nss; cbn; done).
    assert (Hownlt : forall x, owns h out x -> x < hp_next h).
    { intros x [n Hn]. rewrite Hno0 in Hn. assert (Hr := O3 out mo n (Some x) Hout Hn). destruct Hr as [mx Hmx].
      by apply O1 in Hmx. }
    assert (Hol : out < hp_next h) by (eapply O2; eassumption).
    split; [split|].
    + split; [|split].
      * intros x mx. rewrite Hlk, Hnx4. case_decide; [lia|]. intros Hx. apply O1 in Hx. lia.
      * intros x mx. rewrite Hns4, Hnx4. destruct (decide (x = out)) as [->|]; [lia|].
        rewrite lookup_insert_ne by done. intros Hx. apply O2 in Hx. lia.
      * intros x mx n e. rewrite Hns4. intros Hx Hn. unfold ref_ok. destruct e as [e|]; [|done].
        rewrite Hlk. case_decide; [eauto|].
        destruct (decide (x = out)) as [->|].
        -- rewrite lookup_insert in Hx. injection Hx as <-. destruct (decide (n = ns)) as [->|].
           ++ rewrite lookup_insert in Hn. congruence.
           ++ rewrite lookup_insert_ne in Hn by done. exact (O3 out mo n (Some e) Hout Hn).
        -- rewrite lookup_insert_ne in Hx by done. exact (O3 x mx n (Some e) Hx Hn).
    + rewrite Hns4, lookup_insert. eauto.
    + intros n. rewrite Hn4. destruct (decide (n = ns)) as [->|].
      * rewrite lookup_insert. done.
      * rewrite lookup_insert_ne by done. rewrite <- Hno0. done.
    + intros x [n Hn]. rewrite Hn4 in Hn. destruct (decide (n = ns)) as [->|].
      * rewrite lookup_insert in Hn. injection Hn as <-. done.
      * rewrite lookup_insert_ne in Hn by done. apply Hfr. exists n. by rewrite Hno0.
    + intros n1 n2 x. rewrite Hn4. destruct (decide (n1 = ns)) as [->|], (decide (n2 = ns)) as [->|]; try done.
      * rewrite lookup_insert, lookup_insert_ne by done. intros [= <-] Hn. exfalso.
        assert (owns h out (hp_next h)) by (exists n2; by rewrite Hno0). specialize (Hownlt _ H0). lia.
      * rewrite lookup_insert, lookup_insert_ne by done. intros Hn [= <-]. exfalso.
        assert (owns h out (hp_next h)) by (exists n1; by rewrite Hno0). specialize (Hownlt _ H0). lia.
      * rewrite !lookup_insert_ne by done. rewrite <- Hno0. apply Hinj.
    + intros ns' ev. rewrite <- HP. unfold callback. rewrite Hn4, Hno0.
      destruct (decide (ns' = ns)) as [->|Hns].
      * rewrite lookup_insert, Ecur. unfold events_at. rewrite Hlk, decide_True by done. cbn.
        unfold orelse. by destruct (m !! ev).
      * rewrite lookup_insert_ne by done. destruct (mo !! ns') as [[x|]|] eqn:Ex; [|done|done].
        assert (x < hp_next h) by (apply Hownlt; exists ns'; by rewrite Hno0).
        unfold events_at. rewrite Hlk, decide_False by lia. done.
    + intros ns'. rewrite <- HD. unfold declared. rewrite Hn4, Hno0.
      destruct (decide (ns' = ns)) as [->|Hns].
      * rewrite lookup_insert. split; eauto.
      * rewrite lookup_insert_ne by done. split; [eauto|]. intros [?|?]; [done|eauto].
    + split; [|split; [|split]].
      * intros x mx Hx _. rewrite Hlk. rewrite decide_False by (apply O1 in Hx; lia). done.
      * intros x mx Hx Hxo. rewrite Hns4, lookup_insert_ne by done. done.
      * intros x [n Hn]. rewrite Hn4 in Hn. destruct (decide (n = ns)) as [->|].
        -- rewrite lookup_insert in Hn. injection Hn as <-. right. done.
        -- rewrite lookup_insert_ne in Hn by done. left. exists n. by rewrite Hno0.
      * rewrite Hnx4. lia.
Qed.

Lemma built_ext b out P P' D D' h :
  (forall ns ev, P ns ev = P' ns ev) -> (forall ns, D ns <-> D' ns) -> built b out P D h -> built b out P' D' h.
Proof.
  intros HP HD []. split; try done.
  - intros. by rewrite <- HP.
  - intros. by rewrite <- HD.
Qed.

(** All namespaces of one handler. *)
Lemma join_entries_spec b out (l : list (string * mref)) : NoDup (l.*1) -> forall P D h h0,
  built b out P D h -> b <= hp_next h ->
  (forall ns a, (ns, Some a) ∈ l -> exists m, hp_events h0 !! a = Some m /\ hp_events h !! a = Some m /\ ~ owns h out a) ->
  let h' := fold_left (fun h p => join_events out (fst p) (snd p) h) l h in
  built b out
    (fun ns ev => match (list_to_map l : gmap string mref) !! ns with
                  | Some e => orelse (events_at h0 e !! ev) (P ns ev)
                  | None => P ns ev
                  end)
    (fun ns => (exists a, (list_to_map l : gmap string mref) !! ns = Some (Some a)) \/ D ns) h' /\ keeps out h h'.
Proof.
  induction l as [|[ns e] l IH]; intros Hnd P D h h0 Hb Hle Hl; cbn.
  { split; [|apply keeps_refl]. eapply built_ext; [| |exact Hb].
    - intros. by rewrite lookup_empty.
    - intros n. rewrite lookup_empty. split; [auto|]. by intros [[a ?]|?]. }
  cbn in Hnd. apply NoDup_cons in Hnd as [Hns Hnd].
  assert (Hrest : (list_to_map l : gmap string mref) !! ns = None) by by apply not_elem_of_list_to_map_1.
  destruct e as [a|].
  - destruct (Hl ns a) as (m & Hm0 & Hm & Hno); [left|].
    destruct (join_events_spec b out P D h ns a m Hb Hm Hno Hle) as [Hb' Hk].
    set (h1 := join_events out ns (Some a) h) in *.
    assert (Hok := bt_ok _ _ _ _ _ Hb). destruct Hok as (O1 & _).
    destruct (IH Hnd _ _ h1 h0 Hb') as [Hb2 Hk2].
    { destruct Hk as (_ & _ & _ & ?). lia. }
    { intros n x Hx. destruct (Hl n x) as (mx & H0x & Hmx & Hnx); [by right|]. exists mx.
      destruct Hk as (K1 & K2 & K3 & K4). repeat split; [done|by apply K1|].
      intros Ho. destruct (K3 x Ho); [done|]. apply O1 in Hmx. lia. }
    split; [|eapply keeps_trans; [exact (bt_ok _ _ _ _ _ Hb)|exact Hk|exact Hk2]].
    eapply built_ext; [| |exact Hb2]; cbn.
    + intros n ev. destruct (decide (n = ns)) as [->|Hn].
      * rewrite Hrest, lookup_insert. unfold events_at. rewrite Hm0. done.
      * rewrite lookup_insert_ne by done. done.
    + intros n. destruct (decide (n = ns)) as [->|Hn].
      * rewrite Hrest, lookup_insert. split; eauto.
      * rewrite lookup_insert_ne by done. split; [|tauto]. intros [?|[?|?]]; [tauto|done|tauto].
  - destruct (IH Hnd P D h h0 Hb Hle) as [Hb2 Hk2].
    { intros n x Hx. apply (Hl n x). by right. }
    split; [|exact Hk2].
    eapply built_ext; [| |exact Hb2]; cbn.
    + intros n ev. destruct (decide (n = ns)) as [->|Hn].
      * rewrite Hrest, lookup_insert. done.
      * by rewrite lookup_insert_ne by done.
    + intros n. destruct (decide (n = ns)) as [->|Hn].
      * rewrite Hrest, lookup_insert. split; intros [[? ?]|?]; naive_solver.
      * rewrite lookup_insert_ne by done. done.
Qed.

(** ** GetNamespaces *)
Definition gets (get : conn_handler -> heap H -> mref * heap H) (x : conn_handler) : Prop :=
  forall h0 h, heap_ok h0 -> heap_ok h -> untouched h0 h -> hp_next h0 <= hp_next h -> handler_ok h0 x ->
  let '(n, h') := get x h in
  heap_ok h' /\ untouched h h' /\ hp_next h <= hp_next h' /\
  (forall ns ev, callback h' n ns ev = defines h0 x ns ev) /\
  (forall ns, declared h' n ns <-> lists h0 x ns) /\
  (forall ns a, nss_at h' n !! ns = Some (Some a) -> is_Some (hp_events h' !! a) /\ (a < hp_next h0 \/ hp_next h <= a)).

Lemma untouched_refl h : untouched h h.
Proof. by split. Qed.
Lemma untouched_trans h1 h2 h3 : untouched h1 h2 -> untouched h2 h3 -> untouched h1 h3.
Proof. intros [A1 A2] [B1 B2]. split; auto. Qed.

Lemma events_at_untouched h h' e : untouched h h' -> ref_ok (hp_events h) e -> events_at h' e = events_at h e.
Proof. intros [A _]. destruct e as [a|]; [|done]. intros [m Hm]. unfold events_at. by rewrite (A a m Hm), Hm. Qed.
Lemma nss_at_untouched h h' n : untouched h h' -> ref_ok (hp_nss h) n -> nss_at h' n = nss_at h n.
Proof. intros [_ A]. destruct n as [a|]; [|done]. intros [m Hm]. unfold nss_at. by rewrite (A a m Hm), Hm. Qed.
Lemma ref_untouched_ev h h' e : untouched h h' -> ref_ok (hp_events h) e -> ref_ok (hp_events h') e.
Proof. intros [A _]. destruct e as [a|]; [|done]. intros [m Hm]. exists m. eauto. Qed.

Lemma new_nss_spec h (m : gmap string mref) :
  heap_ok h -> (forall ns e, m !! ns = Some e -> ref_ok (hp_events h) e) ->
  let '(a, h') := new_nss m h in
  heap_ok h' /\ untouched h h' /\ hp_next h' = S (hp_next h) /\ hp_events h' = hp_events h /\
  nss_at h' (Some a) = m /\ a = hp_next h /\ is_Some (hp_nss h' !! a).
Proof.
  intros (O1 & O2 & O3) Hm. unfold new_nss. cbn. repeat split.
  - intros a x Hx. apply O1 in Hx. cbn in *. lia.
  - intros a x Hx. cbn in *. destruct (decide (a = hp_next h)) as [->|]; [lia|].
    rewrite lookup_insert_ne in Hx by done. apply O2 in Hx. lia.
  - intros a x ns e Hx He. cbn in *. destruct (decide (a = hp_next h)) as [->|].
    + rewrite lookup_insert in Hx. injection Hx as <-. exact (Hm ns e He).
    + rewrite lookup_insert_ne in Hx by done. exact (O3 a x ns e Hx He).
  - cbn. done.
  - intros a x Hx. cbn. rewrite lookup_insert_ne; [done|]. intros <-. apply O2 in Hx. lia.
  - unfold nss_at. cbn. by rewrite lookup_insert.
  - rewrite lookup_insert. eauto.
Qed.

Lemma get_simple_gets x : (forall n e, x <> HWithTimeout n e) -> gets get_simple x.
Proof.
  intros Hx h0 h Hok0 Hok Hu Hle Hx0. destruct x as [e|n|n e|s e]; [| |by destruct (Hx n e)|]; cbn [get_simple].
  - assert (Hre : ref_ok (hp_events h) e) by by eapply ref_untouched_ev.
    assert (Hn := new_nss_spec h {["" := e]} Hok). destruct (new_nss {["" := e]} h) as [a h'].
    destruct Hn as (A1 & A2 & A3 & A4 & A5 & A6 & A7).
    { intros ns e' He. apply lookup_singleton_Some in He as [_ <-]. done. }
    split; [done|]. split; [done|]. split; [lia|]. split; [|split].
    + intros ns ev. unfold callback. rewrite A5. cbn. case_decide as Hd.
      * subst. rewrite lookup_singleton. cbn. unfold events_at. rewrite A4. fold (events_at h e).
        by rewrite (events_at_untouched h0 h).
      * by rewrite lookup_singleton_ne.
    + intros ns. unfold declared. rewrite A5. cbn. split.
      * intros [x Hx']. apply lookup_singleton_Some in Hx' as [<- ->]. done.
      * intros [-> He]. destruct e as [x|]; [|done]. exists x. by rewrite lookup_singleton.
    + intros ns x. rewrite A5. intros Hs. apply lookup_singleton_Some in Hs as [_ ->].
      destruct Hx0 as [m Hm]. destruct Hok0 as (O1 & _). split; [|left; by eapply O1].
      destruct Hre as [m' Hm']. rewrite A4. eauto.
  - split; [done|]. split; [apply untouched_refl|]. split; [lia|].
    assert (En : nss_at h n = nss_at h0 n) by by apply nss_at_untouched.
    destruct Hok0 as (O1 & O2 & O3).
    assert (Hrefs : forall ns e, nss_at h0 n !! ns = Some e -> ref_ok (hp_events h0) e).
    { intros ns e. destruct n as [a|]; cbn; [|by rewrite lookup_empty].
      destruct Hx0 as [m Hm]. rewrite Hm. cbn. by eapply O3. }
    split; [|split].
    + intros ns ev. unfold callback. rewrite En. destruct (nss_at h0 n !! ns) as [e|] eqn:Ee; [|cbn; unfold callback; by rewrite Ee].
      rewrite (events_at_untouched h0 h); [cbn; unfold callback; by rewrite Ee|done|by eapply Hrefs].
    + intros ns. unfold declared. by rewrite En.
    + intros ns x. rewrite En. intros Hs. destruct (Hrefs ns (Some x) Hs) as [m Hm].
      split; [|left; by eapply O1]. destruct Hu as [U _]. eauto.
  - assert (Hre : ref_ok (hp_events h) (Some e)) by by eapply ref_untouched_ev.
    assert (Hn := new_nss_spec h {[s := Some e]} Hok). destruct (new_nss {[s := Some e]} h) as [a h'].
    destruct Hn as (A1 & A2 & A3 & A4 & A5 & A6 & A7).
    { intros ns e' He. apply lookup_singleton_Some in He as [_ <-]. done. }
    split; [done|]. split; [done|]. split; [lia|]. split; [|split].
    + intros ns ev. unfold callback. rewrite A5. cbn. case_decide as Hd.
      * subst. rewrite lookup_singleton. unfold events_at. rewrite A4. fold (events_at h (Some e)). fold (events_at h0 (Some e)).
        by rewrite (events_at_untouched h0 h).
      * by rewrite lookup_singleton_ne.
    + intros ns. unfold declared. rewrite A5. cbn. split.
      * intros [x Hx']. apply lookup_singleton_Some in Hx' as [<- _]. done.
      * intros ->. exists e. by rewrite lookup_singleton.
    + intros ns x. rewrite A5. intros Hs. apply lookup_singleton_Some in Hs as [_ [= ->]].
      destruct Hx0 as [m Hm]. destruct Hok0 as (O1 & _). split; [|left; by eapply O1].
      destruct Hre as [m' Hm']. rewrite A4. eauto.
Qed.

(** ** JoinConnHandlers *)
Lemma join_with_spec get (l : list conn_handler) h0 h :
  heap_ok h0 -> heap_ok h -> untouched h0 h -> hp_next h0 <= hp_next h ->
  Forall (handler_ok h0) l -> Forall (gets get) l ->
  let '(n, h') := join_with get l h in
  heap_ok h' /\ untouched h h' /\ hp_next h <= hp_next h' /\
  (forall ns ev, callback h' n ns ev = last_some (map (fun x => defines h0 x ns ev) l)) /\
  (forall ns, declared h' n ns <-> Exists (fun x => lists h0 x ns) l) /\
  (forall ns e, nss_at h' n !! ns = Some e -> exists a, e = Some a /\ is_Some (hp_events h' !! a) /\ hp_next h <= a) /\
  (exists a, n = Some a /\ hp_next h <= a /\ is_Some (hp_nss h' !! a)).
Proof.
  intros Hok0 Hok Hu Hle Hl Hg. unfold join_with.
  assert (Hn := new_nss_spec h ∅ Hok). destruct (new_nss ∅ h) as [out h1].
  destruct Hn as (A1 & A2 & A3 & A4 & A5 & A6 & A7). { intros ns e. by rewrite lookup_empty. }
  set (body := fun (h : heap H) (x : conn_handler) => _).
  (* the loop over the handlers *)
  assert (Hloop : forall l', Forall (handler_ok h0) l' -> Forall (gets get) l' -> forall P D h2,
    built (hp_next h) out P D h2 -> untouched h h2 -> hp_next h1 <= hp_next h2 ->
    let h3 := fold_left body l' h2 in
    built (hp_next h) out (fun ns ev => orelse (last_some (map (fun x => defines h0 x ns ev) l')) (P ns ev))
      (fun ns => Exists (fun x => lists h0 x ns) l' \/ D ns) h3 /\ untouched h h3 /\ hp_next h2 <= hp_next h3).
  { induction l' as [|x l' IH]; intros Hl' Hg' P D h2 Hb2 Hu2 Hle2; cbn.
    - split; [|done]. eapply built_ext; [| |exact Hb2]; [done|]. intros ns. rewrite Exists_nil. tauto.
    - apply Forall_cons in Hl' as [Hx Hl']. apply Forall_cons in Hg' as [Hgx Hg'].
      assert (Hgx2 := Hgx h0 h2 Hok0 (bt_ok _ _ _ _ _ Hb2)).
      unfold body at 2 4 6. destruct (get x h2) as [n h3] eqn:Eg.
      destruct Hgx2 as (B1 & B2 & B3 & B4 & B5 & B6).
      { eapply untouched_trans; [exact Hu|exact Hu2]. } { lia. } { done. }
      destruct (range (nss_at h3 n) h3) as [ents h4] eqn:Er.
      apply range_spec in Er as (Nd & Lm & Ev & Ns & Nx).
      assert (Hnsat : forall n, nss_at h4 n = nss_at h3 n) by (intros [?|]; unfold nss_at; by rewrite ?Ns).
      assert (Hevat : forall n, events_at h4 n = events_at h3 n) by (intros [?|]; unfold events_at; by rewrite ?Ev).
      destruct (bt_out _ _ _ _ _ Hb2) as [mo Hmo].
      assert (Hmo3 : hp_nss h3 !! out = Some mo) by by apply B2.
      assert (Hout3 : nss_at h3 (Some out) = nss_at h2 (Some out)) by (unfold nss_at; by rewrite Hmo, Hmo3).
      assert (Hevin : forall ns a, nss_at h2 (Some out) !! ns = Some (Some a) -> events_at h3 (Some a) = events_at h2 (Some a)).
      { intros ns a Ha. apply events_at_untouched; [done|].
        destruct (bt_ok _ _ _ _ _ Hb2) as (_ & _ & O3). apply (O3 out mo ns (Some a) Hmo).
        unfold nss_at in Ha. rewrite Hmo in Ha. done. }
      assert (Hb4 : built (hp_next h) out P D h4).
      { destruct Hb2 as [C1 C2 C3 C4 C5 C6 C7]. split.
        - destruct B1 as (Q1 & Q2 & Q3). unfold heap_ok. rewrite Ev, Ns, Nx. done.
        - rewrite Ns, Hmo3. eauto.
        - intros ns. by rewrite Hnsat, Hout3.
        - intros a [ns Ha]. rewrite Hnsat, Hout3 in Ha. apply C4. by exists ns.
        - intros n1 n2 a. rewrite Hnsat, Hout3. apply C5.
        - intros ns ev. rewrite <- C6. unfold callback. rewrite Hnsat, Hout3.
          destruct (nss_at h2 (Some out) !! ns) as [[a|]|] eqn:Ea; [|done|done].
          rewrite Hevat, (Hevin ns a Ea). done.
        - intros ns. rewrite <- C7. unfold declared. by rewrite Hnsat, Hout3. }
      destruct (join_entries_spec (hp_next h) out ents Nd P D h4 h4 Hb4) as [Hb5 Hk].
      { lia. }
      { intros ns a Ha.
        assert (Hs : nss_at h3 n !! ns = Some (Some a)) by (rewrite <- Lm; by apply elem_of_list_to_map_1).
        destruct (B6 ns a Hs) as [[m Hm] Hlt]. exists m. rewrite Ev. repeat split; [done|done|].
        intros Ho. assert (Ho' : owns h2 out a). { destruct Ho as [k Hk]. exists k. by rewrite <- Hout3, <- Hnsat. }
        assert (hp_next h <= a) by by eapply (bt_fresh _ _ _ _ _ Hb2).
        destruct Hlt as [Hlt|Hlt]; [lia|].
        destruct Ho' as [k Hk]. destruct (bt_ok _ _ _ _ _ Hb2) as (O1 & _ & O3).
        unfold nss_at in Hk. rewrite Hmo in Hk. cbn in Hk. destruct (O3 out mo k (Some a) Hmo Hk) as [ma Hma].
        apply O1 in Hma. lia. }
      set (h5 := fold_left (fun h p => join_events out (fst p) (snd p) h) ents h4) in *.
      assert (Hu5 : untouched h h5).
      { destruct Hk as (K1 & K2 & _). destruct Hok as (O1 & O2 & O3). split.
        - intros a m Ha. apply K1.
          + rewrite Ev. apply B2. by apply Hu2.
          + intros Ho. assert (hp_next h <= a) by by eapply (bt_fresh _ _ _ _ _ Hb4). apply O1 in Ha. lia.
        - intros a m Ha. apply K2.
          + rewrite Ns. apply B2. by apply Hu2.
          + apply O2 in Ha. lia. }
      assert (Hn5 : hp_next h4 <= hp_next h5) by (destruct Hk as (_ & _ & _ & ?); done).
      destruct (IH Hl' Hg' _ _ h5 Hb5 Hu5) as (I1 & I2 & I3). { lia. }
      split; [|split; [exact I2|lia]].
      eapply built_ext; [| |exact I1].
      + intros ns ev. cbn. rewrite Lm. destruct (last_some (map (fun x0 => defines h0 x0 ns ev) l')) as [f|]; [done|]. cbn.
        specialize (B4 ns ev). unfold callback in B4. destruct (nss_at h3 n !! ns) as [e|].
        * rewrite Hevat, B4. done.
        * rewrite <- B4. done.
      + intros ns. cbn. rewrite Lm. rewrite Exists_cons, <- B5. unfold declared. tauto. }
  destruct (Hloop l Hl Hg (fun _ _ => None) (fun _ => False) h1) as (I1 & I2 & I3); [|done|lia|].
  { split.
    - done.
    - done.
    - intros ns. rewrite A5, lookup_empty. done.
    - intros a [ns Ha]. rewrite A5, lookup_empty in Ha. done.
    - intros n1 n2 a. rewrite A5, lookup_empty. done.
    - intros ns ev. unfold callback. by rewrite A5, lookup_empty.
    - intros ns. unfold declared. rewrite A5. split; [|done]. intros [a Ha]. by rewrite lookup_empty in Ha. }
  destruct I1 as [C1 C2 C3 C4 C5 C6 C7]. split; [done|]. split; [done|]. split; [lia|]. split; [|split; [|split]].
  - intros ns ev. rewrite C6. unfold orelse. by destruct (last_some _).
  - intros ns. rewrite C7. tauto.
  - intros ns e He. destruct e as [a|]; [|by destruct (C3 ns)]. exists a. split; [done|].
    split; [|apply C4; by exists ns]. destruct C2 as [m Hm]. destruct C1 as (_ & _ & O3).
    unfold nss_at in He. rewrite Hm in He. cbn in He. exact (O3 out m ns (Some a) Hm He).
  - exists out. split; [done|]. split; [lia|done].
Qed.

Lemma GetNamespaces_gets x : gets GetNamespaces x.
Proof.
  destruct x as [e|n|n e|s e]; try (apply get_simple_gets; done).
  intros h0 h Hok0 Hok Hu Hle [Hn He]. unfold GetNamespaces.
  assert (Hj := join_with_spec get_simple [HNamespaces n; HEvents e] h0 h Hok0 Hok Hu Hle).
  destruct (join_with get_simple [HNamespaces n; HEvents e] h) as [r h'].
  destruct Hj as (A1 & A2 & A3 & A4 & A5 & A6 & A7).
  { repeat constructor; done. }
  { apply Forall_cons; split; [by apply get_simple_gets|]. apply Forall_cons; split; [by apply get_simple_gets|constructor]. }
  split; [done|]. split; [done|]. split; [done|]. split; [|split].
  - intros ns ev. rewrite A4. cbn. by destruct (if decide (ns = "") then _ else _).
  - intros ns. rewrite A5. rewrite !Exists_cons, Exists_nil. cbn. tauto.
  - intros ns a Ha. destruct (A6 ns _ Ha) as (a' & [= <-] & B & C). auto.
Qed.

End proofs.

(*@file Prop_Handlers.v
From stdpp Require Import gmap strings list.
From Verif Require Import Go World Handlers Spec_Handlers.
@*)
(*@prop C11.  Joining any list of handlers gives one Namespaces value.  Its callback for any
    namespace and event is that of the last handler defining it; it lists exactly the namespaces
    that some handler lists; no existing map is changed, and the maps of the result are new ones,
    so that changing the result later cannot change the handlers. @*)
Lemma l_C11_join_handlers : forall (H : Type) (h : heap H) (l : list conn_handler),
  heap_ok h -> Forall (handler_ok h) l ->
  exists n h', JoinConnHandlers l h = (HNamespaces n, h') /\
  (forall ns ev, callback h' n ns ev = last_some (map (fun x => defines h x ns ev) l)) /\
  (forall ns, declared h' n ns <-> Exists (fun x => lists h x ns) l) /\
  untouched h h' /\
  (exists a, n = Some a /\ hp_nss h !! a = None) /\
  (forall ns a, nss_at h' n !! ns = Some (Some a) -> hp_events h !! a = None) /\
  heap_ok h' /\ handler_ok h' (HNamespaces n).
Proof.
  intros H h l Hok Hl. unfold JoinConnHandlers.
  assert (Hj := join_with_spec GetNamespaces l h h Hok Hok (untouched_refl h) (le_n _) Hl).
  destruct (join_with GetNamespaces l h) as [n h'] eqn:Ej.
  destruct Hj as (A1 & A2 & A3 & A4 & A5 & A6 & A7).
  { apply Forall_forall. intros. apply GetNamespaces_gets. }
  exists n, h'. split; [done|]. split; [done|]. split; [done|]. split; [done|].
  destruct A7 as (a & -> & Ha & Hsome). destruct Hok as (O1 & O2 & O3). split; [|split; [|split]].
  - exists a. split; [done|]. destruct (hp_nss h !! a) eqn:E; [|done]. apply O2 in E. lia.
  - intros ns x Hx. destruct (A6 ns _ Hx) as (y & [= <-] & _ & Hy).
    destruct (hp_events h !! x) eqn:E; [|done]. apply O1 in E. lia.
  - done.
  - done.
Qed.

(*@ex
(** Three handlers: Events, Namespaces (with a nil entry) and WithTimeout.  The event "a" of the
    empty namespace is defined three times, the last one wins. *)
Definition C11_heap : heap nat :=
  Heap {[0 := {["a" := 10; "b" := 11]}; 1 := {["a" := 20]}; 2 := {["c" := 30; "a" := 31]}]}
       {[3 := {["" := Some 1; "chat" := Some 2; "nil" := None]}]} 4 [1].
Definition C11_list : list conn_handler := [HEvents (Some 0); HNamespaces (Some 3); HWithTimeout (Some 3) (Some 2)].
Definition C11_result (ns ev : string) : option nat :=
  match JoinConnHandlers C11_list C11_heap with
  | (HNamespaces n, h') => callback h' n ns ev
  | _ => None
  end.
Example C11_example : heap_ok C11_heap /\ Forall (handler_ok C11_heap) C11_list /\
  C11_result "" "a" = Some 31 /\ C11_result "" "b" = Some 11 /\ C11_result "" "c" = Some 30 /\
  C11_result "chat" "a" = Some 31 /\ C11_result "nil" "a" = None.
Proof.
  split; [|split; [repeat constructor; vm_compute; eauto|repeat split; vm_compute; reflexivity]].
  split; [|split].
  - intros a m. unfold C11_heap. cbn. intros Ha.
    destruct (decide (a < 4)) as [|Hn]; [done|]. exfalso.
    rewrite !lookup_insert_ne in Ha by lia. rewrite lookup_singleton_ne in Ha by lia. done.
  - intros a m. unfold C11_heap. cbn. intros Ha. apply lookup_singleton_Some in Ha as [<- _]. lia.
  - intros a m ns e. unfold C11_heap. cbn. intros Ha Hm. apply lookup_singleton_Some in Ha as [_ <-].
    destruct e as [e|]; [|done]. cbn.
    rewrite lookup_insert_Some in Hm. destruct Hm as [[_ [= <-]]|[_ Hm]]; [vm_compute; eauto|].
    rewrite lookup_insert_Some in Hm. destruct Hm as [[_ [= <-]]|[_ Hm]]; [vm_compute; eauto|].
    apply lookup_singleton_Some in Hm as [_ [=]].
Qed.
@*)

Lemma on_known {H} (h : heap H) a ns ev (f : H) e : heap_ok h -> nss_at h (Some a) !! ns = Some (Some e) ->
  let h' := set_events e (<[ev := f]> (events_at h (Some e))) h in
  heap_ok h' /\ callback h' (Some a) ns ev = Some f /\
  forall ns' ev', (ns' <> ns \/ ev' <> ev) -> (ns' <> ns -> nss_at h (Some a) !! ns' <> Some (Some e)) ->
    callback h' (Some a) ns' ev' = callback h (Some a) ns' ev'.
Proof.
  intros (H1 & H2 & H3) Hns h'.
  assert (He : is_Some (hp_events h !! e)).
  { cbn in Hns. destruct (hp_nss h !! a) as [m|] eqn:E; [|cbn in Hns; by rewrite lookup_empty in Hns]. exact (H3 a m ns (Some e) E Hns). }
  split; [|split].
  - unfold h', set_events. split; [|split]; cbn.
    + intros b m Hb. apply lookup_insert_Some in Hb as [[<- _]|[_ Hb]]; [destruct He as [x Hx]; by eapply H1|by eapply H1].
    + exact H2.
    + intros b m ns' e' Hb Hm. specialize (H3 b m ns' e' Hb Hm). destruct e' as [e'|]; [|done]. cbn in *. apply lookup_insert_is_Some'. auto.
  - unfold callback. change (nss_at h' (Some a)) with (nss_at h (Some a)). rewrite Hns. cbn. rewrite lookup_insert. cbn. apply lookup_insert.
  - intros ns' ev' Hne Hsh. unfold callback. change (nss_at h' (Some a)) with (nss_at h (Some a)).
    destruct (nss_at h (Some a) !! ns') as [[e'|]|] eqn:E; [|reflexivity..]. cbn. destruct (decide (e' = e)) as [->|He'].
    + assert (ns' = ns) as -> by (destruct (decide (ns' = ns)); [done|]; by destruct (Hsh n)). rewrite lookup_insert. cbn. apply lookup_insert_ne. naive_solver.
    + by rewrite lookup_insert_ne by done.
Qed.
(*@prop C11.  Namespaces.On registers one callback: the others of this Namespaces value stay as they are, unless two of its
    namespaces share one Events map; it panics only on a nil map. @*)
Lemma l_C11_on : forall (H : Type) (h : heap H) (n : mref) (ns ev : string) (f : H),
  heap_ok h -> ref_ok (hp_nss h) n ->
  match n with
  | None => exists why, namespaces_On n ns ev f h = Panic why
  | Some _ =>
      exists e h', namespaces_On n ns ev f h = Ok (e, h') /\ heap_ok h' /\
      callback h' n ns ev = Some f /\
      forall ns' ev', (ns' <> ns \/ ev' <> ev) ->
        (forall a, nss_at h n !! ns = Some (Some a) -> ns' <> ns -> nss_at h n !! ns' <> Some (Some a)) ->
        callback h' n ns' ev' = callback h n ns' ev'
  end.
Proof.
  intros H h n ns ev f Hh Hn. destruct n as [a|]; [|eexists; reflexivity]. cbn in Hn. destruct Hn as [m Hm].
  pose proof Hh as (H1 & H2 & H3). assert (Hat : nss_at h (Some a) = m) by (cbn; by rewrite Hm).
  assert (Hcase : (exists e, m !! ns = Some (Some e)) \/ ~ exists e, m !! ns = Some (Some e)) by (destruct (m !! ns) as [[e|]|]; [left; eauto|right; intros [? ?]; done..]).
  destruct Hcase as [[e E]|Hno].
  { exists (Some e), (set_events e (<[ev := f]> (events_at h (Some e))) h). split.
    - unfold namespaces_On. rewrite Hat, E. cbn [default id]. unfold id. rewrite Hat, E. reflexivity.
    - destruct (on_known h a ns ev f e Hh) as (K1 & K2 & K3); [by rewrite Hat|]. split; [exact K1|]. split; [exact K2|].
      intros ns' ev' Hne Hsh. apply K3; [exact Hne|]. apply Hsh. by rewrite Hat. }
  assert (Hd : default None (m !! ns) = None) by (destruct (m !! ns) as [[e|]|] eqn:E; [destruct Hno; eauto|done..]).
  set (h0 := Heap (<[hp_next h := ∅]> (hp_events h)) (hp_nss h) (S (hp_next h)) (hp_seeds h) : heap H).
  set (h1 := set_nss a (<[ns := Some (hp_next h)]> m) h0).
  assert (Hat1 : nss_at h1 (Some a) = <[ns := Some (hp_next h)]> m) by (unfold h1; cbn; by rewrite lookup_insert).
  assert (Hnew : hp_events h !! hp_next h = None) by (destruct (hp_events h !! hp_next h) eqn:E; [apply H1 in E; lia|done]).
  assert (Hok1 : heap_ok h1).
  { unfold h1, h0, set_nss. split; [|split]; cbn.
    - intros b x Hb. apply lookup_insert_Some in Hb as [[<- _]|[_ Hb]]; [lia|]. apply H1 in Hb. lia.
    - intros b x Hb. apply lookup_insert_Some in Hb as [[<- _]|[_ Hb]]; [apply H2 in Hm; lia|]. apply H2 in Hb. lia.
    - intros b x ns' e' Hb Hx. assert (Hold : forall y, ref_ok (hp_events h) y -> ref_ok (<[hp_next h := ∅]> (hp_events h)) y).
      { intros [y|] Hy; [|done]. cbn in *. apply lookup_insert_is_Some'. auto. }
      apply lookup_insert_Some in Hb as [[<- <-]|[_ Hb]]; [|eauto]. apply lookup_insert_Some in Hx as [[<- <-]|[_ Hx]]; [|eauto]. cbn. rewrite lookup_insert. eauto. }
  exists (Some (hp_next h)), (set_events (hp_next h) (<[ev := f]> (events_at h1 (Some (hp_next h)))) h1). split.
  { unfold namespaces_On. rewrite Hat, Hd. unfold new_events. fold h0. replace (nss_at h0 (Some a)) with m by (symmetry; exact Hat). fold h1. rewrite Hat1, lookup_insert. reflexivity. }
  destruct (on_known h1 a ns ev f (hp_next h) Hok1) as (K1 & K2 & K3); [by rewrite Hat1, lookup_insert|]. split; [exact K1|]. split; [exact K2|].
  assert (Hlt : forall ns' e', m !! ns' = Some (Some e') -> e' <> hp_next h).
  { intros ns' e' E ->. destruct (H3 a m ns' (Some (hp_next h)) Hm E) as [x Hx]. congruence. }
  intros ns' ev' Hne _. rewrite K3; [|exact Hne|].
  - unfold callback. rewrite Hat, Hat1. destruct (decide (ns' = ns)) as [->|Hn'].
    + rewrite lookup_insert. cbn. rewrite lookup_insert. cbn. rewrite lookup_empty. destruct (m !! ns) as [[e|]|] eqn:E; [destruct Hno; eauto|done..].
    + rewrite lookup_insert_ne by done. destruct (m !! ns') as [[e'|]|] eqn:E; [|done..]. cbn. rewrite lookup_insert_ne; [done|]. intros Hc. by apply (Hlt _ _ E).
  - intros Hn'. rewrite Hat1, lookup_insert_ne by done. intros E. by apply (Hlt _ _ E).
Qed.
(*@prop C11.  Events.On registers one callback: the other events of this Events value, all other Events values and all
    Namespaces values stay as they are; it panics only on a nil map. @*)
Lemma l_C11_events_on : forall (H : Type) (h : heap H) (e : mref) (ev : string) (f : H),
  match e with
  | None => exists why, events_On e ev f h = Panic why
  | Some _ =>
      exists h', events_On e ev f h = Ok h' /\ events_at h' e !! ev = Some f /\
      (forall ev', ev' <> ev -> events_at h' e !! ev' = events_at h e !! ev') /\
      (forall e', e' <> e -> events_at h' e' = events_at h e') /\ (forall n, nss_at h' n = nss_at h n)
  end.
Proof.
  intros H h [a|] ev f; [|eexists; reflexivity]. eexists. split; [reflexivity|]. cbn [events_at set_events hp_events].
  rewrite lookup_insert. cbn [default id]. split; [apply lookup_insert|]. split; [intros ev' Hne; by apply lookup_insert_ne|].
  split; [|intros [n|]; reflexivity]. intros [b|] Hne; [|reflexivity]. cbn. rewrite lookup_insert_ne by congruence. reflexivity.
Qed.
(*@ex
(** On with a known and with a new namespace. *)
Example C11_on_example : heap_ok C11_heap /\ ref_ok (hp_nss C11_heap) (Some 3) /\
  (forall ns', ns' <> "chat" -> nss_at C11_heap (Some 3) !! ns' <> Some (Some 2)) /\
  match namespaces_On (Some 3) "new" "x" 77 C11_heap with
  | Ok (_, h') => callback h' (Some 3) "new" "x" = Some 77 /\ callback h' (Some 3) "chat" "c" = Some 30
  | Panic _ => False
  end /\
  match events_On (Some 2) "x" 77 C11_heap with
  | Ok h' => callback h' (Some 3) "chat" "x" = Some 77 /\ callback h' (Some 3) "chat" "c" = Some 30
  | Panic _ => False
  end.
Proof.
  split; [apply C11_example|]. split; [vm_compute; eauto|]. split; [|vm_compute; auto].
  intros ns' Hn H. change (nss_at C11_heap (Some 3)) with (<["" := Some 1]> (<["chat" := Some 2]> {["nil" := None]}) : gmap string mref) in H.
  apply lookup_insert_Some in H as [[_ H]|[_ H]]; [discriminate H|]. apply lookup_insert_Some in H as [[H _]|[_ H]]; [congruence|].
  apply lookup_singleton_Some in H as [_ H]. discriminate H.
Qed.
@*)
