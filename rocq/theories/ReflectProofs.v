(** * ReflectProofs.v : proofs about struct handlers. *)
From Coq Require Import Ascii.
From stdpp Require Import gmap strings list.
From Verif Require Import Go Errors Message Reflect Spec_Handlers Spec_Reflect CodecProofs.

Lemma system_iff name : IsSystemEvent ("_" ++ name) = true <-> name ∈ system_methods.
Proof.
  unfold IsSystemEvent, system_methods. rewrite existsb_exists. split.
  - intros (x & Hx & He). apply String.eqb_eq in He. cbn in Hx.
    repeat (destruct Hx as [<-|Hx]; [cbn in He; injection He as ->; set_solver|]). done.
  - intros Hin. rewrite !elem_of_cons, elem_of_nil in Hin.
    repeat (destruct Hin as [->|Hin]; [eexists; split; [|apply String.eqb_eq; reflexivity]; cbn; tauto|]). done.
Qed.

Lemma system_bare name : exported_name name -> IsSystemEvent name = false.
Proof.
  intros Hn. destruct (IsSystemEvent name) eqn:E; [|done]. exfalso. apply Hn.
  unfold IsSystemEvent in E. apply existsb_exists in E as (x & Hx & He). apply String.eqb_eq in He as ->. cbn in Hx.
  repeat (destruct Hx as [<-|Hx]; [reflexivity|]). done.
Qed.

Lemma makeEvent_event i m mt : exported_name (mt_name m) ->
  makeEventFromMethod i m mt =
  option_map (fun n => (n, match mt_sig m with SigStatic => CbStatic i | _ => CbDynamic i end)) (event_of (mt_name m) mt).
Proof.
  intros Hx. unfold makeEventFromMethod, event_of.
  destruct (IsSystemEvent ("_" ++ mt_name m)) eqn:E.
  - rewrite decide_True by by apply system_iff. rewrite E. done.
  - rewrite decide_False by (rewrite <- system_iff, E; done). rewrite system_bare by done. cbn.
    destruct mt as [g|]; [|done]. by destruct (g (mt_name m)).
Qed.

Lemma last_some_app {A} (l1 l2 : list (option A)) :
  last_some (l1 ++ l2) = match last_some l2 with Some x => Some x | None => last_some l1 end.
Proof.
  induction l1 as [|x l1 IH]; cbn; [by destruct (last_some l2)|]. rewrite IH. by destruct (last_some l2).
Qed.

Definition cb_of (sig : msig) (i : nat) : cb := match sig with SigStatic => CbStatic i | _ => CbDynamic i end.

Lemma events_from_spec sig mt e l : Forall (fun m => exported_name (mt_name m)) l -> forall i acc,
  events_from sig i l mt acc !! e =
  match last_some (imap (fun j m => if decide (msig_eqb (mt_sig m) sig = true /\ event_of (mt_name m) mt = Some e)
                                   then Some (i + j) else None) l) with
  | Some j => Some (cb_of sig j)
  | None => acc !! e
  end.
Proof.
  induction l as [|m l IH]; intros Hx i acc; [done|].
  apply Forall_cons in Hx as [Hm Hx]. cbn [events_from imap last_some]. rewrite IH by done.
  rewrite (imap_ext _ (fun j x => if decide (msig_eqb (mt_sig x) sig = true /\ event_of (mt_name x) mt = Some e)
                                   then Some (i + S j) else None) l).
  2: { intros j x _. case_decide; [|done]. f_equal. lia. }
  unfold compose. cbn.
  destruct (last_some _) as [j|]; [done|].
  rewrite Nat.add_0_r.
  destruct (msig_eqb (mt_sig m) sig) eqn:Es.
  - rewrite makeEvent_event by done.
    assert (Hsig : mt_sig m = sig) by (destruct (mt_sig m), sig; done).
    destruct (event_of (mt_name m) mt) as [n|] eqn:Ee; cbn.
    + destruct (decide (n = e)) as [->|Hne].
      * rewrite decide_True by done. rewrite lookup_insert, Hsig. done.
      * rewrite decide_False by (intros [_ [=]]; done). by rewrite lookup_insert_ne.
    + rewrite decide_False by (intros [_ [=]]; done). done.
  - rewrite decide_False by (intros [[=] _]). done.
Qed.

Lemma method_for_events sig mt e l : Forall (fun m => exported_name (mt_name m)) l ->
  events_from sig 0 l mt ∅ !! e = option_map (cb_of sig) (method_for sig l mt e).
Proof.
  intros Hx. rewrite events_from_spec by done. unfold method_for.
  destruct (last_some _); [done|]. by rewrite lookup_empty.
Qed.

Lemma dynamic_index r : dynamic r <-> exists i, nsconn_index (r_fields r) = Some i.
Proof.
  unfold dynamic. induction (r_fields r) as [|f l IH]; cbn.
  - rewrite Exists_nil. split; [done|]. by intros [i ?].
  - rewrite Exists_cons, IH. destruct (f_nsconn f).
    + split; [eauto|]. auto.
    + split.
      * intros [?|[i ->]]; [done|]. exists (S i). done.
      * intros [i Hi]. destruct (nsconn_index l); [|done]. right. eauto.
Qed.

(*@file Prop_Reflect.v
From Coq Require Import Ascii.
From stdpp Require Import gmap strings list.
From Verif Require Import Go Errors Message Reflect Spec_Handlers Spec_Reflect.
@*)
(*@prop C13.  The events of a struct without NSConn field: every event is handled by the last method
    of the static type that is registered for it, and by nothing if there is none. @*)
Lemma l_C13_static : forall r mt, Forall (fun m => exported_name (mt_name m)) (r_methods r) -> ~ dynamic r ->
  exists events, makeEventsFromStruct r mt = Ok (events, []) /\
  forall e, events !! e = option_map CbStatic (method_for SigStatic (r_methods r) mt e).
Proof.
  intros r mt Hx Hd. unfold makeEventsFromStruct.
  destruct (nsconn_index (r_fields r)) as [i|] eqn:E; [destruct Hd; apply dynamic_index; eauto|].
  eexists. split; [reflexivity|]. intros e. rewrite method_for_events by done. done.
Qed.

(*@prop C13.  The events of a struct with NSConn field: the same with methods of the dynamic type, except
    that OnNamespaceConnect is always there and first makes the controller. @*)
Lemma l_C13_dynamic : forall r mt events static, Forall (fun m => exported_name (mt_name m)) (r_methods r) -> dynamic r ->
  makeEventsFromStruct r mt = Ok (events, static) ->
  (forall e, e <> OnNamespaceConnect -> events !! e = option_map CbDynamic (method_for SigDynamic (r_methods r) mt e)) /\
  events !! OnNamespaceConnect =
    Some (CbConnect (option_map CbDynamic (method_for SigDynamic (r_methods r) mt OnNamespaceConnect))).
Proof.
  intros r mt events static Hx Hd. unfold makeEventsFromStruct.
  apply dynamic_index in Hd as [i ->]. destruct (nonzero _ _ _) as [l|]; cbn; [|done].
  intros [= <- <-]. split.
  - intros e He. rewrite lookup_insert_ne by done. rewrite method_for_events by done. done.
  - rewrite lookup_insert. rewrite method_for_events by done. done.
Qed.

(*@ex
(** A controller with a system event method and a matcher that drops all names without prefix "On". *)
Definition C13_struct : sreg :=
  SReg [Field true false; Field true true] [VBasic 7; VNSConn None]
       [Method "Namespace" SigOther; Method "OnNamespaceConnected" SigDynamic; Method "OnChat" SigDynamic;
        Method "Helper" SigDynamic; Method "OnAnyEvent" SigDynamic].
Example C13_example :
  dynamic C13_struct /\ Forall (fun m => exported_name (mt_name m)) (r_methods C13_struct) /\
  (let mt := Some (EventTrimPrefixMatcher "On") in
   map (fun e => method_for SigDynamic (r_methods C13_struct) mt e)
       ["_OnNamespaceConnected"; "Chat"; "OnChat"; "Helper"; "_OnAnyEvent"; "AnyEvent"]
   = [Some 1; Some 2; None; None; None; Some 4]).
Proof. split; [right; left; done|]. split; [repeat constructor; done|]. vm_compute. reflexivity. Qed.
@*)

Lemma has_prefix_iff s p : has_prefix s p = true <-> exists x, s = (p ++ x)%string.
Proof.
  unfold has_prefix. revert s. induction p as [|a p IH]; intros s; cbn.
  - split; [intros _; exists s; reflexivity|intros _; by destruct s].
  - destruct s as [|b s]; cbn.
    + split; [done|]. by intros [x ?].
    + destruct (ascii_dec a b) as [->|Hne].
      * rewrite IH. split; intros [x Hx]; exists x; [rewrite Hx; reflexivity|by injection Hx].
      * split; [done|]. intros [x Hx]. injection Hx as -> _. done.
Qed.
Lemma drop_append p x : drop (String.length p) (p ++ x) = x.
Proof. induction p; cbn; [by destruct x|done]. Qed.
Lemma append_inj_l p x y : (p ++ x)%string = (p ++ y)%string -> x = y.
Proof. induction p; cbn; [done|]. intros [= ?]. auto. Qed.

(*@prop C13.  The two built-in matchers. @*)
Lemma l_C13_matchers : forall prefix name s,
  (EventTrimPrefixMatcher prefix name = Some s <-> name = (prefix ++ s)%string) /\
  (EventPrefixMatcher prefix name = Some s <-> s = name /\ exists x, name = (prefix ++ x)%string).
Proof.
  intros p n s. unfold EventTrimPrefixMatcher, EventPrefixMatcher.
  destruct (has_prefix n p) eqn:E.
  - apply has_prefix_iff in E as [x ->]. rewrite drop_append. split; split.
    + by intros [= ->].
    + intros H. apply append_inj_l in H. by subst.
    + intros [= <-]. eauto.
    + by intros [-> _].
  - assert (Hno : ~ exists x, n = (p ++ x)%string) by (rewrite <- has_prefix_iff, E; done).
    split; split; try done.
    + intros ->. destruct Hno. eauto.
    + intros [_ Hx]. done.
Qed.

(*@prop C13.  Without a matcher, or with EventPrefixMatcher, no struct ever handles the special events
    OnAnyEvent and OnNativeMessage. @*)
Lemma l_C13_special_events_not_mapped : forall r mt events static e,
  Forall (fun m => exported_name (mt_name m)) (r_methods r) ->
  makeEventsFromStruct r mt = Ok (events, static) ->
  mt = None \/ (exists p, mt = Some (EventPrefixMatcher p)) ->
  e = OnAnyEvent \/ e = OnNativeMessage -> events !! e = None.
Proof.
  intros r mt events static e Hx Hm Hmt He.
  assert (Hno : forall sig, method_for sig (r_methods r) mt e = None).
  { intros sig. unfold method_for.
    assert (Hall : forall i m, r_methods r !! i = Some m -> event_of (mt_name m) mt <> Some e).
    { intros i m Hi. rewrite Forall_lookup in Hx. specialize (Hx i m Hi). unfold event_of.
      case_decide as Hd.
      - intros Heq. assert (Hn : mt_name m = drop 1 e) by (injection Heq as Heq; rewrite <- Heq; reflexivity).
        rewrite Hn in Hd. destruct He as [->| ->]; vm_compute in Hd;
        repeat (apply elem_of_cons in Hd as [?|Hd]; [done|]); by apply elem_of_nil in Hd.
      - destruct Hmt as [->|[p ->]].
        + intros [= Heq]. apply Hx. rewrite Heq. destruct He as [->| ->]; reflexivity.
        + intros Hp. apply l_C13_matchers in Hp as [Heq _]. apply Hx. rewrite <- Heq. destruct He as [->| ->]; reflexivity. }
    clear -Hall. generalize dependent (r_methods r). intros l Hall.
    set (f := fun i m => _). assert (Hf : Forall (fun x => x = None) (imap f l)).
    { apply Forall_lookup. intros i x. rewrite list_lookup_imap. destruct (l !! i) as [m|] eqn:E; [|done].
      cbn. intros [= <-]. unfold f. rewrite decide_False; [done|]. intros [_ H]. by eapply Hall. }
    clear Hall. induction Hf as [|x l' -> _ IH]; [done|]. cbn. by rewrite IH. }
  destruct (decide (nsconn_index (r_fields r) = None)) as [Hn|Hn].
  - destruct (l_C13_static r mt Hx) as (ev & Hm' & Hev). { rewrite dynamic_index, Hn. by intros [? ?]. }
    rewrite Hm in Hm'. injection Hm' as <- _. by rewrite Hev, Hno.
  - assert (Hd : dynamic r). { apply dynamic_index. destruct (nsconn_index (r_fields r)); [eauto|done]. }
    destruct (l_C13_dynamic r mt events static Hx Hd Hm) as [Hev _].
    rewrite Hev, Hno; [done|]. destruct He as [->| ->]; done.
Qed.

(** ** Controllers *)
Lemma nonzero_spec fs : forall vs i static, length vs = length fs -> nonzero i fs vs = Ok static ->
  forall j v, (j, v) ∈ static <-> exists k f, j = i + k /\ fs !! k = Some f /\ vs !! k = Some v /\ isZero (negb (f_exported f)) v = Ok false.
Proof.
  induction fs as [|f fs IH]; intros [|v vs] i static Hlen Hn; try done; cbn in Hn.
  - injection Hn as <-. intros j v. split; [by rewrite elem_of_nil|]. intros (k & f & _ & Hk & _). done.
  - destruct (isZero (negb (f_exported f)) v) as [z|] eqn:Ez; [|done]. cbn in Hn.
    destruct (nonzero (S i) fs vs) as [rest|] eqn:Er; [|done]. cbn in Hn. injection Hn as <-.
    assert (Hrec := IH vs (S i) rest ltac:(cbn in Hlen; lia) Er).
    intros j x. destruct z.
    + rewrite Hrec. split.
      * intros (k & g & -> & H1 & H2 & H3). exists (S k), g. repeat split; [lia|done..].
      * intros (k & g & -> & H1 & H2 & H3). destruct k as [|k]; cbn in H1, H2.
        -- injection H1 as <-. injection H2 as <-. congruence.
        -- exists k, g. repeat split; [lia|done..].
    + rewrite elem_of_cons, Hrec. split.
      * intros [[= -> ->]|(k & g & -> & H1 & H2 & H3)].
        -- exists 0, f. repeat split; [lia|done..].
        -- exists (S k), g. repeat split; [lia|done..].
      * intros (k & g & -> & H1 & H2 & H3). destruct k as [|k]; cbn in H1, H2.
        -- injection H1 as <-. injection H2 as <-. left. f_equal. lia.
        -- right. exists k, g. repeat split; [lia|done..].
Qed.

Lemma nonzero_nodup fs : forall vs i static, nonzero i fs vs = Ok static -> NoDup (static.*1) /\ Forall (fun j => i <= j) (static.*1).
Proof.
  induction fs as [|f fs IH]; intros [|v vs] i static Hn; cbn in Hn; try (injection Hn as <-; split; constructor).
  destruct (isZero (negb (f_exported f)) v) as [z|] eqn:Ez; [|done]. cbn in Hn.
  destruct (nonzero (S i) fs vs) as [rest|] eqn:Er; [|done]. cbn in Hn. injection Hn as <-.
  destruct (IH vs (S i) rest Er) as [H1 H2].
  assert (H3 : Forall (fun j => i <= j) (rest.*1)) by (eapply Forall_impl; [exact H2|cbn; lia]).
  destruct z; [done|]. cbn. split; constructor; try done.
  intros Hin. rewrite Forall_forall in H2. specialize (H2 i Hin). lia.
Qed.

Lemma nsconn_index_spec l i : nsconn_index l = Some i <->
  exists f, l !! i = Some f /\ f_nsconn f = true /\ forall j g, j < i -> l !! j = Some g -> f_nsconn g = false.
Proof.
  revert i. induction l as [|f l IH]; intros i; cbn.
  - split; [done|]. by intros (f & ? & _).
  - destruct (f_nsconn f) eqn:E.
    + split.
      * intros [= <-]. exists f. repeat split; [done|]. lia.
      * intros (g & Hg & Hg2 & Hmin). destruct i as [|i]; [done|]. specialize (Hmin 0 f ltac:(lia) eq_refl). congruence.
    + split.
      * destruct (nsconn_index l) as [k|] eqn:Ek; [|done]. cbn. intros [= <-].
        destruct (proj1 (IH k) eq_refl) as (g & Hg & Hg2 & Hmin). exists g. repeat split; [done|done|].
        intros [|j] x Hj Hx; cbn in Hx; [congruence|]. apply (Hmin j); [lia|done].
      * intros (g & Hg & Hg2 & Hmin). destruct i as [|i]; cbn in Hg; [congruence|].
        rewrite (proj2 (IH i)); [done|]. exists g. repeat split; [done|done|].
        intros j x Hj Hx. apply (Hmin (S j) x); [lia|done].
Qed.

Definition fill_static (r : sreg) := fix go (l : list (nat * gval)) fs :=
     match l with
     | [] => Ok fs
     | (i, v) :: l' => rbind (set_field r i v fs) (go l')
     end.

Lemma fill_static_ok r l : NoDup (l.*1) ->
  (forall i v, (i, v) ∈ l -> exists f, r_fields r !! i = Some f /\ f_exported f = true) -> forall fs,
  (forall i v, (i, v) ∈ l -> i < length fs) ->
  exists fs', fill_static r l fs = Ok fs' /\ length fs' = length fs /\
    (forall i v, (i, v) ∈ l -> fs' !! i = Some v) /\ (forall i, i ∉ l.*1 -> fs' !! i = fs !! i).
Proof.
  induction l as [|[i v] l IH]; intros Hnd Hex fs Hlen; cbn.
  - exists fs. repeat split; [intros ? ?; by rewrite elem_of_nil].
  - cbn in Hnd. apply NoDup_cons in Hnd as [Hi Hnd].
    destruct (Hex i v) as (f & Hf & Hfe); [left|]. unfold set_field. rewrite Hf, Hfe. cbn.
    destruct (IH Hnd) with (fs := <[i := v]> fs) as (fs' & H1 & H2 & H3 & H4).
    { intros j x Hj. apply (Hex j x). by right. }
    { intros j x Hj. rewrite insert_length. apply (Hlen j x). by right. }
    exists fs'. split; [done|]. rewrite insert_length in H2. split; [done|]. split.
    + intros j x Hj. apply elem_of_cons in Hj as [[= -> ->]|Hj]; [|by apply H3].
      rewrite H4 by done. apply list_lookup_insert. apply (Hlen i v). left.
    + intros j Hj. rewrite not_elem_of_cons in Hj. destruct Hj as [Hji Hj]. rewrite H4 by done.
      by apply list_lookup_insert_ne.
Qed.

Lemma isZero_ro_basic v ro : (exists n, v = VBasic n) \/ (exists c, v = VNSConn c) -> ro = true -> isZero ro v = Ok false.
Proof. intros [[n ->]|[c ->]] ->; done. Qed.

(*@prop C14.  A new controller: its NSConn field is the NSConn that connects, every other field is a copy of
    the registered value or, if that is zero, the zero value.  Provisos: all fields are exported and
    the registered value has no NSConn yet. @*)
Lemma l_C14_new_controller : forall r mt events static c idx,
  well_typed r -> makeEventsFromStruct r mt = Ok (events, static) -> nsconn_index (r_fields r) = Some idx ->
  Forall (fun f => f_exported f = true) (r_fields r) ->
  r_values r !! idx = Some (VNSConn None) ->
  exists fs, new_controller r static idx c = Ok fs /\ fs !! idx = Some (VNSConn (Some c)) /\
    forall i v, i <> idx -> r_values r !! i = Some v -> fs !! i = Some (copied v).
Proof.
  intros r mt events static c idx Hwt Hm Hidx Hex Hnil.
  unfold makeEventsFromStruct in Hm. rewrite Hidx in Hm.
  destruct (nonzero 0 (r_fields r) (r_values r)) as [st|] eqn:En; [|done]. cbn in Hm. injection Hm as <- <-.
  assert (Hns := nonzero_spec _ _ _ _ Hwt En). destruct (nonzero_nodup _ _ _ _ En) as [Hnd _].
  apply nsconn_index_spec in Hidx as (f & Hf & _ & _). rewrite Forall_lookup in Hex.
  unfold new_controller, set_field at 1. rewrite Hf, (Hex idx f Hf). cbn. fold (fill_static r).
  assert (Hlen : length (map zero_of (r_values r)) = length (r_fields r)) by (rewrite map_length; done).
  destruct (fill_static_ok r st Hnd) with (fs := <[idx := VNSConn (Some c)]> (map zero_of (r_values r))) as (fs & H1 & H2 & H3 & H4).
  { intros i v Hi. apply Hns in Hi as (k & g & -> & Hg & _). exists g. split; [done|]. by eapply Hex. }
  { intros i v Hi. apply Hns in Hi as (k & g & -> & Hg & _). rewrite insert_length, Hlen. by apply lookup_lt_Some in Hg. }
  exists fs. split; [done|].
  assert (Hzero : forall i v, r_values r !! i = Some v -> forall z, isZero false v = Ok z ->
    (z = false <-> (i, v) ∈ st)).
  { intros i v Hv z Hz. rewrite Hns. split.
    - intros ->. assert (Hlt : i < length (r_fields r)) by (rewrite <- Hwt; by eapply lookup_lt_Some).
      apply lookup_lt_is_Some_2 in Hlt as [g Hg]. exists i, g. rewrite (Hex i g Hg). repeat split; done.
    - intros (k & g & -> & Hg & Hk & Hk0). rewrite (Hex k g Hg) in Hk0. cbn in Hk0. congruence. }
  assert (Hnotin : forall i v, r_values r !! i = Some v -> (i, v) ∉ st -> i ∉ st.*1).
  { intros i v Hv Hni Hin. apply elem_of_list_fmap in Hin as ([j x] & -> & Hj). cbn in *.
    assert (Hj' := Hj). apply Hns in Hj' as (k & g & -> & Hg & Hk & Hk0). cbn in Hv. apply Hni. congruence. }
  split.
  - rewrite H4.
    + apply list_lookup_insert. rewrite Hlen. by apply lookup_lt_Some in Hf.
    + apply (Hnotin idx (VNSConn None) Hnil). intros Hin. apply (Hzero idx _ Hnil true eq_refl) in Hin. done.
  - intros i v Hi Hv. unfold copied.
    assert (Hlt : i < length (r_fields r)) by (rewrite <- Hwt; by eapply lookup_lt_Some).
    assert (Hz : exists z, isZero false v = Ok z).
    { clear -En Hv Hex Hwt. unfold well_typed in Hwt. revert En. generalize 0 as n. revert st i Hv Hex Hwt.
      generalize (r_fields r) as fs. generalize (r_values r) as vs. induction vs as [|x vs IH]; intros [|g fs] st i Hv Hex Hwt n En; cbn in Hv, En; try done.
      - destruct (isZero (negb (f_exported g)) x) as [z|] eqn:E; [|done]. cbn in En.
        destruct (nonzero (S n) fs vs) as [rest|] eqn:Er; [|done].
        destruct i as [|i]; cbn in Hv.
        + injection Hv as <-. rewrite (Hex 0 g eq_refl) in E. cbn in E. eauto.
        + eapply (IH fs rest i Hv); [|cbn in Hwt; lia|exact Er]. intros j y Hj. by apply (Hex (S j) y). }
    destruct Hz as [z Hz]. rewrite Hz. destruct z.
    + rewrite H4.
      * rewrite list_lookup_insert_ne by done. rewrite list_lookup_fmap, Hv. done.
      * apply (Hnotin i v Hv). intros Hin. apply (Hzero i v Hv true Hz) in Hin. done.
    + apply H3. by apply (Hzero i v Hv false Hz).
Qed.

(*@ex
Example C14_new_controller_example :
  well_typed C13_struct /\ (exists events, makeEventsFromStruct C13_struct None = Ok (events, [(0, VBasic 7)])) /\
  nsconn_index (r_fields C13_struct) = Some 1 /\
  new_controller C13_struct [(0, VBasic 7)] 1 42 = Ok [VBasic 7; VNSConn (Some 42)].
Proof. split; [done|]. split; [eexists; vm_compute; reflexivity|]. vm_compute. done. Qed.
@*)

Lemma set_field_length r i v fs fs' : set_field r i v fs = Ok fs' -> length fs' = length fs.
Proof. unfold set_field. destruct (r_fields r !! i) as [f|]; [|done]. destruct (f_exported f); [|done]. intros [= <-]. apply insert_length. Qed.
Lemma new_controller_length r static idx c fs : new_controller r static idx c = Ok fs -> length fs = length (r_values r).
Proof.
  unfold new_controller. destruct (set_field r idx _ _) as [fs0|] eqn:E; [|done]. cbn. fold (fill_static r). apply set_field_length in E. rewrite map_length in E. rewrite <- E. clear E.
  revert fs0. induction static as [|[i v] l IH]; cbn; intros fs0 H; [congruence|]. destruct (set_field r i v fs0) as [fs1|] eqn:E1; [|done]. cbn in H.
  rewrite (IH _ H). eapply set_field_length, E1.
Qed.
Lemma no_iszero_zero : forall v ro, no_iszero v -> (exists z, isZero ro v = Ok z) /\ (isZero ro v = Ok true -> zero_of v = v).
Proof.
  fix IH 1. intros [c|n|n|l|m l] ro Hv.
  - destruct ro; cbn; split; eauto; destruct c; congruence.
  - cbn. split; [eauto|]. intros [= H]. apply Nat.eqb_eq in H. congruence.
  - destruct ro; cbn; split; eauto; [discriminate|]. intros [= H]. apply Nat.eqb_eq in H. congruence.
  - cbn [no_iszero isZero zero_of] in *. revert l Hv. refine (fix go l Hv {struct l} := _). destruct l as [|x l]; cbn; [split; eauto|].
    destruct Hv as [H1 H2]. destruct (IH x ro H1) as [[z E] Hz]. rewrite E. cbn. destruct z; [|split; [eauto|discriminate]].
    destruct (go l H2) as [G1 G2]. split; [exact G1|]. intros H. rewrite (Hz E). injection (G2 H) as ->. reflexivity.
  - cbn [no_iszero isZero zero_of] in *. destruct Hv as [-> Hv].
    assert (H : (exists z, ((fix go (l : list (bool * gval)) : result bool :=
                match l with
                | [] => Ok true
                | (exported, x) :: l' =>
                    rbind (isZero (ro || negb exported) x) (fun z => if z then go l' else Ok false)
                end) l) = Ok z) /\ (((fix go (l : list (bool * gval)) : result bool :=
                match l with
                | [] => Ok true
                | (exported, x) :: l' =>
                    rbind (isZero (ro || negb exported) x) (fun z => if z then go l' else Ok false)
                end) l) = Ok true -> map (fun p => (fst p, zero_of (snd p))) l = l)).
    { revert l Hv. refine (fix go l Hv {struct l} := _). destruct l as [|[b x] l]; cbn; [split; eauto|].
      destruct Hv as [H1 H2]. destruct (IH x (ro || negb b) H1) as [[z E] Hz]. rewrite E. cbn. destruct z; [|split; [eauto|discriminate]].
      destruct (go l H2) as [G1 G2]. split; [exact G1|]. intros H. rewrite (Hz E), (G2 H). reflexivity. }
    destruct H as [[z E] H2]. rewrite E. cbn. split; [eauto|]. intros [= ->]. rewrite (H2 E). reflexivity.
Qed.
(*@prop C14.  Unless a type with an IsZero method is involved: registering the struct does not panic, and every other field of
    a new controller has exactly the registered value. @*)
Lemma l_C14_same_fields : forall r mt,
  well_typed r -> Forall no_iszero (r_values r) ->
  exists events static, makeEventsFromStruct r mt = Ok (events, static) /\
  forall c idx, nsconn_index (r_fields r) = Some idx -> Forall (fun f => f_exported f = true) (r_fields r) ->
  r_values r !! idx = Some (VNSConn None) ->
  exists fs, new_controller r static idx c = Ok fs /\ fs = <[idx := VNSConn (Some c)]> (r_values r).
Proof.
  intros r mt Hw Hv.
  assert (Hn : forall fs vs i, Forall no_iszero vs -> exists static, nonzero i fs vs = Ok static).
  { induction fs as [|f fs IH]; intros vs i H; [cbn; eauto|]. destruct H as [|v vs H1 H2]; cbn; [eauto|].
    destruct (proj1 (no_iszero_zero v (negb (f_exported f)) H1)) as [z ->]. cbn. destruct (IH vs (S i) H2) as [st ->]. cbn. eauto. }
  destruct (Hn (r_fields r) (r_values r) 0 Hv) as [st Hst].
  assert (Hm : exists events static, makeEventsFromStruct r mt = Ok (events, static)).
  { unfold makeEventsFromStruct. destruct (nsconn_index (r_fields r)); [rewrite Hst; cbn|]; eauto. }
  destruct Hm as (events & static & Hm). exists events, static. split; [exact Hm|]. intros c idx Hi He Hx.
  destruct (l_C14_new_controller r mt events static c idx Hw Hm Hi He Hx) as (fs & H1 & H2 & H3). exists fs. split; [exact H1|].
  apply list_eq. intros j. destruct (decide (j = idx)) as [->|Hne].
  - rewrite list_lookup_insert by (eapply lookup_lt_Some; exact Hx). exact H2.
  - rewrite list_lookup_insert_ne by congruence. destruct (r_values r !! j) as [v|] eqn:E.
    + rewrite (H3 j v Hne E). unfold copied. destruct (isZero false v) as [[|]|] eqn:Ez; try reflexivity.
      f_equal. apply (no_iszero_zero v false); [|exact Ez]. eapply Forall_lookup_1; eassumption.
    + apply lookup_ge_None. rewrite (new_controller_length _ _ _ _ _ H1). apply lookup_ge_None, E.
Qed.
(** The events of a dynamic struct only hold dynamic callbacks. *)
Definition dyn_cb (f : cb) : Prop := (exists i, f = CbDynamic i) \/ f = CbConnect None \/ (exists i, f = CbConnect (Some (CbDynamic i))).

Lemma events_dyn r mt events static : Forall (fun m => exported_name (mt_name m)) (r_methods r) -> dynamic r ->
  makeEventsFromStruct r mt = Ok (events, static) -> forall e f, events !! e = Some f -> dyn_cb f.
Proof.
  intros Hx Hd Hm e f He. destruct (l_C13_dynamic r mt events static Hx Hd Hm) as [H1 H2].
  destruct (decide (e = OnNamespaceConnect)) as [->|Hne].
  - rewrite H2 in He. injection He as <-. right. destruct (method_for _ _ _ _); [right; eauto|by left].
  - rewrite H1 in He by done. destruct (method_for _ _ _ _); [|done]. injection He as <-. left. eauto.
Qed.

Definition rinv (s : rstate) : Prop :=
  0 < k_next s /\
  (forall c a, k_value s !! c = Some a -> 0 < a < k_next s) /\
  (forall c d a, k_value s !! c = Some a -> k_value s !! d = Some a -> c = d) /\
  (forall c a, k_value s !! c = Some a -> is_Some (k_ctrls s !! a)).

Section iso.
Variable r : sreg.
Variable static : list (nat * gval).
Variable body : nat -> list gval -> nat -> message -> list gval * option gerr.

Lemma dynamic_step i c m s s' e : rinv s -> call_simple body (CbDynamic i) c m s = Ok (s', e) ->
  rinv s' /\ (forall d, d <> c -> controller s' d = controller s d) /\
  exists fs, controller s c = Some fs /\ (controller s' c, e) = let '(fs', e') := body i fs c m in (Some fs', e').
Proof.
  intros (I0 & I1 & I2 & I3) Hc. cbn in Hc. destruct (k_value s !! c) as [a|] eqn:Ea; [|done].
  unfold run_method in Hc. destruct (I3 c a Ea) as [fs Hfs].
  assert (Hf : fields_at s a = fs) by (unfold fields_at; by rewrite Hfs). rewrite Hf in Hc.
  destruct (body i fs c m) as [fs' e'] eqn:Eb. injection Hc as <- <-.
  split; [|split].
  - split; [done|]. split; [done|]. split; [done|]. cbn. intros d x Hd. destruct (decide (x = a)) as [->|].
    + rewrite lookup_insert. eauto.
    + rewrite lookup_insert_ne by done. eauto.
  - intros d Hd. unfold controller. cbn. destruct (k_value s !! d) as [x|] eqn:Ex; [|done]. cbn.
    rewrite lookup_insert_ne; [done|]. intros <-. apply Hd. by eapply I2.
  - exists fs. unfold controller. rewrite Ea. cbn. rewrite Ea. cbn. split; [done|]. rewrite lookup_insert, Eb. done.
Qed.

Lemma dynamic_same i c m s1 s2 s1' e : rinv s1 -> rinv s2 -> controller s1 c = controller s2 c ->
  call_simple body (CbDynamic i) c m s1 = Ok (s1', e) ->
  exists s2', call_simple body (CbDynamic i) c m s2 = Ok (s2', e) /\ controller s1' c = controller s2' c.
Proof.
  intros H1 H2 Hc Hs. destruct (dynamic_step _ _ _ _ _ _ H1 Hs) as (_ & _ & fs & Hfs & Hb).
  rewrite Hfs in Hc. unfold controller in Hc. cbn. destruct (k_value s2 !! c) as [a|] eqn:Ea; [|done]. cbn in Hc.
  unfold run_method, fields_at. rewrite <- Hc. cbn. destruct (body i fs c m) as [fs' e'].
  injection Hb as Hb1 ->. eexists. split; [reflexivity|]. rewrite Hb1. unfold controller. cbn. rewrite Ea. cbn.
  by rewrite lookup_insert.
Qed.

Definition connected_state (c : nat) (fs : list gval) (s : rstate) : rstate :=
  RState (<[k_next s := fs]> (k_ctrls s)) (<[c := k_next s]> (k_value s)) (S (k_next s)).

Lemma connected_inv c fs s : rinv s -> rinv (connected_state c fs s) /\
  (forall d, d <> c -> controller (connected_state c fs s) d = controller s d) /\
  controller (connected_state c fs s) c = Some fs.
Proof.
  intros (I0 & I1 & I2 & I3). split; [|split].
  - split; [cbn; lia|]. split; [|split]; cbn.
    + intros d a. destruct (decide (d = c)) as [->|].
      * rewrite lookup_insert. intros [= <-]. lia.
      * rewrite lookup_insert_ne by done. intros Ha. apply I1 in Ha. lia.
    + intros d1 d2 a. destruct (decide (d1 = c)) as [->|], (decide (d2 = c)) as [->|]; try done.
      * rewrite lookup_insert, lookup_insert_ne by done. intros [= <-] Ha. apply I1 in Ha. lia.
      * rewrite lookup_insert, lookup_insert_ne by done. intros Ha [= <-]. apply I1 in Ha. lia.
      * rewrite !lookup_insert_ne by done. apply I2.
    + intros d a Hda. destruct (decide (a = k_next s)) as [->|].
      * rewrite lookup_insert. eauto.
      * rewrite lookup_insert_ne by done. destruct (decide (d = c)) as [->|].
        -- rewrite lookup_insert in Hda. congruence.
        -- rewrite lookup_insert_ne in Hda by done. by eapply I3.
  - intros d Hd. unfold controller. cbn. rewrite lookup_insert_ne by done.
    destruct (k_value s !! d) as [a|] eqn:Ea; [|done]. cbn. rewrite lookup_insert_ne; [done|]. apply I1 in Ea. lia.
  - unfold controller. cbn. rewrite lookup_insert. cbn. by rewrite lookup_insert.
Qed.

Lemma call_step f c m s s' e : dyn_cb f -> rinv s -> call r static body f c m s = Ok (s', e) ->
  rinv s' /\ (forall d, d <> c -> controller s' d = controller s d).
Proof.
  intros [[i ->]|Hf] Hi Hc.
  - change (call_simple body (CbDynamic i) c m s = Ok (s', e)) in Hc.
    destruct (dynamic_step _ _ _ _ _ _ Hi Hc) as (A & B & _). done.
  - assert (Hsplit : exists inner, f = CbConnect inner /\ (inner = None \/ exists i, inner = Some (CbDynamic i))).
    { destruct Hf as [->|[i ->]]; eauto. }
    destruct Hsplit as (inner & -> & Hin). cbn in Hc.
    destruct (nsconn_index (r_fields r)) as [idx|]; [|done].
    destruct (new_controller r static idx c) as [fs|]; [|done]. cbn in Hc.
    change (RState _ _ _) with (connected_state c fs s) in Hc.
    destruct (connected_inv c fs s Hi) as (A & B & C).
    destruct Hin as [->|[i ->]].
    + injection Hc as <- <-. done.
    + change (call_simple body (CbDynamic i) c m (connected_state c fs s) = Ok (s', e)) in Hc.
      destruct (dynamic_step _ _ _ _ _ _ A Hc) as (A' & B' & _). split; [done|].
      intros d Hd. rewrite B' by done. by apply B.
Qed.

Lemma call_same f c m s1 s2 s1' e : dyn_cb f -> rinv s1 -> rinv s2 -> controller s1 c = controller s2 c ->
  call r static body f c m s1 = Ok (s1', e) ->
  exists s2', call r static body f c m s2 = Ok (s2', e) /\ controller s1' c = controller s2' c.
Proof.
  intros [[i ->]|Hf] H1 H2 Hc Hs.
  - change (call_simple body (CbDynamic i) c m s1 = Ok (s1', e)) in Hs.
    exact (dynamic_same i c m s1 s2 s1' e H1 H2 Hc Hs).
  - assert (Hsplit : exists inner, f = CbConnect inner /\ (inner = None \/ exists i, inner = Some (CbDynamic i))).
    { destruct Hf as [->|[i ->]]; eauto. }
    destruct Hsplit as (inner & -> & Hin). cbn in Hs. cbn [call].
    destruct (nsconn_index (r_fields r)) as [idx|]; [|done].
    destruct (new_controller r static idx c) as [fs|]; [|done]. cbn in Hs. cbn [rbind].
    change (RState (<[k_next s1:=fs]> _) _ _) with (connected_state c fs s1) in Hs.
    change (RState (<[k_next s2:=fs]> _) _ _) with (connected_state c fs s2).
    destruct (connected_inv c fs s1 H1) as (A1 & B1 & C1). destruct (connected_inv c fs s2 H2) as (A2 & B2 & C2).
    destruct Hin as [->|[i ->]].
    + injection Hs as <- <-. eexists. split; [reflexivity|]. by rewrite C1, C2.
    + eapply dynamic_same; [exact A1|exact A2| |exact Hs]. by rewrite C1, C2.
Qed.

Variable events : gmap string cb.
Hypothesis Hdyn : forall e f, events !! e = Some f -> dyn_cb f.

Lemma fire_step c m s s' o : rinv s -> fire r static body events c m s = Ok (s', o) ->
  rinv s' /\ (forall d, d <> c -> controller s' d = controller s d).
Proof.
  intros Hi. unfold fire.
  assert (Hrun : forall f, dyn_cb f -> rbind (call r static body f c m s) (fun p => Ok (fst p, Some (snd p))) = Ok (s', o) ->
    rinv s' /\ (forall d, d <> c -> controller s' d = controller s d)).
  { intros f Hf. destruct (call r static body f c m s) as [[x y]|] eqn:E; [|done]. cbn. intros [= <- <-]. by eapply call_step. }
  destruct (events !! m_event m) as [f|] eqn:E1; [apply Hrun; by eapply Hdyn|].
  destruct (events !! OnAnyEvent) as [f|] eqn:E2; [apply Hrun; by eapply Hdyn|].
  intros [= <- <-]. done.
Qed.

Lemma fire_same c m s1 s2 s1' o : rinv s1 -> rinv s2 -> controller s1 c = controller s2 c ->
  fire r static body events c m s1 = Ok (s1', o) ->
  exists s2', fire r static body events c m s2 = Ok (s2', o) /\ controller s1' c = controller s2' c.
Proof.
  intros H1 H2 Hc. unfold fire.
  assert (Hrun : forall f, dyn_cb f -> rbind (call r static body f c m s1) (fun p => Ok (fst p, Some (snd p))) = Ok (s1', o) ->
    exists s2', rbind (call r static body f c m s2) (fun p => Ok (fst p, Some (snd p))) = Ok (s2', o) /\ controller s1' c = controller s2' c).
  { intros f Hf. destruct (call r static body f c m s1) as [[x y]|] eqn:E; [|done]. cbn. intros [= <- <-].
    destruct (call_same f c m s1 s2 x y Hf H1 H2 Hc E) as (s2' & -> & Hs2). cbn. eauto. }
  destruct (events !! m_event m) as [f|] eqn:E1; [apply Hrun; by eapply Hdyn|].
  destruct (events !! OnAnyEvent) as [f|] eqn:E2; [apply Hrun; by eapply Hdyn|].
  intros [= <- <-]. eauto.
Qed.

Lemma history_iso c l : forall s1 s2 s outs, rinv s1 -> rinv s2 -> controller s1 c = controller s2 c ->
  history r static body events l s1 = Ok (s, outs) ->
  exists s', history r static body events (only c l) s2 = Ok (s', only c outs) /\ controller s c = controller s' c.
Proof.
  induction l as [|[d m] l IH]; intros s1 s2 s outs H1 H2 Hc Hh; cbn in Hh.
  - injection Hh as <- <-. exists s2. done.
  - destruct (fire r static body events d m s1) as [[s1' o]|] eqn:Ef; [|done]. cbn in Hh.
    destruct (history r static body events l s1') as [[s' os]|] eqn:Eh; [|done]. cbn in Hh. injection Hh as <- <-.
    unfold only. rewrite !filter_cons. cbn.
    destruct (fire_step _ _ _ _ _ H1 Ef) as [H1' Hoth].
    destruct (decide (d = c)) as [->|Hd].
    + destruct (fire_same _ _ _ s2 _ _ H1 H2 Hc Ef) as (s2' & Ef2 & Hc2).
      destruct (fire_step _ _ _ _ _ H2 Ef2) as [H2' _].
      destruct (IH s1' s2' s' os H1' H2' Hc2 Eh) as (s'' & Eh2 & Hc'').
      cbn. rewrite Ef2. cbn. unfold only in Eh2. rewrite Eh2. cbn. eauto.
    + apply (IH s1' s2 s' os H1' H2); [|done]. rewrite Hoth by done. done.
Qed.

End iso.

Lemma rinv0 r : rinv (rstate0 r).
Proof. split; [cbn; lia|]. cbn. split; [|split]; intros *; by rewrite lookup_empty. Qed.

(*@prop C14.  Isolation: whatever the methods do with their receiver, in every history the results of the
    callbacks of an NSConn and its controller are those of the history in which only this NSConn
    takes part. @*)
Lemma l_C14_isolation : forall r mt events static body l c s outs,
  Forall (fun m => exported_name (mt_name m)) (r_methods r) -> dynamic r ->
  makeEventsFromStruct r mt = Ok (events, static) ->
  history r static body events l (rstate0 r) = Ok (s, outs) ->
  exists s', history r static body events (only c l) (rstate0 r) = Ok (s', only c outs) /\
             controller s c = controller s' c.
Proof.
  intros r mt events static body l c s outs Hx Hd Hm Hh.
  eapply history_iso; [|apply rinv0|apply rinv0|reflexivity|exact Hh].
  intros e f. by eapply events_dyn.
Qed.

Lemma fire_total r static body events c m s :
  (forall e f, events !! e = Some f -> dyn_cb f) ->
  (exists inner, events !! OnNamespaceConnect = Some (CbConnect inner)) ->
  (exists idx fs, nsconn_index (r_fields r) = Some idx /\ new_controller r static idx c = Ok fs) -> rinv s ->
  (m_event m = OnNamespaceConnect \/ is_Some (k_value s !! c)) ->
  exists s' o, fire r static body events c m s = Ok (s', o) /\ is_Some (k_value s' !! c) /\
    (forall d, is_Some (k_value s !! d) -> is_Some (k_value s' !! d)).
Proof.
  intros Hdyn [inner Hin] (idx & fs & Hidx & Hfs) Hi Hor.
  assert (Hs : forall i s0, is_Some (k_value s0 !! c) -> exists s' o, call_simple body (CbDynamic i) c m s0 = Ok (s', o) /\ k_value s' = k_value s0).
  { intros i s0 [a Ha]. cbn. rewrite Ha. unfold run_method. destruct (body i _ c m) as [x y]. eexists _, _. split; [reflexivity|done]. }
  assert (Hcall : forall f, dyn_cb f -> (is_Some (k_value s !! c) \/ exists i, f = CbConnect i) ->
    exists s' o, call r static body f c m s = Ok (s', o) /\ is_Some (k_value s' !! c) /\
      (forall d, is_Some (k_value s !! d) -> is_Some (k_value s' !! d))).
  { intros f Hf Hv.
    assert (Hcs : forall d, is_Some (k_value s !! d) -> is_Some (k_value (connected_state c fs s) !! d)).
    { intros d Hd. cbn. destruct (decide (d = c)) as [->|]; [rewrite lookup_insert; eauto|by rewrite lookup_insert_ne]. }
    assert (Hcc : is_Some (k_value (connected_state c fs s) !! c)) by (cbn; rewrite lookup_insert; eauto).
    destruct Hf as [[i ->]|[->|[i ->]]].
    - destruct Hv as [Hv|[? ?]]; [|done]. destruct (Hs i s Hv) as (s' & o & E & Ek).
      exists s', o. rewrite Ek. done.
    - cbn [call]. rewrite Hidx, Hfs. cbn [rbind]. fold (connected_state c fs s). eexists _, _. split; [reflexivity|]. done.
    - cbn [call]. rewrite Hidx, Hfs. cbn [rbind]. fold (connected_state c fs s).
      destruct (Hs i (connected_state c fs s) Hcc) as (s' & o & E & Ek). exists s', o. rewrite E, Ek. done. }
  unfold fire.
  destruct (events !! m_event m) as [f|] eqn:E1.
  - destruct (Hcall f) as (s' & o & -> & A & B); [by eapply Hdyn| |cbn; eauto].
    destruct Hor as [He|?]; [|by left]. rewrite He, Hin in E1. injection E1 as <-. right. eauto.
  - destruct Hor as [He|Hv]; [rewrite He, Hin in E1; done|].
    destruct (events !! OnAnyEvent) as [f|] eqn:E2; [|eauto].
    destruct (Hcall f) as (s' & o & -> & A & B); [by eapply Hdyn|by left|cbn; eauto].
Qed.

(*@prop C14.  No callback of a struct handler panics in a history in which every NSConn starts with
    OnNamespaceConnect (provisos as above, and methods that return). @*)
Lemma l_C14_no_panic : forall r mt events static body l idx,
  Forall (fun m => exported_name (mt_name m)) (r_methods r) ->
  well_typed r -> makeEventsFromStruct r mt = Ok (events, static) -> nsconn_index (r_fields r) = Some idx ->
  Forall (fun f => f_exported f = true) (r_fields r) ->
  r_values r !! idx = Some (VNSConn None) ->
  connects_first l ->
  exists s outs, history r static body events l (rstate0 r) = Ok (s, outs).
Proof.
  intros r mt events static body l idx Hx Hwt Hm Hidx Hex Hnil Hcf.
  assert (Hd : dynamic r) by (apply dynamic_index; eauto).
  assert (Hdyn := events_dyn r mt events static Hx Hd Hm).
  destruct (l_C13_dynamic r mt events static Hx Hd Hm) as [_ Hin].
  assert (Hgen : forall l s, rinv s ->
    (forall c m rest, filter (fun p => p.1 = c) l = (c, m) :: rest -> m_event m = OnNamespaceConnect \/ is_Some (k_value s !! c)) ->
    exists s' outs, history r static body events l s = Ok (s', outs)).
  { clear l Hcf. induction l as [|[c m] l IH]; intros s Hi Hc; cbn; [eauto|].
    destruct (l_C14_new_controller r mt events static c idx Hwt Hm Hidx Hex Hnil) as (fs & Hfs & _).
    destruct (fire_total r static body events c m s Hdyn) as (s' & o & Ef & Hv & Hmono); [eauto|eauto|done| |].
    { apply (Hc c m (filter (fun p => p.1 = c) l)). rewrite filter_cons_True; done. }
    rewrite Ef. cbn.
    destruct (IH s') as (s'' & outs & Eh).
    { by destruct (fire_step r static body events Hdyn c m s s' o Hi Ef). }
    { intros d x rest Hd'. destruct (decide (d = c)) as [->|Hne]; [by right|].
      destruct (Hc d x rest) as [?|?]; [by rewrite filter_cons_False by (cbn; congruence)|by left|right; auto]. }
    rewrite Eh. cbn. eauto. }
  apply Hgen; [apply rinv0|]. intros c m rest Hf. left. by eapply Hcf.
Qed.

(*@ex
(** Two NSConns, the method OnChat stores the sender's body number in its controller and answers with an
    error made of what it finds there: the answers of NSConn 1 do not depend on NSConn 2. *)
Definition C14_body (i : nat) (fs : list gval) (c : nat) (m : message) : list gval * option gerr :=
  match fs with
  | VBasic n :: rest => (VBasic (n + c) :: rest, Some (EUser n ""))
  | _ => (fs, None)
  end.
Definition C14_history : list (nat * message) :=
  map (fun p => (fst p, set_event (snd p) no_message))
    [(1, OnNamespaceConnect); (2, OnNamespaceConnect); (1, "OnChat"%string); (2, "OnChat"%string); (2, "OnChat"%string); (1, "OnChat"%string)].
Definition C14_outs : option (list (nat * option (option gerr))) :=
  match makeEventsFromStruct C13_struct None with
  | Ok (events, static) =>
      match history C13_struct static C14_body events C14_history (rstate0 C13_struct) with
      | Ok (_, outs) => Some outs
      | Panic _ => None
      end
  | Panic _ => None
  end.
Example C14_example : connects_first C14_history /\
  C14_outs = Some [(1, Some None); (2, Some None); (1, Some (Some (EUser 7 ""))); (2, Some (Some (EUser 7 "")));
                   (2, Some (Some (EUser 9 ""))); (1, Some (Some (EUser 8 "")))].
Proof.
  split; [|vm_compute; reflexivity].
  intros c m rest. unfold C14_history. cbn [map fst snd]. rewrite !filter_cons, filter_nil. cbn [fst].
  repeat case_decide; try congruence; intros Heq; injection Heq; intros; subst; reflexivity.
Qed.
@*)

(*@prop C14 (violated without the provisos).  If any field of a dynamic struct that holds a basic value or an
    NSConn is unexported, even with its zero value, then every connect to the namespace panics. @*)
Lemma l_C14_unexported_field_refuted : forall r mt events static idx i f v,
  well_typed r -> makeEventsFromStruct r mt = Ok (events, static) -> nsconn_index (r_fields r) = Some idx ->
  r_fields r !! i = Some f -> f_exported f = false -> r_values r !! i = Some v ->
  ((exists n, v = VBasic n) \/ exists c, v = VNSConn c) ->
  forall body c m s, exists why,
    fire r static body events c (set_event OnNamespaceConnect m) s = Panic why.
Proof.
  intros r mt events static idx i f v Hwt Hm Hidx Hf Hfe Hv Hb body c m s.
  unfold makeEventsFromStruct in Hm. rewrite Hidx in Hm.
  destruct (nonzero 0 (r_fields r) (r_values r)) as [st|] eqn:En; [|done]. cbn in Hm. injection Hm as <- <-.
  assert (Hns := nonzero_spec _ _ _ _ Hwt En).
  assert (Hin : (i, v) ∈ st).
  { apply Hns. exists i, f. rewrite Hfe. repeat split; [done|done|]. by apply isZero_ro_basic. }
  unfold fire. change (m_event (set_event OnNamespaceConnect m)) with OnNamespaceConnect.
  rewrite lookup_insert. cbn [call]. rewrite Hidx.
  unfold new_controller. fold (fill_static r).
  assert (Hfill : forall l fs, (i, v) ∈ l -> exists why, fill_static r l fs = Panic why).
  { induction l as [|[j x] l IH]; intros fs Hl; [by apply elem_of_nil in Hl|]. cbn.
    apply elem_of_cons in Hl as [[= <- <-]|Hl].
    - unfold set_field. rewrite Hf, Hfe. cbn. eauto.
    - destruct (set_field r j x fs) as [fs'|why]; cbn; [by apply IH|eauto]. }
  destruct (set_field r idx _ _) as [fs|why]; cbn [rbind]; [|eauto].
  destruct (Hfill st fs Hin) as [why ->]. cbn. eauto.
Qed.

(*@ex
(** A controller with a private counter. *)
Definition C14_private : sreg := SReg [Field false false; Field true true] [VBasic 0; VNSConn None] [Method "OnChat" SigDynamic].
Example C14_unexported_example : well_typed C14_private /\
  exists events static, makeEventsFromStruct C14_private None = Ok (events, static) /\
  nsconn_index (r_fields C14_private) = Some 1 /\ r_values C14_private !! 0 = Some (VBasic 0).
Proof. split; [done|]. eexists _, _. split; [vm_compute; reflexivity|]. done. Qed.
@*)

(*@prop C14 (violated without the provisos).  If the registered value itself has an NSConn, every controller
    gets that NSConn instead of the connecting one. @*)
Lemma l_C14_registered_nsconn_refuted : forall r mt events static idx c p fs,
  well_typed r -> makeEventsFromStruct r mt = Ok (events, static) -> nsconn_index (r_fields r) = Some idx ->
  r_values r !! idx = Some (VNSConn (Some p)) ->
  new_controller r static idx c = Ok fs -> fs !! idx = Some (VNSConn (Some p)).
Proof.
  intros r mt events static idx c p fs Hwt Hm Hidx Hp Hn.
  unfold makeEventsFromStruct in Hm. rewrite Hidx in Hm.
  destruct (nonzero 0 (r_fields r) (r_values r)) as [st|] eqn:En; [|done]. cbn in Hm. injection Hm as <- <-.
  assert (Hns := nonzero_spec _ _ _ _ Hwt En). destruct (nonzero_nodup _ _ _ _ En) as [Hnd _].
  apply nsconn_index_spec in Hidx as (f & Hf & _ & _).
  assert (Hin : (idx, VNSConn (Some p)) ∈ st).
  { apply Hns. exists idx, f. repeat split; [done|done|]. cbn. by destruct (negb (f_exported f)). }
  unfold new_controller in Hn. fold (fill_static r) in Hn.
  destruct (set_field r idx _ _) as [fs0|] eqn:E0; [|done]. cbn in Hn.
  assert (Hlen : length fs0 = length (r_fields r)).
  { unfold set_field in E0. rewrite Hf in E0. destruct (f_exported f); [|done]. injection E0 as <-.
    rewrite insert_length, map_length. done. }
  assert (Hex : forall l fs1 fs2, fill_static r l fs1 = Ok fs2 -> forall i v, (i, v) ∈ l -> exists g, r_fields r !! i = Some g /\ f_exported g = true).
  { induction l as [|[j x] l IH]; intros fs1 fs2 H i v Hi; [by apply elem_of_nil in Hi|]. cbn in H.
    destruct (set_field r j x fs1) as [fs3|] eqn:E; [|done]. cbn in H.
    apply elem_of_cons in Hi as [[= -> ->]|Hi]; [|by eapply IH].
    unfold set_field in E. destruct (r_fields r !! j) as [g|] eqn:Eg; [|done]. exists g. split; [done|]. by destruct (f_exported g). }
  destruct (fill_static_ok r st Hnd) with (fs := fs0) as (fs' & H1 & H2 & H3 & H4).
  { intros i v Hi. by eapply Hex. }
  { intros i v Hi. apply Hns in Hi as (k & g & -> & Hg & _). rewrite Hlen. by apply lookup_lt_Some in Hg. }
  rewrite H1 in Hn. injection Hn as <-. by apply H3.
Qed.

(*@prop C13.  Which method runs, on which receiver: an event of a connected NSConn runs its method, or that of OnAnyEvent if it
    has none, on the controller of this NSConn, which keeps what the method left in its fields; an event without any method
    runs nothing. @*)
Lemma l_C13_runs : forall r mt events static body c m s,
  Forall (fun m => exported_name (mt_name m)) (r_methods r) -> dynamic r -> makeEventsFromStruct r mt = Ok (events, static) ->
  m_event m <> OnNamespaceConnect ->
  match handler_for r mt (m_event m) with
  | None => fire r static body events c m s = Ok (s, None)
  | Some i => forall fs, controller s c = Some fs ->
      exists s', fire r static body events c m s = Ok (s', Some (snd (body i fs c m))) /\ controller s' c = Some (fst (body i fs c m))
  end.
Proof.
  intros r mt events static body c m s Hx Hd Hm He. destruct (l_C13_dynamic r mt events static Hx Hd Hm) as [H1 _].
  assert (Hrun : forall i fs, controller s c = Some fs -> exists s',
    rbind (call r static body (CbDynamic i) c m s) (fun p => Ok (fst p, Some (snd p))) = Ok (s', Some (snd (body i fs c m))) /\ controller s' c = Some (fst (body i fs c m))).
  { intros i fs Hc. unfold controller in Hc. destruct (k_value s !! c) as [a|] eqn:Ea; [|done]. cbn in Hc. cbn. rewrite Ea. cbn. unfold run_method, fields_at. rewrite Hc. cbn.
    destruct (body i fs c m) as [fs' e]. cbn. eexists. split; [reflexivity|]. unfold controller. cbn. rewrite Ea. cbn. apply lookup_insert. }
  unfold handler_for, fire. rewrite (H1 _ He), (H1 OnAnyEvent) by done.
  destruct (method_for SigDynamic (r_methods r) mt (m_event m)) as [i|]; cbn [option_map]; [apply Hrun|].
  destruct (method_for SigDynamic (r_methods r) mt OnAnyEvent) as [i|]; cbn [option_map]; [apply Hrun|reflexivity].
Qed.
(*@prop C14.  Connecting: the NSConn gets the new controller, and the struct's own OnNamespaceConnect method, if it has one,
    runs on it and decides whether the connection is accepted. @*)
Lemma l_C14_connect : forall r mt events static body c m s idx fs,
  Forall (fun m => exported_name (mt_name m)) (r_methods r) -> makeEventsFromStruct r mt = Ok (events, static) ->
  nsconn_index (r_fields r) = Some idx -> new_controller r static idx c = Ok fs -> m_event m = OnNamespaceConnect ->
  exists s' err, fire r static body events c m s = Ok (s', Some err) /\
  match method_for SigDynamic (r_methods r) mt OnNamespaceConnect with
  | Some i => err = snd (body i fs c m) /\ controller s' c = Some (fst (body i fs c m))
  | None => err = None /\ controller s' c = Some fs
  end.
Proof.
  intros r mt events static body c m s idx fs Hx Hm Hi Hc He.
  destruct (l_C13_dynamic r mt events static Hx (proj2 (dynamic_index r) (ex_intro _ idx Hi)) Hm) as [_ H2].
  unfold fire. rewrite He, H2. unfold call. rewrite Hi, Hc. cbn [rbind].
  destruct (method_for SigDynamic (r_methods r) mt OnNamespaceConnect) as [i|]; cbn [option_map].
  - cbn. rewrite lookup_insert. cbn. unfold run_method, fields_at. cbn. rewrite lookup_insert. cbn. destruct (body i fs c m) as [fs' e]. cbn.
    eexists _, _. split; [reflexivity|]. split; [reflexivity|]. unfold controller. cbn. rewrite lookup_insert. cbn. apply lookup_insert.
  - cbn. eexists _, _. split; [reflexivity|]. split; [reflexivity|]. unfold controller. cbn. rewrite lookup_insert. cbn. apply lookup_insert.
Qed.
(*@ex
(** The struct of the example above: "Helper" has no method because the matcher hides it, and goes to the catch-all. *)
Example C13_runs_example :
  let mt := Some (fun s => if String.eqb s "OnAnyEvent" then Some OnAnyEvent else EventTrimPrefixMatcher "On" s) in
  Forall (fun m => exported_name (mt_name m)) (r_methods C13_struct) /\ well_typed C13_struct /\ Forall no_iszero (r_values C13_struct) /\
  (exists events static s, makeEventsFromStruct C13_struct mt = Ok (events, static) /\ new_controller C13_struct static 1 42 = Ok [VBasic 7; VNSConn (Some 42)] /\
     controller s 42 = Some [VBasic 7; VNSConn (Some 42)]) /\
  map (handler_for C13_struct mt) ["Chat"; "Helper"; "_OnRoomJoin"]%string = [Some 2; Some 4; Some 4].
Proof.
  cbv zeta. split; [repeat constructor; done|]. split; [done|]. split; [repeat constructor|]. split; [|vm_compute; reflexivity].
  eexists _, _, (RState {[1 := [VBasic 7; VNSConn (Some 42)]]} {[42 := 1]} 2). split; [vm_compute; reflexivity|]. split; vm_compute; reflexivity.
Qed.
@*)
