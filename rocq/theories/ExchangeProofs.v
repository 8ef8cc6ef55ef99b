(** * ExchangeProofs.v *)
From Coq Require Import String Ascii Lia.
From stdpp Require Import gmap strings list.
From Verif Require Import Go Errors Message Spec_Wire CodecProofs Exchange Spec_Exchange.

(*@file Prop_Exchange.v
From Coq Require Import String Ascii.
From stdpp Require Import gmap strings list.
From Verif Require Import Go Errors Message Spec_Wire Exchange Spec_Exchange. @*)

(* the exchange that stands for a non empty list *)
Fixpoint wrap_all (x : exch) (l : list leaf) : exch :=
  match l with [] => x | y :: l' => wrap_all (XWrap x (XLeaf y)) l' end.

Lemma register_go l : forall s,
  fold_left (fun s x => fst (UseStackExchange s (Some x))) l s =
  match s, filter accepted l with
  | Some x, l' => Some (wrap_all x l')
  | None, [] => None
  | None, y :: l' => Some (wrap_all (XLeaf y) l')
  end.
Proof.
  induction l as [|y l IH]; intros s; cbn [fold_left].
  - by destruct s.
  - rewrite IH, filter_cons. cbn. destruct (decide (accepted y)) as [Hy|Hy].
    + destruct Hy as [-> | ->]; by destruct s.
    + destruct (x_init y) as [[e|]|] eqn:E; [by destruct s| |]; exfalso; apply Hy; unfold accepted; rewrite E; auto.
Qed.

Lemma register_spec l : register l =
  match filter accepted l with [] => None | y :: l' => Some (wrap_all (XLeaf y) l') end.
Proof. unfold register. rewrite register_go. done. Qed.

Lemma publish_all msgs l : forall x,
  exch_Publish (wrap_all x l) msgs =
  (fst (exch_Publish x msgs) && forallb (fun y => x_publish y msgs) l, snd (exch_Publish x msgs) ++ reaches_all l (CPublish msgs)).
Proof.
  induction l as [|y l IH]; intros x; cbn [wrap_all].
  - cbn. rewrite andb_true_r, app_nil_r. by destruct (exch_Publish x msgs).
  - rewrite IH. cbn. destruct (exch_Publish x msgs) as [ok t]. cbn. rewrite <- andb_assoc, <- app_assoc. done.
Qed.
Lemma disconnect_all c l : forall x, exch_OnDisconnect (wrap_all x l) c = exch_OnDisconnect x c ++ reaches_all l (COnDisconnect c).
Proof. induction l as [|y l IH]; intros x; cbn [wrap_all]; [by rewrite app_nil_r|]. rewrite IH. cbn. by rewrite <- app_assoc. Qed.
Lemma subscribe_all c ns l : forall x, exch_Subscribe (wrap_all x l) c ns = exch_Subscribe x c ns ++ reaches_all l (CSubscribe c ns).
Proof. induction l as [|y l IH]; intros x; cbn [wrap_all]; [by rewrite app_nil_r|]. rewrite IH. cbn. by rewrite <- app_assoc. Qed.
Lemma unsubscribe_all c ns l : forall x, exch_Unsubscribe (wrap_all x l) c ns = exch_Unsubscribe x c ns ++ reaches_all l (CUnsubscribe c ns).
Proof. induction l as [|y l IH]; intros x; cbn [wrap_all]; [by rewrite app_nil_r|]. rewrite IH. cbn. by rewrite <- app_assoc. Qed.

(*@prop C43.  However many exchanges were registered, Publish, Subscribe, Unsubscribe and OnDisconnect reach every
    accepted one, each once and in the order of registration, and Publish reports success exactly if
    all of them did. @*)
Lemma l_C43_every_exchange : forall l x, register l = Some x ->
  (forall msgs, exch_Publish x msgs =
     (forallb (fun y => x_publish y msgs) (filter accepted l), reaches_all (filter accepted l) (CPublish msgs))) /\
  (forall c ns, exch_Subscribe x c ns = reaches_all (filter accepted l) (CSubscribe c ns)) /\
  (forall c ns, exch_Unsubscribe x c ns = reaches_all (filter accepted l) (CUnsubscribe c ns)) /\
  (forall c, exch_OnDisconnect x c = reaches_all (filter accepted l) (COnDisconnect c)).
Proof.
  intros l x. rewrite register_spec. destruct (filter accepted l) as [|y l']; [done|]. intros [= <-].
  split; [|split; [|split]]; intros.
  - by rewrite publish_all.
  - by rewrite subscribe_all.
  - by rewrite unsubscribe_all.
  - by rewrite disconnect_all.
Qed.

Lemma onconnect_wrap c l : forall x,
  exch_OnConnect (wrap_all x l) c =
  match exch_OnConnect x c with
  | (Some e, t) => (Some e, t)
  | (None, t) =>
      match list_find (fun y => is_Some (x_onConnect y c)) l with
      | Some (i, y) => (x_onConnect y c, t ++ reaches_all (take (S i) l) (COnConnect c))
      | None => (None, t ++ reaches_all l (COnConnect c))
      end
  end.
Proof.
  induction l as [|y l IH]; intros x; cbn [wrap_all list_find].
  - destruct (exch_OnConnect x c) as [[|] t]; cbn; by rewrite ?app_nil_r.
  - rewrite IH. cbn. destruct (exch_OnConnect x c) as [[e|] t]; [done|].
    destruct (x_onConnect y c) as [e|] eqn:Ey.
    + rewrite decide_True by eauto. by rewrite Ey.
    + rewrite decide_False by (intros [? ?]; done).
      destruct (list_find _ l) as [[i z]|]; cbn; by rewrite <- app_assoc.
Qed.

(*@prop C43.  OnConnect asks the exchanges in the order of registration and stops at the first that fails; its
    error is the result. @*)
Lemma l_C43_connect_stops : forall l x c, register l = Some x ->
  (forall pre y post e, filter accepted l = pre ++ y :: post -> (forall z, z ∈ pre -> x_onConnect z c = None) ->
     x_onConnect y c = Some e -> exch_OnConnect x c = (Some e, reaches_all (pre ++ [y]) (COnConnect c))) /\
  ((forall z, z ∈ filter accepted l -> x_onConnect z c = None) ->
     exch_OnConnect x c = (None, reaches_all (filter accepted l) (COnConnect c))).
Proof.
  intros l x c. rewrite register_spec. destruct (filter accepted l) as [|y0 l'] eqn:Ef; [done|]. intros [= <-].
  rewrite onconnect_wrap. cbn [exch_OnConnect]. split.
  - intros pre y post e Hl Hpre Hy. destruct pre as [|z pre].
    + injection Hl as -> ->. by rewrite Hy.
    + injection Hl as -> ->. rewrite (Hpre z) by set_solver.
      assert (Hf : list_find (fun y => is_Some (x_onConnect y c)) (pre ++ y :: post) = Some (length pre, y)).
      { apply list_find_Some. split; [by rewrite lookup_app_r, Nat.sub_diag by lia|]. split; [eauto|].
        intros j z' Hj Hlt [e' He']. rewrite lookup_app_l in Hj by done.
        rewrite Hpre in He'; [done|]. apply elem_of_cons. right. by eapply elem_of_list_lookup_2. }
      rewrite Hf, Hy. cbn. f_equal. f_equal. f_equal.
      rewrite (firstn_app (S (length pre))). replace (S (length pre) - length pre) with 1 by lia.
      rewrite firstn_all2 by lia. done.
  - intros Hall. rewrite (Hall y0) by set_solver.
    assert (Hf : list_find (fun y => is_Some (x_onConnect y c)) l' = None).
    { apply list_find_None, Forall_forall. intros z Hz [e He]. rewrite Hall in He; [done|]. by apply elem_of_cons; right. }
    rewrite Hf. done.
Qed.

(*@prop C43.  Ask returns what the first exchange returned if that was no error, and asks nobody else. @*)
Lemma l_C43_ask_first : forall l x y rest m token r, register l = Some x -> filter accepted l = y :: rest ->
  x_ask y m token = (r, None) -> exch_Ask x m token = (r, None, [(x_id y, CAsk m token)]).
Proof.
  intros l x y rest m token r. rewrite register_spec. intros Hr Hl Hy. rewrite Hl in Hr. injection Hr as <-.
  assert (Hgen : forall l x, exch_Ask x m token = (r, None, [(x_id y, CAsk m token)]) ->
    exch_Ask (wrap_all x l) m token = (r, None, [(x_id y, CAsk m token)])).
  { clear. induction l as [|z l IH]; intros x Hx; [done|]. cbn [wrap_all]. apply IH. cbn. by rewrite Hx. }
  apply Hgen. cbn. by rewrite Hy.
Qed.

(*@prop C43 (violated).  If the first exchange fails, the second one is not asked the question: it is asked with
    whatever message the first one returned beside its error. @*)
Lemma l_C43_ask_fallback_refuted : forall y z m token r e,
  accepted y -> accepted z -> x_ask y m token = (r, Some e) ->
  exists x, register [y; z] = Some x /\
  exch_Ask x m token = (x_ask z r token, [(x_id y, CAsk m token); (x_id z, CAsk r token)]).
Proof.
  intros y z m token r e Hy Hz Ha. rewrite register_spec, !filter_cons, !decide_True by done. cbn [filter].
  eexists. split; [reflexivity|]. cbn. rewrite Ha. done.
Qed.

(*@prop C43.  NotifyAsk tries the exchanges in order, each with the same message, until one succeeds. @*)
Lemma l_C43_notify : forall l x m token pre y post, register l = Some x ->
  filter accepted l = pre ++ y :: post -> (forall z, z ∈ pre -> x_notify z m token <> None) ->
  x_notify y m token = None -> exch_NotifyAsk x m token = (None, reaches_all (pre ++ [y]) (CNotifyAsk m token)).
Proof.
  intros l x m token pre y post. rewrite register_spec. intros Hr Hl Hpre Hy. rewrite Hl in Hr.
  assert (Hstay : forall l x t, exch_NotifyAsk x m token = (None, t) -> exch_NotifyAsk (wrap_all x l) m token = (None, t)).
  { clear. induction l as [|z l IH]; intros x t Hx; [done|]. cbn [wrap_all]. apply IH. cbn. by rewrite Hx. }
  assert (Hgo : forall pre x e t, exch_NotifyAsk x m token = (Some e, t) -> (forall z, z ∈ pre -> x_notify z m token <> None) ->
    exch_NotifyAsk (wrap_all x (pre ++ y :: post)) m token = (None, t ++ reaches_all (pre ++ [y]) (CNotifyAsk m token))).
  { clear - Hy Hstay. induction pre as [|z pre IH]; intros x e t Hx Hpre; cbn [wrap_all app].
    - apply Hstay. cbn. rewrite Hx, Hy. done.
    - assert (Hz := Hpre z ltac:(set_solver)). destruct (x_notify z m token) as [e'|] eqn:Ez; [|done].
      rewrite (IH _ e' (t ++ [(x_id z, CNotifyAsk m token)])).
      + cbn. by rewrite <- app_assoc.
      + cbn. by rewrite Hx, Ez.
      + intros z' Hz'. apply Hpre. set_solver. }
  destruct pre as [|z pre]; cbn [app] in Hr; injection Hr as <-.
  - apply Hstay. cbn. by rewrite Hy.
  - assert (Hz := Hpre z ltac:(set_solver)). destruct (x_notify z m token) as [e'|] eqn:Ez; [|done].
    rewrite (Hgo pre _ e' [(x_id z, CNotifyAsk m token)]); [done|cbn; by rewrite Ez|].
    intros z' Hz'. apply Hpre. set_solver.
Qed.

(*@ex
Definition C43_leaf (i : nat) (init : option (option gerr)) (ok : bool) : leaf :=
  Leaf i init (fun _ => if ok then None else Some EWrite) (fun _ => ok)
    (fun m _ => if ok then (set_body "pong" m, None) else (no_message, Some EWrite)) (fun _ _ => if ok then None else Some EWrite).
Example C43_example : exists x,
  register [C43_leaf 1 None false; C43_leaf 2 (Some (Some EWrite)) true; C43_leaf 3 (Some None) true] = Some x /\
  exch_Publish x [no_message] = (false, [(1, CPublish [no_message]); (3, CPublish [no_message])]) /\
  exch_OnConnect x 7 = (Some EWrite, [(1, COnConnect 7)]) /\
  exch_Ask x (set_event "ping" no_message) "5" =
    (set_body "pong" no_message, None, [(1, CAsk (set_event "ping" no_message) "5"); (3, CAsk no_message "5")]).
Proof. eexists. repeat split. Qed.
@*)
