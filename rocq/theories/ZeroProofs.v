(** * ZeroProofs.v : fields whose types have an IsZero method (C79). *)
From stdpp Require Import gmap strings list.
From Verif Require Import Go Errors Message Reflect Spec_Handlers Spec_Reflect Spec_Zero ReflectProofs.

(*@file Prop_Zero.v
From stdpp Require Import gmap strings list.
From Verif Require Import Go Errors Message Reflect Spec_Handlers Spec_Reflect Spec_Zero ZeroProofs. @*)

Lemma proper_zero : forall v ro, proper ro v -> exists z, isZero ro v = Ok z.
Proof.
  fix IH 1. intros [c|n|n|l|m l] ro Hv.
  - destruct ro; cbn; eauto.
  - cbn. eauto.
  - destruct ro; cbn; eauto.
  - cbn [proper isZero] in *. revert l Hv. refine (fix go l Hv {struct l} := _). destruct l as [|x l]; cbn; [eauto|].
    destruct Hv as [H1 H2]. destruct (IH x ro H1) as [z E]. rewrite E. cbn. destruct z; [|eauto]. exact (go l H2).
  - cbn [proper isZero] in *. destruct Hv as [Hm Hv].
    assert (H : exists z, ((fix go (l : list (bool * gval)) : result bool :=
                match l with
                | [] => Ok true
                | (exported, x) :: l' =>
                    rbind (isZero (ro || negb exported) x) (fun z => if z then go l' else Ok false)
                end) l) = Ok z).
    { clear Hm. revert l Hv. refine (fix go l Hv {struct l} := _). destruct l as [|[b x] l]; cbn; [eauto|].
      destruct Hv as [H1 H2]. destruct (IH x (ro || negb b) H1) as [z E]. rewrite E. cbn. destruct z; [|eauto]. exact (go l H2). }
    destruct H as [z E]. rewrite E. cbn [rbind]. destruct m as [|args outs answer]; [eauto|].
    destruct args as [|args]; [|cbn; eauto]. destruct Hm as [-> ->]. cbn. eauto.
Qed.

(*@prop C79, as far as it holds.  Registering a struct does not panic, whatever its fields, methods and values, if every IsZero method without
    arguments among the types of its fields has one result, a bool, and does not occur in an unexported field. @*)
Lemma l_C79_registers_partial : forall r mt,
  (forall i f v, r_fields r !! i = Some f -> r_values r !! i = Some v -> proper (negb (f_exported f)) v) ->
  exists events static, makeEventsFromStruct r mt = Ok (events, static).
Proof.
  intros r mt H.
  assert (Hn : forall fs vs i, (forall i f v, fs !! i = Some f -> vs !! i = Some v -> proper (negb (f_exported f)) v) -> exists static, nonzero i fs vs = Ok static).
  { induction fs as [|f fs IH]; intros vs i Hp; [cbn; eauto|]. destruct vs as [|v vs]; cbn; [eauto|].
    destruct (proper_zero v (negb (f_exported f)) (Hp 0 f v eq_refl eq_refl)) as [z ->]. cbn.
    destruct (IH vs (S i)) as [st ->]; [|cbn; eauto]. intros j g x H1 H2. exact (Hp (S j) g x H1 H2). }
  destruct (Hn (r_fields r) (r_values r) 0 H) as [st Hst].
  unfold makeEventsFromStruct. destruct (nsconn_index (r_fields r)); [rewrite Hst; cbn|]; eauto.
Qed.

Lemma field_panics r mt i f v : dynamic r -> r_fields r !! i = Some f -> r_values r !! i = Some v ->
  (exists why, isZero (negb (f_exported f)) v = Panic why) -> exists why, makeEventsFromStruct r mt = Panic why.
Proof.
  intros Hd Hf Hv [why Hz]. apply dynamic_index in Hd as [idx Hi]. unfold makeEventsFromStruct. rewrite Hi.
  assert (Hn : forall fs vs k j, fs !! j = Some f -> vs !! j = Some v -> exists why, nonzero k fs vs = Panic why).
  { induction fs as [|g fs IH]; intros vs k j H1 H2; [discriminate|]. destruct vs as [|x vs]; [discriminate|]. cbn. destruct j as [|j]; cbn in H1, H2.
    - injection H1 as ->. injection H2 as ->. rewrite Hz. cbn. eauto.
    - destruct (isZero (negb (f_exported g)) x); cbn; [|eauto]. destruct (IH vs (S k) j H1 H2) as [w ->]. cbn. eauto. }
  destruct (Hn _ _ 0 i Hf Hv) as [w ->]. cbn. eauto.
Qed.
(*@prop C79 is violated.  If a struct with an NSConn field has an unexported field whose type has a method IsZero() bool, whatever the field
    holds, then registering the struct panics. @*)
Lemma l_C79_hidden_refuted : forall r mt i f answer l,
  dynamic r -> r_fields r !! i = Some f -> f_exported f = false -> r_values r !! i = Some (VStruct (IsZero 0 [true] answer) l) ->
  exists why, makeEventsFromStruct r mt = Panic why.
Proof.
  intros r mt i f answer l Hd Hf He Hv. apply (field_panics r mt i f _ Hd Hf Hv). rewrite He. cbn [negb isZero].
  match goal with |- exists w, rbind ?x _ = _ => destruct x as [z|w]; cbn; eauto end.
Qed.
(*@prop C79 is violated too if the type of a field has a method IsZero without arguments that has no result, or one that is not a bool: the check
    that should skip such a method fails itself, or lets it pass. @*)
Lemma l_C79_results_refuted : forall r mt i f outs answer l,
  dynamic r -> r_fields r !! i = Some f -> r_values r !! i = Some (VStruct (IsZero 0 outs answer) l) -> outs = [] \/ outs = [false] ->
  exists why, makeEventsFromStruct r mt = Panic why.
Proof.
  intros r mt i f outs answer l Hd Hf Hv Ho. apply (field_panics r mt i f _ Hd Hf Hv). cbn [isZero].
  match goal with |- exists w, rbind ?x _ = _ => destruct x as [z|w]; cbn [rbind]; [|eauto] end. destruct Ho as [-> | ->]; cbn; eauto.
Qed.

(** struct { *NSConn; T time.Time }, with T exported or not *)
Definition timed (exported : bool) (v : gval) : sreg := SReg [Field true true; Field exported false] [VNSConn None; v] [Method "OnChat" SigDynamic].
(*@exl C79.  A struct with an exported field of type time.Time can be registered, with an unexported one it cannot; nor with a field whose method
    IsZero returns a number. @*)
Lemma x_C79_example :
  (forall i f v, r_fields (timed true (a_time false 5 6 0)) !! i = Some f -> r_values (timed true (a_time false 5 6 0)) !! i = Some v -> proper (negb (f_exported f)) v) /\
  (exists events, makeEventsFromStruct (timed true (a_time false 5 6 0)) None = Ok (events, [(1, a_time false 5 6 0)])) /\
  dynamic (timed false (a_time true 0 0 0)) /\ (exists why, makeEventsFromStruct (timed false (a_time true 0 0 0)) None = Panic why) /\
  (exists why, makeEventsFromStruct (timed true (VStruct (IsZero 0 [false] true) [])) None = Panic why).
Proof.
  split; [|split; [|split; [|split]]].
  - intros i f v Hf Hv. destruct i as [|[|i]]; cbn in Hf, Hv; try discriminate; injection Hf as <-; injection Hv as <-; cbn; auto 8.
  - eexists. reflexivity.
  - left. reflexivity.
  - eexists. reflexivity.
  - eexists. reflexivity.
Qed.
