(** * Prop_Zero.v : property theorems (generated by tools/genprops.py from ZeroProofs.v).
    Every proof is the lemma of the same name in ZeroProofs.v. *)
From stdpp Require Import gmap strings list.
From Verif Require Import Go Errors Message Reflect Spec_Handlers Spec_Reflect Spec_Zero ZeroProofs.
From Verif Require Import ZeroProofs.

(** C79, as far as it holds.  Registering a struct does not panic, whatever its fields, methods and values, if every IsZero method without
    arguments among the types of its fields has one result, a bool, and does not occur in an unexported field. *)
Theorem C79_registers_partial : forall r mt,
  (forall i f v, r_fields r !! i = Some f -> r_values r !! i = Some v -> proper (negb (f_exported f)) v) ->
  exists events static, makeEventsFromStruct r mt = Ok (events, static).
Proof. exact l_C79_registers_partial. Qed.
Print Assumptions C79_registers_partial.

(** C79 is violated.  If a struct with an NSConn field has an unexported field whose type has a method IsZero() bool, whatever the field
    holds, then registering the struct panics. *)
Theorem C79_hidden_refuted : forall r mt i f answer l,
  dynamic r -> r_fields r !! i = Some f -> f_exported f = false -> r_values r !! i = Some (VStruct (IsZero 0 [true] answer) l) ->
  exists why, makeEventsFromStruct r mt = Panic why.
Proof. exact l_C79_hidden_refuted. Qed.
Print Assumptions C79_hidden_refuted.

(** C79 is violated too if the type of a field has a method IsZero without arguments that has no result, or one that is not a bool: the check
    that should skip such a method fails itself, or lets it pass. *)
Theorem C79_results_refuted : forall r mt i f outs answer l,
  dynamic r -> r_fields r !! i = Some f -> r_values r !! i = Some (VStruct (IsZero 0 outs answer) l) -> outs = [] \/ outs = [false] ->
  exists why, makeEventsFromStruct r mt = Panic why.
Proof. exact l_C79_results_refuted. Qed.
Print Assumptions C79_results_refuted.

(** C79.  A struct with an exported field of type time.Time can be registered, with an unexported one it cannot; nor with a field whose method
    IsZero returns a number. *)
Example C79_example :
  (forall i f v, r_fields (timed true (a_time false 5 6 0)) !! i = Some f -> r_values (timed true (a_time false 5 6 0)) !! i = Some v -> proper (negb (f_exported f)) v) /\
  (exists events, makeEventsFromStruct (timed true (a_time false 5 6 0)) None = Ok (events, [(1, a_time false 5 6 0)])) /\
  dynamic (timed false (a_time true 0 0 0)) /\ (exists why, makeEventsFromStruct (timed false (a_time true 0 0 0)) None = Panic why) /\
  (exists why, makeEventsFromStruct (timed true (VStruct (IsZero 0 [false] true) [])) None = Panic why).
Proof. exact x_C79_example. Qed.
