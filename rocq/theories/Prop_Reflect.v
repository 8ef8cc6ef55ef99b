(** * Prop_Reflect.v : property theorems (generated by tools/genprops.py from ReflectProofs.v).
    Every proof is the lemma of the same name in ReflectProofs.v. *)
From Coq Require Import Ascii.
From stdpp Require Import gmap strings list.
From Verif Require Import Go Errors Message Reflect Spec_Handlers Spec_Reflect.
From Verif Require Import ReflectProofs.

(** C13.  The events of a struct without NSConn field: every event is handled by the last method
    of the static type that is registered for it, and by nothing if there is none. *)
Theorem C13_static : forall r mt, Forall (fun m => exported_name (mt_name m)) (r_methods r) -> ~ dynamic r ->
  exists events, makeEventsFromStruct r mt = Ok (events, []) /\
  forall e, events !! e = option_map CbStatic (method_for SigStatic (r_methods r) mt e).
Proof. exact l_C13_static. Qed.
Print Assumptions C13_static.

(** C13.  The events of a struct with NSConn field: the same with methods of the dynamic type, except
    that OnNamespaceConnect is always there and first makes the controller. *)
Theorem C13_dynamic : forall r mt events static, Forall (fun m => exported_name (mt_name m)) (r_methods r) -> dynamic r ->
  makeEventsFromStruct r mt = Ok (events, static) ->
  (forall e, e <> OnNamespaceConnect -> events !! e = option_map CbDynamic (method_for SigDynamic (r_methods r) mt e)) /\
  events !! OnNamespaceConnect =
    Some (CbConnect (option_map CbDynamic (method_for SigDynamic (r_methods r) mt OnNamespaceConnect))).
Proof. exact l_C13_dynamic. Qed.
Print Assumptions C13_dynamic.

(** A controller with a system event method and a matcher that drops all names without prefix "On". *)
Definition C13_struct : sreg :=
  SReg [Field true false; Field true true] [VBasic 7; VNSConn None]
       [Method "Namespace" SigOther; Method "OnNamespaceConnected" SigDynamic; Method "OnChat" SigDynamic;
        Method "Helper" SigDynamic; Method "OnAnyEvent" SigDynamic].
Example C13_example :
  dynamic C13_struct /\ Forall (fun m => exported_name (mt_name m)) (r_methods C13_struct) /\
  (let mt := Some (EventTrimPrefixMatcher "On") in
   map (fun e => method_for SigDynamic (r_methods C13_struct) mt e)
       ["_OnNamespaceConnected"; "Chat"; "OnChat"; "Helper"; "_OnAnyEvent"; "AnyEvent"]
   = [Some 1; Some 2; None; None; None; Some 4]).
Proof. split; [right; left; done|]. split; [repeat constructor; done|]. vm_compute. reflexivity. Qed.

(** C13.  The two built-in matchers. *)
Theorem C13_matchers : forall prefix name s,
  (EventTrimPrefixMatcher prefix name = Some s <-> name = (prefix ++ s)%string) /\
  (EventPrefixMatcher prefix name = Some s <-> s = name /\ exists x, name = (prefix ++ x)%string).
Proof. exact l_C13_matchers. Qed.
Print Assumptions C13_matchers.

(** C13.  Without a matcher, or with EventPrefixMatcher, no struct ever handles the special events
    OnAnyEvent and OnNativeMessage. *)
Theorem C13_special_events_not_mapped : forall r mt events static e,
  Forall (fun m => exported_name (mt_name m)) (r_methods r) ->
  makeEventsFromStruct r mt = Ok (events, static) ->
  mt = None \/ (exists p, mt = Some (EventPrefixMatcher p)) ->
  e = OnAnyEvent \/ e = OnNativeMessage -> events !! e = None.
Proof. exact l_C13_special_events_not_mapped. Qed.
Print Assumptions C13_special_events_not_mapped.

(** C14.  A new controller: its NSConn field is the NSConn that connects, every other field is a copy of
    the registered value or, if that is zero, the zero value.  Provisos: all fields are exported and
    the registered value has no NSConn yet. *)
Theorem C14_new_controller : forall r mt events static c idx,
  well_typed r -> makeEventsFromStruct r mt = Ok (events, static) -> nsconn_index (r_fields r) = Some idx ->
  Forall (fun f => f_exported f = true) (r_fields r) ->
  r_values r !! idx = Some (VNSConn None) ->
  exists fs, new_controller r static idx c = Ok fs /\ fs !! idx = Some (VNSConn (Some c)) /\
    forall i v, i <> idx -> r_values r !! i = Some v -> fs !! i = Some (copied v).
Proof. exact l_C14_new_controller. Qed.
Print Assumptions C14_new_controller.

Example C14_new_controller_example :
  well_typed C13_struct /\ (exists events, makeEventsFromStruct C13_struct None = Ok (events, [(0, VBasic 7)])) /\
  nsconn_index (r_fields C13_struct) = Some 1 /\
  new_controller C13_struct [(0, VBasic 7)] 1 42 = Ok [VBasic 7; VNSConn (Some 42)].
Proof. split; [done|]. split; [eexists; vm_compute; reflexivity|]. vm_compute. done. Qed.

(** C14.  Unless a type with an IsZero method is involved: registering the struct does not panic, and every other field of
    a new controller has exactly the registered value. *)
Theorem C14_same_fields : forall r mt,
  well_typed r -> Forall no_iszero (r_values r) ->
  exists events static, makeEventsFromStruct r mt = Ok (events, static) /\
  forall c idx, nsconn_index (r_fields r) = Some idx -> Forall (fun f => f_exported f = true) (r_fields r) ->
  r_values r !! idx = Some (VNSConn None) ->
  exists fs, new_controller r static idx c = Ok fs /\ fs = <[idx := VNSConn (Some c)]> (r_values r).
Proof. exact l_C14_same_fields. Qed.
Print Assumptions C14_same_fields.

(** C14.  Isolation: whatever the methods do with their receiver, in every history the results of the
    callbacks of an NSConn and its controller are those of the history in which only this NSConn
    takes part. *)
Theorem C14_isolation : forall r mt events static body l c s outs,
  Forall (fun m => exported_name (mt_name m)) (r_methods r) -> dynamic r ->
  makeEventsFromStruct r mt = Ok (events, static) ->
  history r static body events l (rstate0 r) = Ok (s, outs) ->
  exists s', history r static body events (only c l) (rstate0 r) = Ok (s', only c outs) /\
             controller s c = controller s' c.
Proof. exact l_C14_isolation. Qed.
Print Assumptions C14_isolation.

(** C14.  No callback of a struct handler panics in a history in which every NSConn starts with
    OnNamespaceConnect (provisos as above, and methods that return). *)
Theorem C14_no_panic : forall r mt events static body l idx,
  Forall (fun m => exported_name (mt_name m)) (r_methods r) ->
  well_typed r -> makeEventsFromStruct r mt = Ok (events, static) -> nsconn_index (r_fields r) = Some idx ->
  Forall (fun f => f_exported f = true) (r_fields r) ->
  r_values r !! idx = Some (VNSConn None) ->
  connects_first l ->
  exists s outs, history r static body events l (rstate0 r) = Ok (s, outs).
Proof. exact l_C14_no_panic. Qed.
Print Assumptions C14_no_panic.

(** Two NSConns, the method OnChat stores the sender's body number in its controller and answers with an
    error made of what it finds there: the answers of NSConn 1 do not depend on NSConn 2. *)
Definition C14_body (i : nat) (fs : list gval) (c : nat) (m : message) : list gval * option gerr :=
  match fs with
  | VBasic n :: rest => (VBasic (n + c) :: rest, Some (EUser n ""))
  | _ => (fs, None)
  end.
Definition C14_history : list (nat * message) :=
  map (fun p => (fst p, set_event (snd p) no_message))
    [(1, OnNamespaceConnect); (2, OnNamespaceConnect); (1, "OnChat"%string); (2, "OnChat"%string); (2, "OnChat"%string); (1, "OnChat"%string)].
Definition C14_outs : option (list (nat * option (option gerr))) :=
  match makeEventsFromStruct C13_struct None with
  | Ok (events, static) =>
      match history C13_struct static C14_body events C14_history (rstate0 C13_struct) with
      | Ok (_, outs) => Some outs
      | Panic _ => None
      end
  | Panic _ => None
  end.
Example C14_example : connects_first C14_history /\
  C14_outs = Some [(1, Some None); (2, Some None); (1, Some (Some (EUser 7 ""))); (2, Some (Some (EUser 7 "")));
                   (2, Some (Some (EUser 9 ""))); (1, Some (Some (EUser 8 "")))].
Proof.
  split; [|vm_compute; reflexivity].
  intros c m rest. unfold C14_history. cbn [map fst snd]. rewrite !filter_cons, filter_nil. cbn [fst].
  repeat case_decide; try congruence; intros Heq; injection Heq; intros; subst; reflexivity.
Qed.

(** C14 (violated without the provisos).  If any field of a dynamic struct that holds a basic value or an
    NSConn is unexported, even with its zero value, then every connect to the namespace panics. *)
Theorem C14_unexported_field_refuted : forall r mt events static idx i f v,
  well_typed r -> makeEventsFromStruct r mt = Ok (events, static) -> nsconn_index (r_fields r) = Some idx ->
  r_fields r !! i = Some f -> f_exported f = false -> r_values r !! i = Some v ->
  ((exists n, v = VBasic n) \/ exists c, v = VNSConn c) ->
  forall body c m s, exists why,
    fire r static body events c (set_event OnNamespaceConnect m) s = Panic why.
Proof. exact l_C14_unexported_field_refuted. Qed.
Print Assumptions C14_unexported_field_refuted.

(** A controller with a private counter. *)
Definition C14_private : sreg := SReg [Field false false; Field true true] [VBasic 0; VNSConn None] [Method "OnChat" SigDynamic].
Example C14_unexported_example : well_typed C14_private /\
  exists events static, makeEventsFromStruct C14_private None = Ok (events, static) /\
  nsconn_index (r_fields C14_private) = Some 1 /\ r_values C14_private !! 0 = Some (VBasic 0).
Proof. split; [done|]. eexists _, _. split; [vm_compute; reflexivity|]. done. Qed.

(** C14 (violated without the provisos).  If the registered value itself has an NSConn, every controller
    gets that NSConn instead of the connecting one. *)
Theorem C14_registered_nsconn_refuted : forall r mt events static idx c p fs,
  well_typed r -> makeEventsFromStruct r mt = Ok (events, static) -> nsconn_index (r_fields r) = Some idx ->
  r_values r !! idx = Some (VNSConn (Some p)) ->
  new_controller r static idx c = Ok fs -> fs !! idx = Some (VNSConn (Some p)).
Proof. exact l_C14_registered_nsconn_refuted. Qed.
Print Assumptions C14_registered_nsconn_refuted.

(** C13.  Which method runs, on which receiver: an event of a connected NSConn runs its method, or that of OnAnyEvent if it
    has none, on the controller of this NSConn, which keeps what the method left in its fields; an event without any method
    runs nothing. *)
Theorem C13_runs : forall r mt events static body c m s,
  Forall (fun m => exported_name (mt_name m)) (r_methods r) -> dynamic r -> makeEventsFromStruct r mt = Ok (events, static) ->
  m_event m <> OnNamespaceConnect ->
  match handler_for r mt (m_event m) with
  | None => fire r static body events c m s = Ok (s, None)
  | Some i => forall fs, controller s c = Some fs ->
      exists s', fire r static body events c m s = Ok (s', Some (snd (body i fs c m))) /\ controller s' c = Some (fst (body i fs c m))
  end.
Proof. exact l_C13_runs. Qed.
Print Assumptions C13_runs.

(** C14.  Connecting: the NSConn gets the new controller, and the struct's own OnNamespaceConnect method, if it has one,
    runs on it and decides whether the connection is accepted. *)
Theorem C14_connect : forall r mt events static body c m s idx fs,
  Forall (fun m => exported_name (mt_name m)) (r_methods r) -> makeEventsFromStruct r mt = Ok (events, static) ->
  nsconn_index (r_fields r) = Some idx -> new_controller r static idx c = Ok fs -> m_event m = OnNamespaceConnect ->
  exists s' err, fire r static body events c m s = Ok (s', Some err) /\
  match method_for SigDynamic (r_methods r) mt OnNamespaceConnect with
  | Some i => err = snd (body i fs c m) /\ controller s' c = Some (fst (body i fs c m))
  | None => err = None /\ controller s' c = Some fs
  end.
Proof. exact l_C14_connect. Qed.
Print Assumptions C14_connect.

(** The struct of the example above: "Helper" has no method because the matcher hides it, and goes to the catch-all. *)
Example C13_runs_example :
  let mt := Some (fun s => if String.eqb s "OnAnyEvent" then Some OnAnyEvent else EventTrimPrefixMatcher "On" s) in
  Forall (fun m => exported_name (mt_name m)) (r_methods C13_struct) /\ well_typed C13_struct /\ Forall no_iszero (r_values C13_struct) /\
  (exists events static s, makeEventsFromStruct C13_struct mt = Ok (events, static) /\ new_controller C13_struct static 1 42 = Ok [VBasic 7; VNSConn (Some 42)] /\
     controller s 42 = Some [VBasic 7; VNSConn (Some 42)]) /\
  map (handler_for C13_struct mt) ["Chat"; "Helper"; "_OnRoomJoin"]%string = [Some 2; Some 4; Some 4].
Proof.
  cbv zeta. split; [repeat constructor; done|]. split; [done|]. split; [repeat constructor|]. split; [|vm_compute; reflexivity].
  eexists _, _, (RState {[1 := [VBasic 7; VNSConn (Some 42)]]} {[42 := 1]} 2). split; [vm_compute; reflexivity|]. split; vm_compute; reflexivity.
Qed.
