(** * Reflect.v : struct handlers (reflect.go, conn_handler.go:113-278).

    Go's reflection is modelled by a description of the registered struct: its
    fields, its methods, and values of its fields. *)
From stdpp Require Import gmap strings list.
From RecordUpdate Require Import RecordUpdate.
From Verif Require Import Go Errors Message World.

(** ** Field values *)

(** The user-defined IsZero method of a struct type, if any: the number of its
    arguments, the kinds of its results ([true] for bool) and its answer. *)
Inductive iszero_method : Type :=
| NoIsZero
| IsZero (args : nat) (outs : list bool) (answer : bool).

(** A reflect.Value.  Number 0 is the zero value of its type. *)
Inductive gval : Type :=
| VNSConn (c : option nat)                              (* a *NSConn *)
| VRef (v : nat)                                        (* a func, map or slice *)
| VBasic (v : nat)                                      (* bool, numbers, string, pointers, interfaces *)
| VArray (l : list gval)
| VStruct (m : iszero_method) (l : list (bool * gval)). (* each field with "is exported" *)

(** reflect.Zero *)
Fixpoint zero_of (v : gval) : gval :=
  match v with
  | VNSConn _ => VNSConn None
  | VRef _ => VRef 0
  | VBasic _ => VBasic 0
  | VArray l => VArray (map zero_of l)
  | VStruct m l => VStruct m (map (fun p => (fst p, zero_of (snd p))) l)
  end.

Definition rbind {A B} (x : result A) (f : A -> result B) : result B :=
  match x with Ok a => f a | Panic w => Panic w end.

(** [zero = zero && f(x)] over a list *)
Fixpoint all_zero {A} (f : A -> result bool) (l : list A) : result bool :=
  match l with
  | [] => Ok true
  | x :: l' => rbind (f x) (fun z => if z then all_zero f l' else Ok false)
  end.

(** reflect.go:16-60 isZero.  [ro]: the value was reached through an unexported
    field, so CanInterface is false and Call panics. *)
Fixpoint isZero (ro : bool) (v : gval) {struct v} : result bool :=
  match v with
  | VStruct m l =>
      rbind ((fix go (l : list (bool * gval)) : result bool :=
                match l with
                | [] => Ok true
                | (exported, x) :: l' =>
                    rbind (isZero (ro || negb exported) x) (fun z => if z then go l' else Ok false)
                end) l) (fun zero =>
      match m with
      | NoIsZero => Ok zero
      | IsZero args outs answer =>
          if 1 <? S args then Ok zero            (* f.Type.NumIn() > 1 *)
          else if negb (length outs =? 1) then
            match outs with
            | [] => Panic "reflect: Func index out of bounds"
            | k :: _ => if k then (if ro then Panic "reflect: reflect.Value.Call using value obtained using unexported field"
                                   else Ok answer)
                        else Ok zero
            end
          else match outs with
               | true :: _ => if ro then Panic "reflect: reflect.Value.Call using value obtained using unexported field"
                              else Ok answer
               | _ => Panic "interface conversion"   (* the result is not a bool *)
               end
      end)
  | VRef v => Ok (v =? 0)
  | VArray l =>
      (fix go (l : list gval) : result bool :=
         match l with
         | [] => Ok true
         | x :: l' => rbind (isZero ro x) (fun z => if z then go l' else Ok false)
         end) l
  | VNSConn c => if ro then Ok false else Ok (match c with None => true | Some _ => false end)
  | VBasic v => if ro then Ok false else Ok (v =? 0)
  end.

(** ** Struct types *)
Record field : Type := Field { f_exported : bool; f_nsconn : bool }.

(** The type of a method: func( *NSConn, Message) error, func(Message) error, or another one. *)
Inductive msig : Type := SigStatic | SigDynamic | SigOther.
Definition msig_eqb (a b : msig) : bool :=
  match a, b with SigStatic, SigStatic | SigDynamic, SigDynamic | SigOther, SigOther => true | _, _ => false end.
Record method : Type := Method { mt_name : string; mt_sig : msig }.

(** The registered pointer to a struct: field types, field values, exported
    methods in the order of reflect. *)
Record sreg : Type := SReg { r_fields : list field; r_values : list gval; r_methods : list method }.

(** conn_handler.go:112 EventMatcherFunc, may be nil *)
Definition matcher := option (string -> option string).

(** event.go:51-59 IsSystemEvent *)
Definition IsSystemEvent (e : string) : bool :=
  existsb (String.eqb e) [OnNamespaceConnect; OnNamespaceConnected; OnNamespaceDisconnect;
                          OnRoomJoin; OnRoomJoined; OnRoomLeave; OnRoomLeft].

(** conn_handler.go:143-151 *)
Definition EventPrefixMatcher (prefix : string) : string -> option string :=
  fun name => if has_prefix name prefix then Some name else None.
(** conn_handler.go:155-163 *)
Definition EventTrimPrefixMatcher (prefix : string) : string -> option string :=
  fun name => if has_prefix name prefix then Some (drop (String.length prefix) name) else None.

(** reflect.go:96-100 getFieldIndex for *NSConn *)
Fixpoint nsconn_index (l : list field) : option nat :=
  match l with
  | [] => None
  | f :: l' => if f_nsconn f then Some 0 else option_map S (nsconn_index l')
  end.

(** Callbacks that makeEventsFromStruct makes: method [i] of the registered
    value, method [i] of the controller of the NSConn, or the wrapper around
    OnNamespaceConnect (reflect.go:285-306). *)
Inductive cb : Type := CbStatic (i : nat) | CbDynamic (i : nat) | CbConnect (inner : option cb).

(** reflect.go:172-213 makeEventFromMethod *)
Definition makeEventFromMethod (i : nat) (m : method) (match_ : matcher) : option (string * cb) :=
  let name := if IsSystemEvent ("_" ++ mt_name m) then ("_" ++ mt_name m)%string else mt_name m in
  let f := match mt_sig m with SigStatic => CbStatic i | _ => CbDynamic i end in
  if negb (IsSystemEvent name) then
    match match_ with
    | Some g => match g (mt_name m) with
                | None => None
                | Some newName => Some (newName, f)
                end
    | None => Some (name, f)
    end
  else Some (name, f).

(** reflect.go:240-257 the loop of makeEventsFromStruct *)
Fixpoint events_from (want : msig) (i : nat) (l : list method) (match_ : matcher) (acc : gmap string cb) : gmap string cb :=
  match l with
  | [] => acc
  | m :: l' =>
      events_from want (S i) l' match_
        (if msig_eqb (mt_sig m) want then
           match makeEventFromMethod i m match_ with
           | Some (name, f) => <[name := f]> acc
           | None => acc
           end
         else acc)
  end.

(** reflect.go:74-94 getNonZeroFields *)
Fixpoint nonzero (i : nat) (fs : list field) (vs : list gval) : result (list (nat * gval)) :=
  match fs, vs with
  | f :: fs', v :: vs' =>
      rbind (isZero (negb (f_exported f)) v) (fun z =>
      rbind (nonzero (S i) fs' vs') (fun rest => Ok (if z then rest else (i, v) :: rest)))
  | _, _ => Ok []
  end.

(** reflect.go:229-310 makeEventsFromStruct with the default injector: the
    events and the static fields *)
Definition makeEventsFromStruct (r : sreg) (match_ : matcher) : result (gmap string cb * list (nat * gval)) :=
  match nsconn_index (r_fields r) with
  | None => Ok (events_from SigStatic 0 (r_methods r) match_ ∅, [])
  | Some _ =>
      let events := events_from SigDynamic 0 (r_methods r) match_ ∅ in
      rbind (nonzero 0 (r_fields r) (r_values r)) (fun static =>
      Ok (<[OnNamespaceConnect := CbConnect (events !! OnNamespaceConnect)]> events, static))
  end.

(** ** Running the callbacks *)

(** [k_ctrls]: the fields of every controller, by address; the registered one
    has address 0.  [k_value]: NSConn.value (conn_namespace.go:24), by NSConn. *)
Record rstate : Type := RState { k_ctrls : gmap nat (list gval); k_value : gmap nat nat; k_next : nat }.

Section run.
Variable r : sreg.
Variable static : list (nat * gval).
(** What method [i] does: it may read and change the fields of its receiver and
    returns an error. *)
Variable body : nat -> list gval -> nat -> message -> list gval * option gerr.

Definition fields_at (s : rstate) (a : nat) : list gval := default [] (k_ctrls s !! a).

Definition run_method (i a c : nat) (m : message) (s : rstate) : rstate * option gerr :=
  let '(fs, e) := body i (fields_at s a) c m in
  (RState (<[a := fs]> (k_ctrls s)) (k_value s) (k_next s), e).

(** reflect.Value.Set on field [i] of a fresh struct *)
Definition set_field (i : nat) (v : gval) (fs : list gval) : result (list gval) :=
  match r_fields r !! i with
  | Some f => if f_exported f then Ok (<[i := v]> fs)
              else Panic "reflect: reflect.Value.Set using value obtained using unexported field"
  | None => Panic "reflect: Field index out of range"
  end.

(** reflect.go:286-297: a new controller for NSConn [c] *)
Definition new_controller (idx c : nat) : result (list gval) :=
  rbind (set_field idx (VNSConn (Some c)) (map zero_of (r_values r))) (fun fs =>
  (fix go (l : list (nat * gval)) fs :=
     match l with
     | [] => Ok fs
     | (i, v) :: l' => rbind (set_field i v fs) (go l')
     end) static fs).

(** A call of a callback for NSConn [c]. *)
Definition call_simple (f : cb) (c : nat) (m : message) (s : rstate) : result (rstate * option gerr) :=
  match f with
  | CbStatic i => Ok (run_method i 0 c m s)
  | CbDynamic i =>
      match k_value s !! c with
      | Some a => Ok (run_method i a c m s)
      | None => Panic "reflect: call of reflect.Value.Method on zero Value"
      end
  | CbConnect _ => Ok (s, None)   (* not used *)
  end.

Definition call (f : cb) (c : nat) (m : message) (s : rstate) : result (rstate * option gerr) :=
  match f with
  | CbConnect inner =>
      match nsconn_index (r_fields r) with
      | None => Panic "unreachable"
      | Some idx =>
          rbind (new_controller idx c) (fun fs =>
          let a := k_next s in
          let s := RState (<[a := fs]> (k_ctrls s)) (<[c := a]> (k_value s)) (S a) in
          match inner with
          | Some g => call_simple g c m s
          | None => Ok (s, None)
          end)
      end
  | _ => call_simple f c m s
  end.

(** conn_handler.go:39-49 fireEvent on these events; [None]: no callback ran *)
Definition fire (events : gmap string cb) (c : nat) (m : message) (s : rstate) : result (rstate * option (option gerr)) :=
  let run f := rbind (call f c m s) (fun p => Ok (fst p, Some (snd p))) in
  match events !! m_event m with
  | Some f => run f
  | None => match events !! OnAnyEvent with
            | Some f => run f
            | None => Ok (s, None)
            end
  end.

(** A history of events of several NSConns; the results of the callbacks. *)
Fixpoint history (events : gmap string cb) (l : list (nat * message)) (s : rstate) :
    result (rstate * list (nat * option (option gerr))) :=
  match l with
  | [] => Ok (s, [])
  | (c, m) :: l' =>
      rbind (fire events c m s) (fun p =>
      rbind (history events l' (fst p)) (fun q => Ok (fst q, (c, snd p) :: snd q)))
  end.

Definition rstate0 : rstate := RState {[0 := r_values r]} ∅ 1.

End run.
