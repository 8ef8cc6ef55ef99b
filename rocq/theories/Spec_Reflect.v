(** * Spec_Reflect.v : how struct methods become events, in plain words. *)
From Coq Require Import Ascii.
From stdpp Require Import gmap strings list.
From Verif Require Import Go Errors Message Reflect Spec_Handlers.

(** The methods that stand for system events. *)
Definition system_methods : list string :=
  ["OnNamespaceConnect"; "OnNamespaceConnected"; "OnNamespaceDisconnect";
   "OnRoomJoin"; "OnRoomJoined"; "OnRoomLeave"; "OnRoomLeft"].

(** The event a method is registered for; [None]: it is not registered. *)
Definition event_of (name : string) (mt : matcher) : option string :=
  if decide (name ∈ system_methods) then Some ("_" ++ name)%string
  else match mt with Some g => g name | None => Some name end.

(** Go: the name of an exported method begins with an upper case letter. *)
Definition exported_name (s : string) : Prop := first_byte s <> Some "_"%char.

(** The struct has a field of type *NSConn. *)
Definition dynamic (r : sreg) : Prop := Exists (fun f => f_nsconn f = true) (r_fields r).

(** The method that handles event [e]: the last one that has the right type and
    is registered for it. *)
Definition method_for (sig : msig) (l : list method) (mt : matcher) (e : string) : option nat :=
  last_some (imap (fun i m => if decide (msig_eqb (mt_sig m) sig = true /\ event_of (mt_name m) mt = Some e)
                              then Some i else None) l).

(** Values have the shape of their types. *)
Definition well_typed (r : sreg) : Prop := length (r_values r) = length (r_fields r).

(** The value that neffos puts in a field of a new controller: a copy of the
    registered value unless that is zero. *)
Definition copied (v : gval) : gval :=
  match isZero false v with Ok true => zero_of v | _ => v end.

(** In a history every NSConn starts with OnNamespaceConnect. *)
Definition connects_first (l : list (nat * message)) : Prop :=
  forall c m rest, filter (fun p => p.1 = c) l = (c, m) :: rest -> m_event m = OnNamespaceConnect.

(** What NSConn [c] did in a history. *)
Definition only {A} (c : nat) (l : list (nat * A)) : list (nat * A) := filter (fun p => p.1 = c) l.

(** The fields of the controller of NSConn [c]. *)
Definition controller (s : rstate) (c : nat) : option (list gval) := k_value s !! c ≫= fun a => k_ctrls s !! a.

(** No struct type with an IsZero method of its own occurs in the value. *)
Fixpoint no_iszero (v : gval) : Prop :=
  match v with
  | VStruct m l => m = NoIsZero /\ (fix go l := match l with [] => True | (_, x) :: l' => no_iszero x /\ go l' end) l
  | VArray l => (fix go l := match l with [] => True | x :: l' => no_iszero x /\ go l' end) l
  | _ => True
  end.

(** The method that handles the events called [e]: its own, or else that of the
    catch-all OnAnyEvent. *)
Definition handler_for (r : sreg) (mt : matcher) (e : string) : option nat :=
  match method_for SigDynamic (r_methods r) mt e with
  | Some i => Some i
  | None => method_for SigDynamic (r_methods r) mt OnAnyEvent
  end.
