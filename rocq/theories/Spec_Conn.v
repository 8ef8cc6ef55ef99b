(** * Spec_Conn.v : the reference behaviour of one connection.

    A connection is described by what the application and the peer can see: to
    which namespaces and rooms it belongs, which frames were sent, which
    callbacks ran.  No locks, goroutines, maps of pointers or processes here. *)
From Coq Require Import ZArith.
From stdpp Require Import gmap strings list.
From RecordUpdate Require Import RecordUpdate.
From Verif Require Import Go Errors Message.

(** An application whose callbacks only look at the message and return an
    error: namespace -> event -> callback. *)
Notation app := (gmap string (gmap string (message -> option gerr))).

(** What can be seen of a connection. *)
Record cstate : Type := CState {
  cs_rooms : gmap string (gset string);        (* connected namespaces and their joined rooms *)
  cs_sent : list (mtype * string);             (* frames, oldest first *)
  cs_fired : list (string * string * message); (* callbacks that ran (namespace, registered name, message), newest first *)
  cs_subs : list (bool * string) }.            (* StackExchange subscribe (true) and unsubscribe calls, newest first *)
#[export] Instance etaCState : Settable _ := settable! CState <cs_rooms; cs_sent; cs_fired; cs_subs>.

(** What does not change: is it a client-side connection, its identity as used
    by broadcast exclusion, does its server use a StackExchange. *)
Record role : Type := Role { r_client : bool; r_self : string; r_exch : bool }.

Section machine.
Context (R : role) (A : app).

(** The callback for [ev] in [ns]: the one registered for it, else the
    catch-all, else none. *)
Definition callback (ns ev : string) : option (string * (message -> option gerr)) :=
  match A !! ns with
  | None => None
  | Some evs =>
      match evs !! ev with
      | Some f => Some (ev, f)
      | None => match evs !! OnAnyEvent with
                | Some f => Some (OnAnyEvent, f)
                | None => None
                end
      end
  end.

Definition fire (ns : string) (m : message) (s : cstate) : cstate :=
  match callback ns (m_event m) with
  | Some (key, _) => s <| cs_fired ::= cons (ns, key, m) |>
  | None => s
  end.
Definition answer (ns : string) (m : message) : option gerr :=
  match callback ns (m_event m) with
  | Some (_, f) => f m
  | None => None
  end.

(** May this message be sent?  Connect and disconnect messages always;
    anything else only inside a connected namespace, and inside a joined room
    if it names one, except that joining and having left need no membership.
    Never to the connection the message excludes. *)
Definition may_send (rooms : gmap string (gset string)) (m : message) : bool :=
  (isConnect m || isDisconnect m ||
   match rooms !! m_namespace m with
   | None => false
   | Some rs => is_empty (m_room m) || isRoomJoin m || isRoomLeft m || bool_decide (m_room m ∈ rs)
   end) &&
  (is_empty (m_fromExplicit m) || negb (String.eqb (r_self R) (m_fromExplicit m))).

(** The frame of a message. *)
Definition wire_of (m : message) : mtype * string :=
  (if m_setBinary m then BinaryMessage else TextMessage,
   match serializeMessage (set_fromExplicit "" m) with Ok b => b | Panic _ => "" end).
Definition push (f : mtype * string) (s : cstate) : cstate := s <| cs_sent ::= fun l => l ++ [f] |>.
Definition try_send (m : message) (s : cstate) : cstate :=
  if may_send (cs_rooms s) m then push (wire_of m) s else s.

(** The two ways to answer a request: success without body, or an error. *)
Definition ok_reply (m : message) (s : cstate) : cstate :=
  push (TextMessage, (m_wait m ++ ";;;;;;")%string) s.
Definition err_reply (m : message) (e : gerr) (s : cstate) : cstate := try_send (set_err (Some e) m) s.

Definition subscribed (ns : string) (s : cstate) : cstate :=
  if negb (r_client R) && r_exch R then s <| cs_subs ::= cons (true, ns) |> else s.
Definition unsubscribed (ns : string) (s : cstate) : cstate :=
  if negb (r_client R) && r_exch R then s <| cs_subs ::= cons (false, ns) |> else s.

(** Forced leave of the rooms in [order]: each room's two callbacks run and
    the room is left. *)
Fixpoint leave_rooms (ns : string) (local : bool) (order : list string) (s : cstate) : cstate :=
  match order with
  | [] => s
  | r :: rest =>
      let m := set_room r (set_isLocal local (set_isForced true (set_namespace ns no_message))) in
      leave_rooms ns local rest
        (fire ns (set_event OnRoomLeft m)
          (fire ns (set_event OnRoomLeave m) s <| cs_rooms ::= alter (fun rs => rs ∖ {[r]}) ns |>))
  end.

(** *** Requests of the peer *)

Definition on_connect (m : message) (s : cstate) : cstate :=
  let ns := m_namespace m in
  match cs_rooms s !! ns with
  | Some _ => ok_reply m s
  | None =>
      match A !! ns with
      | None => err_reply m EBadNamespace s
      | Some _ =>
          let s1 := fire ns m s in
          match answer ns m with
          | Some e => err_reply m e s1
          | None =>
              let s2 := ok_reply m (s1 <| cs_rooms ::= <[ns := ∅]> |>) in
              subscribed ns (fire ns (set_event OnNamespaceConnected m) s2)
          end
      end
  end.

Definition on_disconnect (order : list string) (m : message) (s : cstate) : cstate :=
  let ns := m_namespace m in
  match cs_rooms s !! ns with
  | None => ok_reply m s
  | Some _ =>
      if r_client R then
        fire ns m (ok_reply m (leave_rooms ns false order s <| cs_rooms ::= delete ns |>))
      else
        let s1 := fire ns m s in
        match answer ns m with
        | Some e => err_reply m e s1
        | None => ok_reply m (unsubscribed ns (leave_rooms ns false order s1 <| cs_rooms ::= delete ns |>))
        end
  end.

Definition on_join (m : message) (s : cstate) : cstate :=
  let ns := m_namespace m in
  match cs_rooms s !! ns with
  | None => s
  | Some rs =>
      if bool_decide (m_room m ∈ rs) then ok_reply m s
      else
        let s1 := fire ns m s in
        match answer ns m with
        | Some e => err_reply m e s1
        | None =>
            ok_reply m (fire ns (set_event OnRoomJoined m)
              (s1 <| cs_rooms ::= alter (fun rs => {[m_room m]} ∪ rs) ns |>))
        end
  end.

Definition on_leave (m : message) (s : cstate) : cstate :=
  let ns := m_namespace m in
  match cs_rooms s !! ns with
  | None => s
  | Some rs =>
      if negb (bool_decide (m_room m ∈ rs)) then ok_reply m s
      else
        let s1 := fire ns m s in
        let left := s1 <| cs_rooms ::= alter (fun rs => rs ∖ {[m_room m]}) ns |> in
        if r_client R then fire ns (set_event OnRoomLeft m) (ok_reply m left)
        else
          match answer ns m with
          | Some e => err_reply m e s1
          | None => ok_reply m (fire ns (set_event OnRoomLeft m) left)
          end
  end.

(** A request needs an answer token; without it the four membership requests
    are ignored. *)
Definition is_request (m : message) : bool := negb (is_empty (m_wait m)) && negb (m_isNoOp m).

(** Any message of the peer that is not the reply to a pending Ask.  [order]
    is the order in which rooms are left, if the message makes it leave any. *)
Definition handle (order : list string) (m : message) (s : cstate) : cstate * option gerr :=
  let ns := m_namespace m in
  if m_isInvalid m then (s, Some EInvalidPayload)
  else if String.eqb (m_event m) OnNamespaceConnect then
    (if is_request m then on_connect m s else s, None)
  else if String.eqb (m_event m) OnNamespaceDisconnect then
    (if is_request m then on_disconnect order m s else s, None)
  else if String.eqb (m_event m) OnRoomJoin then
    (if is_request m then on_join m s else s, None)
  else if String.eqb (m_event m) OnRoomLeave then
    (if is_request m then on_leave m s else s, None)
  else
    match cs_rooms s !! ns with
    | None => (s, Some EBadNamespace)
    | Some _ =>
        let m := set_isLocal false m in
        let s1 := fire ns m s in
        match answer ns m with
        | Some e => (err_reply m e s1, Some e)
        | None => (s1, None)
        end
    end.

End machine.

(** ** Words used in the statements about one request *)

(** The callback that runs for [m] in [ns], as a log entry (none or one). *)
Definition calls (A : app) (ns : string) (m : message) : list (string * string * message) :=
  match callback A ns (m_event m) with
  | Some (key, _) => [(ns, key, m)]
  | None => []
  end.

(** The two callbacks of a forced leave of room [r], newest first, and those
    of all rooms left in [order]. *)
Definition leave_calls (A : app) (ns : string) (local : bool) (r : string) : list (string * string * message) :=
  let m := set_room r (set_isLocal local (set_isForced true (set_namespace ns no_message))) in
  calls A ns (set_event OnRoomLeft m) ++ calls A ns (set_event OnRoomLeave m).
Definition leaves_calls (A : app) (ns : string) (local : bool) (order : list string) : list (string * string * message) :=
  flat_map (leave_calls A ns local) (rev order).

(** The callbacks that run when a connection closes, for a namespace whose
    rooms are left in some order, newest first: all leaves, then the disconnect. *)
Definition bye (ns : string) : message :=
  set_namespace ns (set_isLocal true (set_isForced true (set_event OnNamespaceDisconnect no_message))).
Definition close_calls (A : app) (e : string * list string) : list (string * string * message) :=
  calls A (fst e) (bye (fst e)) ++ leaves_calls A (fst e) true (snd e).

(** The error the other side gets to see if a request is answered with [v]:
    none for success, for a Reply and for an error without text; otherwise the
    known error with that text, or a new one. *)
Definition seen_error (ks : list known) (v : option gerr) : option gerr :=
  match v with
  | None => None
  | Some e =>
      match is_reply e with
      | Some _ => None
      | None => match err_text e with
                | Ok t => if is_empty t then None else Some (resolveError ks t)
                | Panic _ => None
                end
      end
  end.

(** And the body it gets: that of a Reply. *)
Definition seen_body (v : option gerr) : string :=
  match v with
  | Some e => match is_reply e with Some body => body | None => "" end
  | None => ""
  end.

(** [f] is an answer to the request with token [tok], with verdict [v]: so it
    decodes at every receiver. *)
Definition answers (f : mtype * string) (tok : string) (v : option gerr) : Prop :=
  forall ks allow,
    let r := DeserializeMessage ks (fst f) (snd f) allow false in
    m_isInvalid r = false /\ m_fromStackExchange r = false /\ m_wait r = tok /\
    m_err r = seen_error ks v /\ m_body r = seen_body v.

(** Membership alone: how a message of the peer changes the connected
    namespaces and their rooms. *)
Definition member_step (client : bool) (A : app) (m : message)
    (M : gmap string (gset string)) : gmap string (gset string) :=
  let ns := m_namespace m in
  let agreed := match answer A ns m with None => true | Some _ => false end in
  if m_isInvalid m || is_empty (m_wait m) || m_isNoOp m then M
  else if String.eqb (m_event m) OnNamespaceConnect then
    match M !! ns, A !! ns with
    | None, Some _ => if agreed then <[ns := ∅]> M else M
    | _, _ => M
    end
  else if String.eqb (m_event m) OnNamespaceDisconnect then
    if client || agreed then delete ns M else M
  else if String.eqb (m_event m) OnRoomJoin then
    match M !! ns with
    | Some rs => if bool_decide (m_room m ∈ rs) then M
                 else if agreed then <[ns := {[m_room m]} ∪ rs]> M else M
    | None => M
    end
  else if String.eqb (m_event m) OnRoomLeave then
    match M !! ns with
    | Some rs => if bool_decide (m_room m ∈ rs)
                 then if client || agreed then <[ns := rs ∖ {[m_room m]}]> M else M
                 else M
    | None => M
    end
  else M.

(** What Write lets through, in words: connect and disconnect messages always;
    others only in a connected namespace and, if they name a room and do not
    announce joining or having left it, in a joined room; never to the
    connection that the message excludes. *)
Definition sendable (self : string) (M : gmap string (gset string)) (m : message) : Prop :=
  (m_event m = OnNamespaceConnect \/ m_event m = OnNamespaceDisconnect \/
   exists rs, M !! m_namespace m = Some rs /\
     (m_room m = "" \/ m_event m = OnRoomJoin \/ m_event m = OnRoomLeft \/ m_room m ∈ rs)) /\
  (m_fromExplicit m = "" \/ m_fromExplicit m <> self).

(** ** Local calls *)

(** The requests that Connect, Disconnect, JoinRoom and Leave make. *)
Definition hello (ns : string) : message :=
  set_isLocal true (set_event OnNamespaceConnect (set_namespace ns no_message)).
Definition goodbye (ns : string) : message := set_event OnNamespaceDisconnect (set_namespace ns no_message).
Definition join_msg (ns room : string) : message :=
  set_isLocal true (set_event OnRoomJoin (set_room room (set_namespace ns no_message))).
Definition leave_req (ns room : string) : message :=
  set_event OnRoomLeave (set_room room (set_namespace ns no_message)).

(** What happens locally once the peer has agreed. *)
Definition connected_here (R : role) (A : app) (ns : string) (s : cstate) : cstate :=
  subscribed R ns (fire A ns (set_event OnNamespaceConnected (hello ns))
    (s <| cs_rooms ::= <[ns := ∅]> |>)).
Definition disconnected_here (R : role) (A : app) (ns : string) (order : list string) (s : cstate) : cstate :=
  unsubscribed R ns (fire A ns (set_isLocal true (goodbye ns))
    (leave_rooms A ns true order s <| cs_rooms ::= delete ns |>)).
Definition joined_here (A : app) (ns room : string) (s : cstate) : cstate * option gerr :=
  let s1 := fire A ns (join_msg ns room) s in
  match answer A ns (join_msg ns room) with
  | Some e => (s1, Some e)
  | None => (fire A ns (set_event OnRoomJoined (join_msg ns room))
               (s1 <| cs_rooms ::= alter (fun rs => {[room]} ∪ rs) ns |>), None)
  end.
Definition left_here (A : app) (ns room : string) (s : cstate) : cstate * option gerr :=
  let s1 := fire A ns (leave_req ns room) s in
  match answer A ns (leave_req ns room) with
  | Some e => (s1, Some e)
  | None => (fire A ns (set_event OnRoomLeft (leave_req ns room))
               (s1 <| cs_rooms ::= alter (fun rs => rs ∖ {[room]}) ns |>), None)
  end.
