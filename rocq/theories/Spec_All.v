(** * Spec_All.v : words for C62, LeaveAll and DisconnectAll. *)
From Coq Require Import ZArith.
From stdpp Require Import gmap strings list.
From RecordUpdate Require Import RecordUpdate.
From Verif Require Import Go Errors Message World Lang Sem Spec_Conn.

(** *** A call and the replies of the peer *)

(** The reply [r] is put into the channel of the waiting Ask, as the reader of
    the connection does (conn.go:446). *)
Definition reply_in (ch : chid) (r : message) (w : world) : world :=
  upd_chan ch (fun x => x <| ch_buf := [r] |> <| ch_sent ::= Datatypes.S |>) w.

(** The call [p] of goroutine [t], which nothing disturbs but the replies that
    it waits for, one after the other: it ends (and did not need all of them),
    or it waits for one more, or it panics or waits for something else. *)
Inductive talk (B : Type) : Type :=
| Ended (w : world) (b : B) (unused : list message)
| Waiting (w : world)
| Broken.
Arguments Ended {B} w b unused. Arguments Waiting {B} w. Arguments Broken {B}.

Fixpoint converse {B} (t : tid) (p : prog B) (w : world) (replies : list message) : talk B :=
  match exec t p w with
  | XDone w' b => Ended w' b replies
  | XBlocked w' o k =>
      match o with
      | OSelect ch _ =>
          match replies with
          | [] => Waiting w'
          | r :: rest => converse t (Do o k) (reply_in ch r w') rest
          end
      | _ => Broken
      end
  | _ => Broken
  end.

(** *** The reference *)

(** The messages of the two calls (locked: sent while the mutex is held). *)
Definition leave_all_msg (ns room : string) : message :=
  set_room room (set_locked true (set_isLocal true (set_event OnRoomLeave (set_namespace ns no_message)))).
Definition bye_all_msg (ns : string) : message :=
  set_namespace ns (set_locked true (set_isLocal true (set_event OnNamespaceDisconnect no_message))).

(** The rooms [order] are left one after the other.  For each, the peer is
    asked, then the own callback, then the room is left and its callback told.
    The first refusal ends the call.  The result is [None] while a reply is
    missing, otherwise the error and the replies that were not needed. *)
Fixpoint leave_all (A : app) (tok ns : string) (order : list string) (replies : list message) (s : cstate)
    : cstate * option (option gerr * list message) :=
  match order with
  | [] => (s, Some (None, replies))
  | room :: order' =>
      let m := leave_all_msg ns room in
      let asked := push (wire_of (set_wait tok m)) s in
      match replies with
      | [] => (asked, None)
      | r :: rest =>
          match m_err r, answer A ns m with
          | Some e, _ => (asked, Some (Some e, rest))
          | None, Some e => (fire A ns m asked, Some (Some e, rest))
          | None, None =>
              leave_all A tok ns order' rest
                (fire A ns (set_event OnRoomLeft m)
                  (fire A ns m asked <| cs_rooms ::= alter (fun rs => rs ∖ {[room]}) ns |>))
          end
      end
  end.

(** The namespaces in [order] (each with the order in which its rooms are left)
    are disconnected one after the other.  For each, the peer is asked; then all
    its rooms are left, the namespace is, and its callback is told, which
    cannot refuse. *)
Fixpoint disconnect_all (R : role) (A : app) (tok : string) (order : list (string * list string)) (replies : list message) (s : cstate)
    : cstate * option (option gerr * list message) :=
  match order with
  | [] => (s, Some (None, replies))
  | (ns, rooms) :: order' =>
      let m := bye_all_msg ns in
      let asked := push (wire_of (set_wait tok m)) s in
      match replies with
      | [] => (asked, None)
      | r :: rest =>
          match m_err r with
          | Some e => (asked, Some (Some e, rest))
          | None =>
              disconnect_all R A tok order' rest
                (unsubscribed R ns (fire A ns m
                  (leave_rooms A ns true rooms asked <| cs_rooms ::= delete ns |>)))
          end
      end
  end.
