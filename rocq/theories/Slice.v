(** * Slice.v : Broadcast called with a slice of messages that the caller keeps. *)
From stdpp Require Import strings list.
From Verif Require Import Go Errors Message World Lang Code.

Local Open Scope prog_scope.

(** server.go:506-525: the loop assigns to msgs[i].  If Broadcast is called as
    Broadcast(sender, slice...) then msgs is the caller's slice, so the result
    is both what is broadcast and what the caller's slice holds afterwards.  The
    assignments of the loop are one step: a caller that reads or changes the
    slice while Broadcast runs is not modelled. *)
Definition mark_slice (G : cfg) (except : option sender) (slice : list message) : prog (list message) :=
  match except with
  | None => Ret slice
  | Some s =>
      let! e := exclusion G s in
      Ret (map (exclude (fst e) (snd e)) slice)
  end.

(** server.go:527-538: the rest of Broadcast, which does not assign to msgs. *)
Definition pass_on (G : cfg) (msgs : list message) : prog unit :=
  if usesStackExchange G then exch_call G (XPublish msgs)
  else if g_sync G then
    let! k := opr (OBcSend msgs) in opr (OBcAccepted k)
  else broadcast msgs.

(** server.go:504-538 Broadcast(sender, slice...); [k] is what the caller does
    next with its slice. *)
Definition BroadcastSlice (G : cfg) {A} (except : option sender) (slice : list message) (k : list message -> prog A) : prog A :=
  let! slice := mark_slice G except slice in
  let! _ := pass_on G slice in
  k slice.
