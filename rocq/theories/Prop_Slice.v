(** * Prop_Slice.v : property theorems (generated by tools/genprops.py from SliceProofs.v).
    Every proof is the lemma of the same name in SliceProofs.v. *)
From stdpp Require Import gmap strings list relations.
From Verif Require Import Go Errors Message World Lang Code Sem Spec_Conn Spec_View Examples Spec_Cast CastProofs Slice Spec_Slice.
From Verif Require Import SliceProofs.

(** C81. For a caller that does not use the slice again the call is Broadcast (C35, C36), and without a sender the
    slice is left as it was. *)
Theorem C81_once_partial : forall G A slice,
  (forall except (p : prog A), BroadcastSlice G except slice (fun _ => p) = bind (Broadcast G except slice) (fun _ => p)) /\
  (forall k : list message -> prog A, BroadcastSlice G None slice k = bind (Broadcast G None slice) (fun _ => k slice)).
Proof. exact l_C81_once_partial. Qed.
Print Assumptions C81_once_partial.

(** C81. A slice that was broadcast with a connection as sender may be broadcast again with another connection as
    sender, and one broadcast with an Exclude value again with another one: the second call does what it would do with
    the slice as it was at first, and so does the rest of the program. *)
Theorem C81_kind_partial : forall G A slice s1 s2 (k : list message -> prog A),
  (exists c1 c2, is_connection c1 s1 /\ is_connection c2 s2) \/
  (exists x1 x2, s1 = SendExclude x1 /\ s2 = SendExclude x2 /\ x1 <> "" /\ x2 <> "") ->
  BroadcastSlice G (Some s1) slice (fun l => BroadcastSlice G (Some s2) l k) =
  BroadcastSlice G (Some s1) slice (fun _ => BroadcastSlice G (Some s2) slice k).
Proof. exact l_C81_kind_partial. Qed.
Print Assumptions C81_kind_partial.

(** C81. Violated: a slice that was broadcast with a connection as sender and then without a sender is the second
    time broadcast exactly as if that connection were the sender again. *)
Theorem C81_again_refuted : forall G A slice c s (k : list message -> prog A),
  is_connection c s ->
  BroadcastSlice G (Some s) slice (fun l => BroadcastSlice G None l k) =
  BroadcastSlice G (Some s) slice (fun _ => BroadcastSlice G (Some s) slice k).
Proof. exact l_C81_again_refuted. Qed.
Print Assumptions C81_again_refuted.

(** C81. What this means for the connection: the second broadcast has no sender and the connection may get the
    message, which as a fresh one it would be sent, but it is not sent. *)
Theorem C81_missed_refuted : forall G c s m,
  g_client G c = false -> is_connection c s -> speakable m -> fresh m ->
  exists m', (forall A (k : list message -> prog A),
    BroadcastSlice G (Some s) [m] (fun l => BroadcastSlice G None l k) =
    bind (Broadcast G (Some s) [m]) (fun _ => bind (Broadcast G None [m']) (fun _ => k [m']))) /\
  (forall t w, caster_free w -> exists w1, gets_to t (Broadcast G None [m']) w w1 /\ handed_over G [m'] w w1) /\
  forall t w, quiet G w c -> c_id (conn_of w c) <> "" ->
    (m_to m = "" \/ m_to m = c_id (conn_of w c)) -> passes (cs_rooms (view w c)) m ->
    (exists w1, exec t (publishMessages G c [m]) w = XDone w1 true /\ view w1 c = push (wire_of m) (view w c)) /\
    (exists w1, exec t (publishMessages G c [m']) w = XDone w1 true /\ view w1 c = view w c).
Proof. exact l_C81_missed_refuted. Qed.
Print Assumptions C81_missed_refuted.

(** C81. Violated too if the second call excludes an ID: neither that connection, although its ID is another one, nor
    the connections with the ID are sent the message. *)
Theorem C81_both_refuted : forall G c s x m,
  g_client G c = false -> is_connection c s -> x <> "" -> speakable m -> fresh m ->
  exists m', (forall A (k : list message -> prog A),
    BroadcastSlice G (Some s) [m] (fun l => BroadcastSlice G (Some (SendExclude x)) l k) =
    bind (Broadcast G (Some s) [m]) (fun _ => bind (Broadcast G None [m']) (fun _ => k [m']))) /\
  forall c' t w, quiet G w c' -> c' = c \/ c_id (conn_of w c') = x ->
    exists w1, exec t (publishMessages G c' [m']) w = XDone w1 true /\ view w1 c' = view w c'.
Proof. exact l_C81_both_refuted. Qed.
Print Assumptions C81_both_refuted.

(** C81. The server of the example of C35: connection 2 (ID bob) is the sender of a fresh message in its namespace.
    It may be sent the message when the slice is broadcast without a sender. *)
Example C81_example :
  let m := set_event "hi" (set_namespace "chat" no_message) in
  reachable (castG true) castS /\ g_client (castG true) 2 = false /\ is_connection 2 (SendConn 2) /\ speakable m /\ fresh m /\
  caster_free (s_w castS) /\ quiet (castG true) (s_w castS) 2 /\ c_id (conn_of (s_w castS) 2) = "bob" /\ m_to m = "" /\
  passes (cs_rooms (view (s_w castS) 2)) m /\
  (quiet (castG true) (s_w castS) 1 /\ c_id (conn_of (s_w castS) 1) = "ann").
Proof. exact x_C81_example. Qed.
