(** * Prop_Native.v : property theorems (generated by tools/genprops.py from NativeProofs.v).
    Every proof is the lemma of the same name in NativeProofs.v. *)
From Coq Require Import ZArith.
From stdpp Require Import gmap strings list relations.
From RecordUpdate Require Import RecordUpdate.
From Verif Require Import Go Errors Message World Lang Code Sem Spec_Conn Spec_View Spec_Native CarelessProofs Examples NativeProofs.
From Verif Require Import NativeProofs.

(** C75.  On a connection that exchanges native messages only, each frame that is not empty, whatever its bytes (also those that
    mean something in the protocol of neffos), is taken from the socket and given to the callback once, as the body of a message without
    namespace, room, token and error; the reader goes on with the next frame whatever the callback returns. *)
Theorem C75_frame : forall G c h t n w f rest,
  natives_only G c h -> native_ready G w c n -> c_in (conn_of w c) = f :: rest -> snd f <> "" ->
  exists w1, w_log w1 = LFire n OnNativeMessage (native_of f) :: w_log w /\ c_in (conn_of w1 c) = rest /\ c_out (conn_of w1 c) = c_out (conn_of w c) /\
    forall w2 e, exec t (h n (native_of f)) w1 = XDone w2 e ->
      exec t (reader_step G c) w = XDone (upd_conn c (fun k => k <| c_inside := false |>) w2) true.
Proof. exact l_C75_frame. Qed.
Print Assumptions C75_frame.

(** C75.  A whole sequence of such frames: if the callback does nothing but return (anything it likes), then the callback is called
    exactly once for each frame, in the order of the frames, and nothing is written. *)
Theorem C75_frames : forall G c h t n frames w,
  natives_only G c h -> native_ready G w c n -> (forall m, exists e, h n m = Ret e) ->
  c_in (conn_of w c) = frames -> Forall (fun f => snd f <> "") frames ->
  exists w', exec t (rounds (length frames) (reader_step G c)) w = XDone w' true /\ native_ready G w' c n /\ c_in (conn_of w' c) = [] /\
    w_log w' = rev (map (fun f => LFire n OnNativeMessage (native_of f)) frames) ++ w_log w /\ c_out (conn_of w' c) = c_out (conn_of w c).
Proof. exact l_C75_frames. Qed.
Print Assumptions C75_frames.

(** C75.  What is sent: a native message, written on such a connection, goes out as one frame that consists of its body and nothing else. *)
Theorem C75_write : forall G c h t n w body (binary : bool),
  natives_only G c h -> native_ready G w c n ->
  exists w', exec t (impl G (AWrite c (native_of (if binary then BinaryMessage else TextMessage, body)))) w = XDone w' true /\ native_ready G w' c n /\
    c_out (conn_of w' c) = c_out (conn_of w c) ++ [(if binary then BinaryMessage else TextMessage, body)].
Proof. exact l_C75_write. Qed.
Print Assumptions C75_write.

(** C75 is violated by Ask.  On such a connection it returns at once the empty message and no error, in every state of the process (also
    if the connection is closed and if the context is over); nothing is sent, so that no answer was given. *)
Theorem C75_ask_refuted : forall G c h t w x m, natives_only G c h ->
  exec t (impl G (AAsk c x m)) w = XDone w (no_message, None).
Proof. exact l_C75_ask_refuted. Qed.
Print Assumptions C75_ask_refuted.

(** C75 is violated by JoinRoom too: the room is joined at this side, the call reports success, and the other side never hears of it. *)
Theorem C75_join_refuted : forall G c h t n w x room, natives_only G c h -> native_ready G w c n -> room ∉ o_rooms (ns_of w n) ->
  exists w', exec t (impl G (AJoinRoom (Some n) x room)) w = XDone w' (Some (n, room), None) /\
    o_rooms (ns_of w' n) = {[room]} ∪ o_rooms (ns_of w n) /\ w_conns w' = w_conns w /\ w_log w' = w_log w.
Proof. exact l_C75_join_refuted. Qed.
Print Assumptions C75_join_refuted.

(** C75.  The hypotheses hold: a client whose only callback is for native messages and returns an error each time, just dialled, with three
    frames to read, two of which look like parts of the protocol. *)
Example C75_example : reachable nativeG nativeS /\ natives_only nativeG 2 nativeH /\
  (exists n, native_ready nativeG (s_w nativeS) 2 n /\ "lobby" ∉ o_rooms (ns_of (s_w nativeS) n)) /\
  (forall n m, exists e, nativeH n m = Ret e) /\ c_in (conn_of (s_w nativeS) 2) = nativeF /\ Forall (fun f => snd f <> "") nativeF.
Proof. exact x_C75_example. Qed.
