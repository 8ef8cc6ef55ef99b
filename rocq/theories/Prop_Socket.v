(** * Prop_Socket.v : property theorems (generated by tools/genprops.py from SocketProofs.v).
    Every proof is the lemma of the same name in SocketProofs.v. *)
From Coq Require Import String Ascii NArith.
From stdpp Require Import strings list.
From Verif Require Import Go Errors Socket Spec_Socket.
From Verif Require Import SocketProofs.

(** C52.  For every stream of frames: ReadData succeeds exactly if, after some pings and pongs, the stream
    goes on with the frames of one message; it returns the data and type of that message and leaves
    exactly the frames behind it. *)
Theorem C52_read_data : forall utf8 fs e b t rest,
  ReadData utf8 fs e = inl (b, t, rest) <->
  exists skipped block, fs = skipped ++ block ++ rest /\ Forall control_ok skipped /\ message_frames utf8 block t b.
Proof. exact l_C52_read_data. Qed.
Print Assumptions C52_read_data.

(** C52.  Reading again and again gives the messages of the stream in their order, none skipped or
    duplicated, until the close frame or the failure behind them.  The reader then gets io.ErrUnexpectedEOF (which neffos takes as
    closed by the other side) if the stream is at its end or the other side sent a close frame, and otherwise the error of the connection. *)
Theorem C52_all_messages : forall utf8 fs ms stop e fuel, carries utf8 fs ms ->
  (stop = [] \/ exists f rest, stop = f :: rest /\ fr_op f = OpClose) -> length ms < fuel ->
  exists err, read_many utf8 fuel (fs ++ stop) e = (ms, Some err) /\
    (stop = [] -> err = match e with EEOF => EUnexpectedEOF | _ => e end) /\
    (forall f rest, stop = f :: rest -> fr_fin f = true -> String.length (fr_data f) <= 125 -> err = EUnexpectedEOF).
Proof. exact l_C52_all_messages. Qed.
Print Assumptions C52_all_messages.

(** A fragmented text message with a ping inside, a binary message, then a close frame. *)
Definition C52_stream : list frame :=
  [Frame true OpPong "" None; Frame false OpText "hel" None; Frame true OpPing "?" None; Frame true OpContinuation "lo" None;
   Frame true OpBinary "world" None].
Example C52_example : carries (fun _ => true) C52_stream [(OpText, "hello"); (OpBinary, "world")] /\
  read_many (fun _ => true) 5 (C52_stream ++ [Frame true OpClose "" None]) EEOF =
    ([(OpText, "hello"); (OpBinary, "world")], Some EUnexpectedEOF).
Proof.
  assert (Hc : forall op d, (op = OpPing \/ op = OpPong) -> String.length d <= 125 -> control_ok (Frame true op d None)) by (intros; done).
  split; [|reflexivity]. unfold C52_stream.
  apply carries_control; [apply Hc; [by right|cbn; lia]|].
  apply (carries_message _ [Frame false OpText "hel" None; Frame true OpPing "?" None; Frame true OpContinuation "lo" None]).
  - apply (many_frames _ (Frame false OpText "hel" None) [_; _] OpText "lo"%string); [by left|done|done| |done].
    apply cont_control; [apply Hc; [by left|cbn; lia]|]. by apply (cont_last (Frame true OpContinuation "lo" None)).
  - apply (carries_message _ [Frame true OpBinary "world" None] []); [|constructor].
    constructor; try done. by right.
Qed.

(** C52.  If the stream breaks off inside a fragmented message, nothing of that message is returned: the reader gets
    io.ErrUnexpectedEOF at the end of the stream, and otherwise the error of the connection. *)
Theorem C52_broken_off : forall utf8 skipped f more e, Forall control_ok skipped -> broken_off f more ->
  ReadData utf8 (skipped ++ f :: more) e = inr (match e with EEOF => EUnexpectedEOF | _ => e end).
Proof. exact l_C52_broken_off. Qed.
Print Assumptions C52_broken_off.

Example C52_broken : broken_off (Frame false OpText "hel" None) [Frame true OpPing "p" None; Frame false OpContinuation "lo" None].
Proof.
  split; [left; reflexivity|]. split; [reflexivity|]. constructor; [left|constructor; [right; split; reflexivity|constructor]].
  split; [left; reflexivity|]. split; [reflexivity|]. split; [vm_compute; lia|reflexivity].
Qed.

(** C52.  The gorilla socket: the first text or binary message of what ReadMessage returns, unchanged. *)
Theorem C52_gorilla : forall ms e b t rest,
  gorilla_ReadData ms e = inl (b, t, rest) <->
  exists skipped, ms = skipped ++ (t, b) :: rest /\ (t = 1%N \/ t = 2%N) /\ Forall (fun p => fst p <> 1%N /\ fst p <> 2%N) skipped.
Proof. exact l_C52_gorilla. Qed.
Print Assumptions C52_gorilla.
