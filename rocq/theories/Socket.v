(** * Socket.v : reading from the websocket (gobwas/socket.go, gorilla/socket.go).

    The websocket libraries are not part of the repository; what neffos uses of
    them is modelled here from their documentation: frames of RFC 6455 that are
    checked, assembled and, for control frames, handed to a handler. *)
From Coq Require Import String Ascii NArith.
From stdpp Require Import strings list.
From Verif Require Import Go Errors.

(** A frame on the wire.  [fr_handled]: what the control handler returns for it
    (answering a ping may fail). *)
Record frame : Type := Frame { fr_fin : bool; fr_op : N; fr_data : string; fr_handled : option gerr }.
Definition OpContinuation : N := 0.
Definition OpText : N := 1.
Definition OpBinary : N := 2.
Definition OpClose : N := 8.
Definition OpPing : N := 9.
Definition OpPong : N := 10.

(** gobwas/ws OpCode.IsControl, IsReserved *)
Definition IsControl (op : N) : bool := negb (N.land op 8 =? 0)%N.
Definition IsReserved (op : N) : bool := ((3 <=? op) && (op <=? 7) || (11 <=? op))%N.

Section gobwas.
(** Whether a byte string is valid UTF-8 (the reader has CheckUTF8 set). *)
Variable utf8 : string -> bool.

(** gobwas/ws CheckHeader; [frag]: inside a fragmented message *)
Definition CheckHeader (frag : bool) (f : frame) : option gerr :=
  if IsReserved (fr_op f) then Some (ENew "use of reserved op code")
  else if IsControl (fr_op f) then
    if negb (fr_fin f) then Some (ENew "control frame is not final")
    else if 125 <? String.length (fr_data f) then Some (ENew "control frame payload limit exceeded")
    else None
  else if frag then
    if (fr_op f =? OpContinuation)%N then None else Some (ENew "unexpected data frame")
  else
    if (fr_op f =? OpContinuation)%N then Some (ENew "unexpected continuation data frame") else None.

(** wsutil.Reader.NextFrame; after the frames of the stream the connection gives [e]. *)
Definition NextFrame (frag : bool) (fs : list frame) (e : gerr) : (frame * list frame) + gerr :=
  match fs with
  | [] => inr (if frag then match e with EEOF => EUnexpectedEOF | _ => e end else e)
  | f :: fs' => match CheckHeader frag f with None => inl (f, fs') | Some err => inr err end
  end.

(** ioutil.ReadAll on the reader, [acc] read so far, the last frame was not final *)
Fixpoint read_rest (text : bool) (acc : string) (fs : list frame) (e : gerr) : (string * list frame) + gerr :=
  match NextFrame true fs e with
  | inr err => inr err
  | inl (f, _) =>
      match fs with
      | [] => inr e    (* not reached: NextFrame failed *)
      | _ :: fs' =>
          if IsControl (fr_op f) then
            (* OnIntermediate, gobwas/socket.go:49 *)
            if (fr_op f =? OpClose)%N then inr (ENew "ws closed")
            else match fr_handled f with
                 | Some err => inr err
                 | None => read_rest text acc fs' e
                 end
          else
            let acc := (acc ++ fr_data f)%string in
            if fr_fin f then
              if text && negb (utf8 acc) then inr (ENew "invalid utf8 sequence") else inl (acc, fs')
            else read_rest text acc fs' e
      end
  end.
Definition ReadAll (f : frame) (fs : list frame) (e : gerr) : (string * list frame) + gerr :=
  let text := (fr_op f =? OpText)%N in
  if fr_fin f then
    if text && negb (utf8 (fr_data f)) then inr (ENew "invalid utf8 sequence") else inl (fr_data f, fs)
  else read_rest text (fr_data f) fs e.

(** gobwas/socket.go:69-106 ReadData: the data, its type, and what is left of the stream *)
Fixpoint ReadData (fs : list frame) (e : gerr) : (string * N * list frame) + gerr :=
  match NextFrame false fs e with
  | inr err => inr (match err with EEOF => EUnexpectedEOF | _ => err end)
  | inl (f, _) =>
      match fs with
      | [] => inr e    (* not reached: NextFrame failed *)
      | _ :: fs' =>
          if (fr_op f =? OpClose)%N then inr EUnexpectedEOF
          else if IsControl (fr_op f) then
            match fr_handled f with
            | Some err => inr err
            | None => ReadData fs' e
            end
          else if (N.land (fr_op f) OpBinary =? 0)%N && (N.land (fr_op f) OpText =? 0)%N then
            ReadData fs' e       (* Discard *)
          else
            match ReadAll f fs' e with
            | inr err => inr err
            | inl (b, rest) => inl (b, fr_op f, rest)
            end
      end
  end.

(** The reader loop calls ReadData until it fails. *)
Fixpoint read_many (fuel : nat) (fs : list frame) (e : gerr) : list (N * string) * option gerr :=
  match fuel with
  | O => ([], None)
  | S fuel' =>
      match ReadData fs e with
      | inr err => ([], Some err)
      | inl (b, t, rest) => let '(l, err) := read_many fuel' rest e in ((t, b) :: l, err)
      end
  end.
End gobwas.

(** ** gorilla/socket.go:41-61 ReadData; the stream is what ReadMessage returns *)
Fixpoint gorilla_ReadData (ms : list (N * string)) (e : gerr) : (string * N * list (N * string)) + gerr :=
  match ms with
  | [] => inr e
  | (op, data) :: ms' =>
      if negb (op =? 2)%N && negb (op =? 1)%N then gorilla_ReadData ms' e
      else inl (data, op, ms')
  end.
