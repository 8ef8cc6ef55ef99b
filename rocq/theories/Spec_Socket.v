(** * Spec_Socket.v : messages in a stream of websocket frames (RFC 6455). *)
From Coq Require Import String Ascii NArith.
From stdpp Require Import strings list.
From Verif Require Import Go Errors Socket.

(** A ping or pong that was dealt with. *)
Definition control_ok (f : frame) : Prop :=
  (fr_op f = OpPing \/ fr_op f = OpPong) /\ fr_fin f = true /\ String.length (fr_data f) <= 125 /\ fr_handled f = None.

(** The frames after the first one of a fragmented message, with the data they carry: continuation frames, the last
    one final, with control frames in between. *)
Inductive continues : list frame -> string -> Prop :=
| cont_last f : fr_op f = OpContinuation -> fr_fin f = true -> continues [f] (fr_data f)
| cont_more f fs s : fr_op f = OpContinuation -> fr_fin f = false -> continues fs s -> continues (f :: fs) (fr_data f ++ s)
| cont_control f fs s : control_ok f -> continues fs s -> continues (f :: fs) s.

(** The frames [fs] are one message of type [t] (1 text, 2 binary) with data [s]. *)
Inductive message_frames (utf8 : string -> bool) : list frame -> N -> string -> Prop :=
| one_frame f t s : (t = OpText \/ t = OpBinary) -> fr_op f = t -> fr_fin f = true -> fr_data f = s ->
    (t = OpText -> utf8 s = true) -> message_frames utf8 [f] t s
| many_frames f fs t s : (t = OpText \/ t = OpBinary) -> fr_op f = t -> fr_fin f = false -> continues fs s ->
    (t = OpText -> utf8 (fr_data f ++ s)%string = true) -> message_frames utf8 (f :: fs) t (fr_data f ++ s).

(** The frames [fs] carry the messages [ms] and nothing else but pings and pongs. *)
Inductive carries (utf8 : string -> bool) : list frame -> list (N * string) -> Prop :=
| carries_nil : carries utf8 [] []
| carries_control f fs ms : control_ok f -> carries utf8 fs ms -> carries utf8 (f :: fs) ms
| carries_message block fs t s ms : message_frames utf8 block t s -> carries utf8 fs ms ->
    carries utf8 (block ++ fs) ((t, s) :: ms).

(** A stream that breaks off inside a fragmented message: its first frame, then continuation frames that are
    not final and control frames. *)
Definition broken_off (f : frame) (more : list frame) : Prop :=
  (fr_op f = OpText \/ fr_op f = OpBinary) /\ fr_fin f = false /\
  Forall (fun g => control_ok g \/ fr_op g = OpContinuation /\ fr_fin g = false) more.
