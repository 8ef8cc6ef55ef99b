(** * Spec_Err.v : which errors mean what (documentation of event.go:71-129). *)
From Coq Require Import String ZArith.
From Verif Require Import Go Errors.
Local Open Scope string_scope.

(** The connection is gone: the end of the stream, a close by the application,
    an operating system error of the network, or the use of a closed socket. *)
Inductive gone : gerr -> Prop :=
| GoneEOF : gone EEOF
| GoneUnexpected : gone EUnexpectedEOF
| GoneManual code inner : gone (EClose code inner)
| GoneSyscall text timeout : gone (EOp OpSyscall text timeout)
| GoneSocket before timeout : gone (EOp OpOther (before ++ "use of closed network connection") timeout).

(** A network operation took too long. *)
Inductive late : gerr -> Prop :=
| Late inner text : late (EOp inner text true).
