(** * Errors.v : Go error values (event.go, server.go, conn.go). *)
From Coq Require Import String Ascii List NArith ZArith Bool Lia.
From Verif Require Import Go.
Import ListNotations.
Local Open Scope string_scope.

(** The [Err] field of a *net.OpError, as far as event.go:101-112 looks at it. *)
Inductive operr : Type :=
| OpNil        (* netErr.Err == nil *)
| OpSyscall    (* a non nil *os.SyscallError *)
| OpOther.     (* any other error *)

(** Non nil Go error values that occur in the modelled code.  A Go [error] is
    an [option gerr].  Identity ([==]) is modelled by structural equality;
    errors made by user code carry a number that stands for their address. *)
Inductive gerr : Type :=
| EBadNamespace                       (* server.go:618 *)
| EBadRoom                            (* server.go:620 *)
| EWrite                              (* server.go:622 *)
| EInvalidPayload                     (* conn.go:414 *)
| EServerClosed                       (* server.go:219 *)
| EInvalidMethod                      (* server.go:220 *)
| EUpgradeOnRetry                     (* server.go:255 *)
| EUser (id : nat) (text : string)    (* an error of the application, address [id] *)
| ENew (text : string)                (* errors.New(text) made by message.go:415, conn.go:383 *)
| EReply (body : string)              (* event.go:131-153 *)
| EClose (code : Z) (inner : option gerr) (* event.go:61-64, the embedded error may be nil *)
| EDeadline                           (* context.DeadlineExceeded *)
| ECanceled                           (* context.Canceled *)
| EEOF                                (* io.EOF *)
| EUnexpectedEOF                      (* io.ErrUnexpectedEOF *)
| EOp (inner : operr) (text : string) (timeout : bool) (* *net.OpError *).

(** [err.Error()].  event.go:66-68 dereferences the embedded error of a
    CloseError, which panics if it is nil; event.go:135-137 for a reply. *)
Fixpoint err_text (e : gerr) : result string :=
  match e with
  | EBadNamespace => Ok "bad namespace"
  | EBadRoom => Ok "bad room"
  | EWrite => Ok "write closed"
  | EInvalidPayload => Ok "invalid payload"
  | EServerClosed => Ok "server closed"
  | EInvalidMethod => Ok "no valid request method"
  | EUpgradeOnRetry => Ok "check status"
  | EUser _ t => Ok t
  | ENew t => Ok t
  | EReply _ => Ok ""
  | EClose _ None => Panic "invalid memory address or nil pointer dereference"
  | EClose code (Some e') =>
      match err_text e' with
      | Ok t => Ok ("[" ++ format_int code ++ "] " ++ t)
      | Panic w => Panic w
      end
  | EDeadline => Ok "context deadline exceeded"
  | ECanceled => Ok "context canceled"
  | EEOF => Ok "EOF"
  | EUnexpectedEOF => Ok "unexpected EOF"
  | EOp _ t _ => Ok t
  end.

(** event.go:139-146 isReply *)
Definition is_reply (e : gerr) : option string :=
  match e with EReply b => Some b | _ => None end.

(** event.go:79-85 isManualCloseError *)
Definition is_manual_close_error (err : option gerr) : bool :=
  match err with Some (EClose _ _) => true | _ => false end.

(** event.go:88-115 IsCloseError *)
Definition is_close_error (err : option gerr) : bool :=
  match err with
  | None => false
  | Some (EClose _ _) => true
  | Some EUnexpectedEOF | Some EEOF => true
  | Some (EOp OpNil _ _) => false
  | Some (EOp OpSyscall _ _) => true
  | Some (EOp OpOther text _) => has_suffix text "use of closed network connection"
  | Some _ => false
  end.

(** event.go:118-129 IsTimeoutError *)
Definition is_timeout_error (err : option gerr) : bool :=
  match err with
  | Some (EOp _ _ timeout) => timeout
  | _ => false
  end.

(** event.go:71-77 IsDisconnectError *)
Definition is_disconnect_error (err : option gerr) : bool :=
  match err with
  | None => false
  | Some _ => is_close_error err || is_timeout_error err
  end.

Definition operr_eqb (a b : operr) : bool :=
  match a, b with
  | OpNil, OpNil | OpSyscall, OpSyscall | OpOther, OpOther => true
  | _, _ => false
  end.

(** Go's [==] on error values. *)
Fixpoint gerr_eqb (a b : gerr) : bool :=
  match a, b with
  | EBadNamespace, EBadNamespace | EBadRoom, EBadRoom | EWrite, EWrite
  | EInvalidPayload, EInvalidPayload | EServerClosed, EServerClosed
  | EInvalidMethod, EInvalidMethod | EUpgradeOnRetry, EUpgradeOnRetry
  | EDeadline, EDeadline | ECanceled, ECanceled | EEOF, EEOF
  | EUnexpectedEOF, EUnexpectedEOF => true
  | EUser i t, EUser j u => Nat.eqb i j && String.eqb t u
  | ENew t, ENew u => String.eqb t u
  | EReply x, EReply y => String.eqb x y
  | EClose c None, EClose d None => Z.eqb c d
  | EClose c (Some e), EClose d (Some f) => Z.eqb c d && gerr_eqb e f
  | EOp i t x, EOp j u y => operr_eqb i j && String.eqb t u && Bool.eqb x y
  | _, _ => false
  end.
