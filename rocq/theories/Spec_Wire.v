(** * Spec_Wire.v : what the wire theorems talk about, independent of the model. *)
From Coq Require Import String Ascii List NArith ZArith Bool.
From Verif Require Import Go Errors Message.
Import ListNotations.
Local Open Scope string_scope.

(** [sub] occurs somewhere in [s]. *)
Definition contains (sub s : string) : Prop := exists a b, s = a ++ sub ++ b.

(** How often the byte [c] occurs in [s]. *)
Fixpoint count_char (c : ascii) (s : string) : nat :=
  match s with
  | EmptyString => 0
  | String d s' => (if Ascii.eqb d c then 1 else 0) + count_char c s'
  end.

(** No field separator inside. *)
Definition no_semicolon (s : string) : Prop := count_char ";" s = 0.

(** Names that survive the wire. *)
Definition safe_name (s : string) : Prop :=
  ~ contains "@%!semicolon@%!" s /\ ~ contains "@%!semicolon;" s.

(** The two reserved forms of the first field: the explicit ID of a server
    connection and the stack exchange mark in second position. *)
Definition reserved_token (w : string) : Prop :=
  (exists r, w = "neffos(0x" ++ r) \/
  (exists c d r, w = String c (String "!" (String d r))).

(** A wait token that can travel in the first field. *)
Definition good_token (w : string) : Prop := no_semicolon w /\ ~ reserved_token w.

(** The error value that the receiver of an error text gets: the first known
    error that accepts the text, or a new error. *)
Inductive resolves (ks : list known) (text : string) : gerr -> Prop :=
| resolves_known pre k post :
    ks = (pre ++ k :: post)%list ->
    (forall k', In k' pre -> known_matches text k' = false) ->
    known_matches text k = true ->
    resolves ks text (k_err k)
| resolves_new :
    (forall k', In k' ks -> known_matches text k' = false) ->
    resolves ks text (ENew text).

(** What a message (its body and error) means for its receiver: a body, or an
    error value. *)
Inductive delivered (ks : list known) (body : string) : option gerr -> string -> option gerr -> Prop :=
| del_plain : delivered ks body None body None
| del_reply b : delivered ks body (Some (EReply b)) b None
| del_error e t e' :
    (forall b, e <> EReply b) -> err_text e = Ok t -> t <> "" -> resolves ks t e' ->
    delivered ks body (Some e) "" (Some e').

(** A CloseError that has, possibly nested, no inner error: its text cannot be
    computed. *)
Inductive nil_close_error : gerr -> Prop :=
| nce_here c : nil_close_error (EClose c None)
| nce_inner c e : nil_close_error e -> nil_close_error (EClose c (Some e)).

(** A frame as a sequence of seven fields. *)
Definition is_frame (b : string) (w n r e x y rest : string) : Prop :=
  b = w ++ ";" ++ n ++ ";" ++ r ++ ";" ++ e ++ ";" ++ x ++ ";" ++ y ++ ";" ++ rest /\
  no_semicolon w /\ no_semicolon n /\ no_semicolon r /\ no_semicolon e /\
  no_semicolon x /\ no_semicolon y.

(** The raw native message case of a sender. *)
Definition sent_raw (m : message) : Prop := m_isNative m = true /\ m_wait m = "".
