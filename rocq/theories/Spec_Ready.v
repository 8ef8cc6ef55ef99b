(** * Spec_Ready.v : words for the statements about the handshake (C29, C30). *)
From Coq Require Import ZArith Ascii.
From stdpp Require Import gmap strings list relations.
From RecordUpdate Require Import RecordUpdate.
From Verif Require Import Go Errors Message World Lang Code Sem Spec_Conn Spec_View.

(** The application leaves the handling of received data to the library. *)
Definition no_payload (a : api) : Prop := match a with AHandlePayload _ _ _ => False | _ => True end.

(** A frame that is not part of the handshake: it is not empty and does not
    start with one of the three handshake letters. *)
Definition early (b : string) : Prop :=
  match b with
  | EmptyString => False
  | String a _ => a <> "M"%char /\ a <> "A"%char /\ a <> "H"%char
  end.

(** [n] rounds of the reader of [c] (conn.go:324-345); [false] if it stopped. *)
Fixpoint reads (G : cfg) (c : cid) (n : nat) : prog bool :=
  match n with
  | O => Ret true
  | S n' => bind (reader_step G c) (fun go => if go then reads G c n' else Ret false)
  end.

(** The frames of one kind, in their order. *)
Definition is_text (f : mtype * string) : bool := match fst f with TextMessage => true | BinaryMessage => false end.
Definition texts (fs : list (mtype * string)) : list (mtype * string) := filter (fun f => is_text f = true) fs.
Definition binaries (fs : list (mtype * string)) : list (mtype * string) := filter (fun f => is_text f = false) fs.

(** The reference machine (Spec_Conn.v) handles the messages, the first one
    first; whenever rooms are left, they are left in some order. *)
Inductive machine (R : role) (A : app) : list message -> cstate -> cstate -> Prop :=
| machine_nil s : machine R A [] s s
| machine_cons m rest order s s' :
    (forall rs, cs_rooms s !! m_namespace m = Some rs -> Permutation order (elements rs)) ->
    machine R A rest (fst (handle R A order m s)) s' -> machine R A (m :: rest) s s'.

(** A frame arrives at [c]. *)
Definition arrives (c : cid) (f : mtype * string) (w : world) : world := env_step (EDeliver c (fst f) (snd f)) w.

(** A complete handshake, without disturbance: goroutine [ta] calls Dial, which
    makes connection [a], sends one frame and waits; the frame arrives at [b],
    whose reader [tb] answers with the frame [f]; that arrives at [a], whose
    reader [tr] handles it; Dial goes on and returns.  [go] tells if both readers go on. *)
Definition handshake (G : cfg) (a b : cid) (ta tb tr : tid) (w : world) (f : mtype * string) (go : bool) (w4 : world) : Prop :=
  exists k w1 m w2 w3,
    exec ta (Dial G a) w = XBlocked w1 (OWRecv a) k /\ c_out (conn_of w1 a) = [m] /\
    exec tb (reader_step G b) (arrives b m w1) = XDone w2 go /\ c_out (conn_of w2 b) = c_out (conn_of w b) ++ [f] /\
    exec tr (reader_step G a) (arrives a f w2) = XDone w3 go /\
    exec ta (Do (OWRecv a) k) w3 = XDone w4 tt.

(** A server side connection whose handshake has not begun; [v] is the verdict
    of OnConnect (the first result the readiness gate was opened with). *)
Record expecting (G : cfg) (w : world) (b : cid) (v : option gerr) : Prop := Expecting {
  ex_server : g_client G b = false;
  ex_mixed : onlyNative G b = false;
  ex_quiet : quiet G w b;
  ex_verdict : w_err (c_wait (conn_of w b)) = v;
  ex_acked : c_acked (conn_of w b) = false;
  ex_qtext : c_qtext (conn_of w b) = [];
  ex_qbin : c_qbin (conn_of w b) = [];
  ex_in : c_in (conn_of w b) = [];
  ex_inend : c_inend (conn_of w b) = None }.
