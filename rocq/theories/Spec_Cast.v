(** * Spec_Cast.v : vocabulary of the broadcast properties. *)
From Coq Require Import ZArith Ascii.
From stdpp Require Import gmap strings list relations.
From Verif Require Import Go Errors Message World Lang Code Sem Spec_Conn Spec_View.

(** A broadcast message is meant for connections with another ID than the one
    it comes from and, if it names a recipient, with that ID. *)
Definition meant (id : string) (m : message) : Prop :=
  m_from m <> id /\ (m_to m = "" \/ m_to m = id).

(** The errors put into messages have a text (see C07). *)
Definition speakable (m : message) : Prop :=
  match m_err m with None => True | Some e => exists text, err_text e = Ok text end.

(** A pointer as Go prints it: 0x and digits without the letter x. *)
Fixpoint no_x (s : string) : Prop :=
  match s with EmptyString => True | String a s' => a <> "x"%char /\ no_x s' end.
Definition pointer (s : string) : Prop := exists h, s = ("0x" ++ h)%string /\ no_x h.

(** Distinct connections are distinct objects, with distinct addresses. *)
Definition addresses (G : cfg) : Prop :=
  (forall c, pointer (g_ptr G c)) /\ forall c c', g_ptr G c = g_ptr G c' -> c = c'.

(** Program [p] of goroutine [t], run without interruption from [w], ends or
    stops at a blocking operation with world [w1]. *)
Definition gets_to {A} (t : tid) (p : prog A) (w w1 : world) : Prop :=
  match exec t p w with
  | XDone w' _ => w1 = w'
  | XBlocked w' _ _ => w1 = w'
  | _ => False
  end.

(** The asynchronous broadcaster is between two broadcasts. *)
Definition caster_free (w : world) : Prop :=
  b_mu (w_srv w) = None /\ b_gen (w_srv w) ∉ b_closed (w_srv w).

(** The rules of Write (C18) for a message without explicit sender. *)
Definition passes (rooms : gmap string (gset string)) (m : message) : Prop :=
  sendable "" rooms (set_fromExplicit "" m).

(** From [w] to [w1] the batch was handed over for distribution: to the
    StackExchange, to the server loop, or to the asynchronous broadcaster. *)
Definition handed_over (G : cfg) (batch : list message) (w w1 : world) : Prop :=
  match g_exch G with
  | Some _ => w_log w1 = LExch (XPublish batch) :: w_log w
  | None =>
      if g_sync G then s_bcast (w_srv w1) = s_bcast (w_srv w) ++ [batch]
      else b_msgs (w_srv w1) = batch
  end.
