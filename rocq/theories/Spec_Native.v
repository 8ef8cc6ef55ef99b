(** * Spec_Native.v : connections that exchange native messages only (C75). *)
From stdpp Require Import gmap strings list.
From Verif Require Import Go Errors Message World Lang Code Sem Spec_Conn Spec_View.

(** The application declares nothing but one callback [h] for native messages. *)
Definition natives_only (G : cfg) (c : cid) (h : handler) : Prop :=
  g_namespaces G c = {["" := {[OnNativeMessage := h]}]}.

(** An undisturbed connection past its handshake, with its only NSConn [n]. *)
Definition native_ready (G : cfg) (w : world) (c : cid) (n : nsref) : Prop :=
  quiet G w c /\ c_acked (conn_of w c) = true /\ c_nss (conn_of w c) !! "" = Some n.

(** What the callback is given for a frame: its bytes as the body, and whether they were binary. *)
Definition native_of (f : mtype * string) : message :=
  set_setBinary (match fst f with BinaryMessage => true | TextMessage => false end)
    (set_isNative true (set_event OnNativeMessage (set_body (snd f) no_message))).

(** [k] times around the loop of the reader (conn.go:320-346), as long as it goes on. *)
Fixpoint rounds (k : nat) (p : prog bool) : prog bool :=
  match k with
  | O => Ret true
  | S k => let! go := p in if go then rounds k p else Ret false
  end.
