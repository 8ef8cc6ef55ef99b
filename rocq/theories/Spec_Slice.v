(** * Spec_Slice.v : C81, senders and fresh messages. *)
From stdpp Require Import strings list.
From Verif Require Import Go Errors Message World Lang Code.

(** A sender that is the connection [c] or one of its NSConn values. *)
Definition is_connection (c : cid) (s : sender) : Prop :=
  s = SendConn c \/ exists n, s = SendNS n /\ n_conn n = c.

(** A message as an application makes it: nobody is excluded yet. *)
Definition fresh (m : message) : Prop := m_from m = "" /\ m_fromExplicit m = "".
