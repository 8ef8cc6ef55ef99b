(** * Spec_Self.v : a callback that asks the other side who it is (C77). *)
From stdpp Require Import gmap strings list.
From Verif Require Import Go Errors Message World Lang Code Sem.

(** An application with one namespace and one callback: when the other side says hello, it asks who it is and gives the answer back. *)
Definition who_is_it : handler := fun n m => Call (ANSAsk (Some n) None "who" "") (fun r => Ret (Some (EReply (m_body (fst r))))).
Definition asks_who : gmap string (gmap string handler) := {["chat" := {["hello" := who_is_it]}]}.
