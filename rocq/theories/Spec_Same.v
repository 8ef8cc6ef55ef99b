(** * Spec_Same.v : questions that are asked at the same moment (C76). *)
From stdpp Require Import gmap strings list.
From Verif Require Import Go Errors Message World Lang Code Sem.

(** A goroutine that asks connection 1 about a topic and then tells it what it was told about the topic. *)
Definition question_about (topic : string) : message := set_namespace "chat" (set_event topic no_message).
Definition told_about (topic : string) (m : message) : message := set_body (m_body m) (set_namespace "chat" (set_event ("told about " ++ topic) no_message)).
Definition ask_and_tell (topic : string) : prog unit :=
  Call (AAsk 1 None (question_about topic)) (fun r => Call (AWrite 1 (told_about topic (fst r))) (fun _ => Ret tt)).
