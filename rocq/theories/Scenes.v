(** * Scenes.v : concrete applications with goroutines of their own, for
    examples and counterexamples. *)
From Coq Require Import ZArith.
From stdpp Require Import gmap strings list relations.
From RecordUpdate Require Import RecordUpdate.
From Verif Require Import Go Errors Message World Lang Code Sem Spec_Conn Spec_View Examples.
From Verif Require Import Spec_App.

(** As in Examples.v: connection 2 is the client side, the others are server
    sides; the callbacks of [exA]; goroutine [k] of the application is [user k]. *)
Definition scene (sync : bool) (user : nat -> prog unit) : cfg := {|
  g_client := fun c => Nat.eqb c 2;
  g_namespaces := fun _ => lift exA;
  g_connid := fun c => "id-1";
  g_uuid := "u";
  g_ptr := fun c => "0x1";
  g_known := knownErrors0;
  g_exch := None;
  g_sync := sync;
  g_firealways := false;
  g_onconnect := None;
  g_ondisconnect := None;
  g_do := fun _ _ => Ret tt;
  g_user := user |}.

Lemma exA_user (allowed : api -> Prop) (ns : string) evs ev (h : handler) n m :
  lift exA !! ns = Some evs -> evs !! ev = Some h -> user_code allowed (h n m).
Proof.
  unfold lift. rewrite lookup_fmap. intros H1 H2. destruct (exA !! ns) as [evs0|] eqn:E1; [|discriminate]. injection H1 as <-.
  rewrite lookup_fmap in H2. destruct (evs0 !! ev) as [f|] eqn:E2; [|discriminate]. injection H2 as <-. exact I.
Qed.
Lemma scene_app allowed sync user : (forall k, user_code allowed (user k)) -> user_app allowed (scene sync user).
Proof.
  intros H. constructor; try discriminate; try (intros; exact I); [|exact H]. intros. eapply exA_user; eassumption.
Qed.
(** One API call, with result ignored. *)
Definition call (a : api) : prog unit := Call a (fun _ => Ret tt).
Definition hello_msg : message := set_body "hi" (set_event "echo" (set_namespace "chat" no_message)).

(** The replies that Asks returned, newest first: token, body, inside a callback. *)
Definition answers (l : list event) : list (string * string * bool) :=
  flat_map (fun e => match e with
    | LAskReply _ tok m inside => [(tok, m_body m, inside)]
    | LServerReply tok m => [(tok, m_body m, false)]
    | _ => [] end) l.
