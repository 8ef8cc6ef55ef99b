(** * Spec_Mix.v : an Ask of one goroutine and a callback of another (C72). *)
From stdpp Require Import gmap strings list.
From Verif Require Import Go Errors Message World Lang Code Sem Spec_App.

(** No callback of the application uses the API. *)
Definition silent_callbacks (G : cfg) : Prop :=
  forall c ns evs ev h n m, g_namespaces G c !! ns = Some evs -> evs !! ev = Some h -> h n m = Ret None.

(** A callback was called for an event with this body. *)
Definition handed_over (w : world) (c : cid) (body : string) : Prop :=
  exists n key m, LFire n key m ∈ w_log w /\ n_conn n = c /\ m_body m = body.
