(** * Spec_Forge.v : the three events that tell a callback what has happened (C71). *)
From stdpp Require Import gmap strings list.
From Verif Require Import Go Errors Message World Lang Code Sem Spec_App.

(** event.go:17-38.  OnNamespaceConnected, OnRoomJoined and OnRoomLeft report
    what has happened; the four others that concern membership ask for it. *)
Definition reports (ev : string) : Prop := ev = OnNamespaceConnected \/ ev = OnRoomJoined \/ ev = OnRoomLeft.

(** The rooms of namespace [ns] that connection [c] is in, if it is in the namespace. *)
Definition rooms_in (w : world) (c : cid) (ns : string) : option (gset string) :=
  (fun n => o_rooms (ns_of w n)) <$> c_nss (conn_of w c) !! ns.

(** Some callback was called for connection [c] because of event [ev] about [room] of [ns]. *)
Definition called (w : world) (c : cid) (ev ns room : string) : Prop :=
  exists n key m, LFire n key m ∈ w_log w /\ n_conn n = c /\ m_event m = ev /\ m_namespace m = ns /\ m_room m = room.

(** The application refuses [ev] in [ns]: the callback returns an error and does nothing else. *)
Definition refuses_all (G : cfg) (c : cid) (ns ev : string) : Prop :=
  exists evs h, g_namespaces G c !! ns = Some evs /\ evs !! ev = Some h /\ forall n m, exists e, h n m = Ret (Some e).
