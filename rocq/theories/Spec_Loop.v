(** * Spec_Loop.v : the server's view of its connections, read off a history.

    The history of a process (most recent event first) records what the server
    loop took up ([LSrv]), the batches offered to connections ([LBatch]), the
    calls of functions passed to Do ([LDo]) and the calls of OnDisconnect
    ([LOnDisconnect]). *)
From Coq Require Import ZArith.
From stdpp Require Import gmap strings list relations.
From Verif Require Import Go Errors Message World Lang Code Sem.

(** The connections that were announced and not yet withdrawn. *)
Fixpoint members (l : list event) : gset cid :=
  match l with
  | [] => ∅
  | LSrv (SConnect c) :: l' => {[c]} ∪ members l'
  | LSrv (SDisconnect c) :: l' => members l' ∖ {[c]}
  | _ :: l' => members l'
  end.

(** The connections that were announced. *)
Fixpoint announced (l : list event) : list cid :=
  match l with
  | [] => []
  | LSrv (SConnect c) :: l' => c :: announced l'
  | _ :: l' => announced l'
  end.

(** The members that were withdrawn, and those OnDisconnect was called with. *)
Fixpoint withdrawn (l : list event) : list cid :=
  match l with
  | [] => []
  | LSrv (SDisconnect c) :: l' => if decide (c ∈ members l') then c :: withdrawn l' else withdrawn l'
  | _ :: l' => withdrawn l'
  end.
Fixpoint told (l : list event) : list cid :=
  match l with
  | [] => []
  | LOnDisconnect c :: l' => c :: told l'
  | _ :: l' => told l'
  end.

(** The broadcasts that were taken up while [c] was a member, and the batches
    that were offered to [c]. *)
Fixpoint casts_for (c : cid) (l : list event) : list (list message) :=
  match l with
  | [] => []
  | LSrv (SBroadcast msgs) :: l' => if decide (c ∈ members l') then msgs :: casts_for c l' else casts_for c l'
  | _ :: l' => casts_for c l'
  end.
Fixpoint offered (c : cid) (l : list event) : list (list message) :=
  match l with
  | [] => []
  | LBatch c' msgs :: l' => if decide (c' = c) then msgs :: offered c l' else offered c l'
  | _ :: l' => offered c l'
  end.

(** The functions passed to Do that were taken up while [c] was a member, and
    those that were called with [c]. *)
Fixpoint dos_for (c : cid) (l : list event) : list nat :=
  match l with
  | [] => []
  | LSrv (SAction (Act (ActUser k) _ _)) :: l' => if decide (c ∈ members l') then k :: dos_for c l' else dos_for c l'
  | _ :: l' => dos_for c l'
  end.
Fixpoint done_for (c : cid) (l : list event) : list nat :=
  match l with
  | [] => []
  | LDo k c' :: l' => if decide (c' = c) then k :: done_for c l' else done_for c l'
  | _ :: l' => done_for c l'
  end.

(** The server loop waits for the next thing to take up. *)
Definition loop_waits (s : sys) : Prop := exists k, s_th s !! (0 : tid) = Some (Do OSrvSelect k).

(** OnDisconnect is set, and called for every connection. *)
Definition always_told (G : cfg) : Prop := g_ondisconnect G <> None /\ g_firealways G = true.

(** What an action did to [c]: a function passed to Do was called, the action
    of Server.Close closed the connection. *)
Definition served (w : world) (since : list event) (a : act) (c : cid) : Prop :=
  match a_fn a with
  | ActUser k => LDo k c ∈ since
  | ActClose => c_closed (conn_of w c) = true
  end.

(** The server loop has started: it waits, or has taken something up. *)
Definition started (s : sys) : Prop := loop_waits s \/ exists y, LSrv y ∈ w_log (s_w s).

(** Between [s] and [s1] the server loop took up an action [f], and [f] was
    done to every connection that was a member at that moment. *)
Definition performed (s s1 : sys) (f : actfn) : Prop :=
  exists i l2 l1, w_log (s_w s1) = l2 ++ LSrv (SAction (Act f true i)) :: l1 /\ (exists l, l1 = l ++ w_log (s_w s)) /\
    forall c, c ∈ members l1 -> served (s_w s1) l2 (Act f true i) c.
