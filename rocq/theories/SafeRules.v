(** * SafeRules.v : what goroutines hold and know, the rules of the operations
    for it, and the global invariant.  Used for C45 (no panics). *)
From Coq Require Import ZArith.
From stdpp Require Import gmap strings list relations.
From RecordUpdate Require Import RecordUpdate.
From Verif Require Import Go Errors Message World Lang Code Sem Logic Spec_App.

(** Things a goroutine can hold. *)
Inductive tok : Type :=
| KNsW (c : cid) | KNsR (c : cid)    (* connectedNamespacesMutex *)
| KRmW (i : nat) | KRmR (i : nat)    (* roomsMutex of a NSConn *)
| KB                                 (* the mutex of the broadcaster *)
| KCloseCh (c : cid)                 (* has won Close, has not closed closeCh yet *)
| KSet (c : cid)                     (* knows that the gate of [c] is ready *)
| KGate (c : cid)                    (* must close the gate's channel *)
| KStart (p : pid) | KDone (p : pid) (* between Start and Done of a process; has won Done *)
| KSwap (g : nat).                   (* must close the broadcaster's channel [g] *)
#[export] Instance tok_eq_dec : EqDecision tok.
Proof. solve_decision. Defined.

(** Is it the goroutine that makes a connection, or its reader? *)
Inductive crole : Type := RNone | RMk (c : cid) | RRd (c : cid) (phase : nat).

(** The knowledge is a set of existing connections and a lower bound of the
    next free address. *)
Record gl : Type := GL { stk : list tok; role : crole; kd : gset cid; kx : nat }.
Definition with_stk (s : list tok) (l : gl) : gl := GL s (role l) (kd l) (kx l).
Definition push (k : tok) (l : gl) : gl := with_stk (k :: stk l) l.
Definition with_role (r : crole) (l : gl) : gl := GL (stk l) r (kd l) (kx l).

(** [l'] knows at least as much and holds the same. *)
Definition le (l l' : gl) : Prop :=
  stk l' = stk l /\ role l' = role l /\ kd l ⊆ kd l' /\ kx l <= kx l'.
Infix "⊑" := le (at level 70).
Definition vc (l : gl) (c : cid) : Prop := c ∈ kd l.
Definition vn (l : gl) (n : nsref) : Prop := n_conn n ∈ kd l /\ n_id n < kx l.
Definition vp (l : gl) (p : pid) : Prop := p < kx l.

Section rules.
Context (G : cfg) (con : bool).

(** After the operation the goroutine knows more and holds the same. *)
Definition more {R} (l : gl) (P : R -> gl -> Prop) : Prop := forall r l', l ⊑ l' -> P r l'.
(** ... and something about the result. *)
Definition moref {R} (l : gl) (F : R -> gl -> Prop) (P : R -> gl -> Prop) : Prop :=
  forall r l', l ⊑ l' -> F r l' -> P r l'.
(** It takes a token, or gives its newest one back. *)
Definition take {R} (k : tok) (l : gl) (P : R -> gl -> Prop) : Prop := forall r l', l ⊑ l' -> P r (push k l').
Definition give {R} (k : tok) (l : gl) (P : R -> gl -> Prop) : Prop :=
  exists s, stk l = k :: s /\ forall r l', l ⊑ l' -> P r (with_stk s l').

Definition spawn_pre (l : gl) (c : tcode) : Prop :=
  match c with
  | TReadNext c _ | TDisconnect c | TWaitMessages c => vc l c
  | _ => False
  end.

Definition rule (l : gl) (o : op) : (res o -> gl -> Prop) -> Prop :=
  match o as o return (res o -> gl -> Prop) -> Prop with
  | ONsLock c => fun P => vc l c /\ take (KNsW c) l P
  | ONsUnlock c => fun P => vc l c /\ give (KNsW c) l P
  | ONsRLock c => fun P => vc l c /\ take (KNsR c) l P
  | ONsRUnlock c => fun P => vc l c /\ give (KNsR c) l P
  | OGetNs c name => fun P => vc l c /\ moref l (fun r l' =>
      match r with Some n => vn l' n | None => name = "" -> onlyNative G c = false end) P
  | OSetNs c name n => fun P => vc l c /\ vn l n /\ more l P
  | ODelNs c name => fun P => vc l c /\ onlyNative G c = false /\ more l P
  | ONsRange c => fun P => vc l c /\ moref l (fun r l' => Forall (fun e => vn l' (snd e)) r) P
  | ONewNs c name => fun P => vc l c /\ moref l (fun r l' => vn l' r /\ n_conn r = c /\ n_name r = name) P
  | ORoomLock n => fun P => vn l n /\ take (KRmW (n_id n)) l P
  | ORoomUnlock n => fun P => vn l n /\ give (KRmW (n_id n)) l P
  | ORoomRLock n => fun P => vn l n /\ take (KRmR (n_id n)) l P
  | ORoomRUnlock n => fun P => vn l n /\ give (KRmR (n_id n)) l P
  | OHasRoom n _ | OAddRoom n _ | ODelRoom n _ | ORoomRange n => fun P => vn l n /\ more l P
  | OWReady c => fun P => vc l c /\
      (more l P \/
       (* the reader, about to wait (server) or about to open the gate (client) *)
       (role l = RRd c 0 /\ forall l', l ⊑ l' -> P true l' /\ P false (with_role (RRd c 1) l')))
  | OWErr c => fun P => vc l c /\ moref l (fun r _ => err_ok r = true) P
  | OWSetErr c e => fun P => vc l c /\ err_ok e = true /\ more l P
  | OWSetReady c => fun P => vc l c /\
      if g_client G c then role l = RRd c 1 /\ forall r l', l ⊑ l' -> P r (with_role (RRd c 3) l')
      else take (KSet c) l P
  | OWCasLock c => fun P => vc l c /\
      if g_client G c then more l P
      else role l = RRd c 1 /\ forall l', l ⊑ l' -> P true (with_role (RRd c 2) l')
  | OWCasUnlock c => fun P => vc l c /\
      if g_client G c then role l = RRd c 3 /\ forall l', l ⊑ l' -> P true l' /\ P false (with_role (RRd c 0) l')
      else exists s, stk l = KSet c :: s /\ forall l', l ⊑ l' -> P true (with_stk (KGate c :: s) l') /\ P false (with_stk s l')
  | OWClose c => fun P => vc l c /\
      if g_client G c then role l = RRd c 3 /\ forall r l', l ⊑ l' -> P r (with_role (RRd c 0) l')
      else give (KGate c) l P
  | OWRecv c => fun P => vc l c /\
      if g_client G c then more l P
      else role l = RRd c 2 /\ forall r l', l ⊑ l' -> P r (with_role (RRd c 0) l')
  | OProcGet c _ => fun P => vc l c /\ moref l (fun r l' => match r with Some p => vp l' p | None => True end) P
  | OProcNew c _ => fun P => vc l c /\ moref l (fun r l' => vp l' r) P
  | OProcAdd p => fun P => con = true /\ vp l p /\ take (KStart p) l P
  | OProcDoneCas p => fun P => vp l p /\
      exists s, stk l = KStart p :: s /\ forall l', l ⊑ l' -> P true (with_stk (KDone p :: s) l') /\ P false (with_stk s l')
  | OProcDone p => fun P => vp l p /\ give (KDone p) l P
  | OProcIsDone p => fun P => vp l p /\ more l P
  | OProcWait p => fun P => vp l p /\ moref l (fun r _ => con = false -> r = None) P
  | OProcWoken p _ => fun P => vp l p /\ con = true /\ more l P
  | OWaitPut c _ _ | OWaitDel c _ | OWaitGet c _ | OWaitClear c => fun P => vc l c /\ more l P
  | OSWaitPut _ _ | OSWaitDel _ | OSWaitGet _ | ONewChan _ => fun P => more l P
  | OChSend _ m => fun P => msg_ok m = true /\ more l P
  | OChSent _ _ => fun P => more l P
  | OSelect _ _ => fun P => moref l (fun r _ => match r with inl e => has_text e = true | inr m => msg_ok m = true end) P
  | OCtxLate _ => fun P => more l P
  | OCtxErr _ => fun P => moref l (fun r _ => err_ok r = true) P
  | OIsAcked c | OSetAcked c _ | OIsInside c | OSetInside c _ | OIsClosed c | OGetId c | OSetId c _
  | OStoreGet c _ | OStoreSet c _ _ | OSockWrite c _ _ | OSockClose c
  | OQPush c _ _ | OQRange c | OQDel c _ => fun P => vc l c /\ more l P
  | OCasClosed c => fun P => vc l c /\ forall l', l ⊑ l' -> P true (push (KCloseCh c) l') /\ P false l'
  | OCloseCh c => fun P => vc l c /\ give (KCloseCh c) l P
  | ORead c => fun P => vc l c /\ moref l (fun r _ => match r with inl e => has_text e = true | inr _ => True end) P
  | OSClosedLoad | OSClosedCas | OSClosedReset | OActSend _ _ | OActAccepted _ | OActWait _ | OActDone _
  | OBcAccepted _ | OSCount | OSCountAdd _ | OBAwaiter | ONow | OSleep | OLog _ => fun P => more l P
  | OSConnSend c | OSDiscSend c | OSAdd c | OSMem c | OSDel c => fun P => vc l c /\ more l P
  | OBcSend msgs => fun P => forallb msg_ok msgs = true /\ more l P
  | OSrvSelect => fun P => moref l (fun r l' =>
      match r with SConnect c | SDisconnect c => vc l' c | SBroadcast msgs => forallb msg_ok msgs = true | SAction _ => True end) P
  | OSRange => fun P => moref l (fun r l' => Forall (vc l') r) P
  | OBLock => fun P => take KB l P
  | OBUnlock => fun P => give KB l P
  | OBSet msgs => fun P => forallb msg_ok msgs = true /\ more l P
  | OBGet => fun P => moref l (fun r _ => forallb msg_ok r = true) P
  | OBSwap => fun P => forall r l', l ⊑ l' -> P r (push (KSwap r) l')
  | OBClose g => fun P => give (KSwap g) l P
  | OBSelect _ c => fun P => vc l c /\ more l P
  | ONewConn c _ native => fun P => native = onlyNative G c /\ role l = RNone /\
      forall r l', l ⊑ l' -> vc l' c -> P r (with_role (RMk c) l')
  | OSpawn (TReader c) => fun P => role l = RMk c /\ forall r l', l ⊑ l' -> P r (with_role RNone l')
  | OSpawn code => fun P => spawn_pre l code /\ more l P
  end.

(** Calls keep the tokens. *)
Definition cpre (_ : gl) (a : api) : Prop := careful G a /\ (con = false -> no_connect a).
Definition cpost (l : gl) (a : api) (r : ares a) (l' : gl) : Prop := l ⊑ l' /\ res_ok a r = true.

Definition crash (why : string) : Prop :=
  con = true /\ why = "sync: WaitGroup is reused before previous Wait has returned".

Definition start (c : tcode) (l : gl) : Prop :=
  stk l = [] /\
  match c with
  | TReader c | TReaderLoop c => role l = RRd c 0 /\ vc l c
  | TReadNext c _ | TDisconnect c | TWaitMessages c => role l = RNone /\ vc l c
  | TUpgrade c => role l = RNone /\ g_client G c = false
  | TDial c => role l = RNone /\ g_client G c = true
  | _ => role l = RNone
  end.

Definition safe : lspec := {|
  ls_L := gl; ls_rule := rule; ls_cpre := cpre; ls_cpost := cpost; ls_crash := crash;
  ls_start := start; ls_fin := fun l => stk l = [] |}.

(** ** The invariant *)

Fixpoint cnt (k : tok) (s : list tok) : nat :=
  match s with [] => 0 | x :: s' => (if decide (x = k) then 1 else 0) + cnt k s' end.
Definition hold (Ls : gmap tid gl) (t : tid) (k : tok) : nat :=
  match Ls !! t with Some l => cnt k (stk l) | None => 0 end.
Definition rl (Ls : gmap tid gl) (t : tid) : crole :=
  match Ls !! t with Some l => role l | None => RNone end.
Definition excl (Ls : gmap tid gl) (k : tok) : Prop :=
  (forall t, hold Ls t k <= 1) /\ forall t t', hold Ls t k <> 0 -> hold Ls t' k <> 0 -> t = t'.
Fixpoint times (t : tid) (l : list tid) : nat :=
  match l with [] => 0 | x :: l' => (if decide (x = t) then 1 else 0) + times t l' end.

Definition lock_ok (Ls : gmap tid gl) (mu : rwlock) (W R : tok) : Prop :=
  (forall t, hold Ls t W = if decide (rw_writer mu = Some t) then 1 else 0) /\
  (forall t, hold Ls t R = times t (rw_readers mu)) /\
  (rw_writer mu <> None -> rw_readers mu = []).
Definition mu_of (w : world) (i : nat) : rwlock :=
  match w_nss w !! i with Some o => o_mu o | None => rw0 end.

(** Goroutine [t] makes connection [c] or is its reader. *)
Definition owns (r : crole) (c : cid) : Prop :=
  match r with RNone => False | RMk c' | RRd c' _ => c' = c end.
Definition early (r : crole) (c : cid) : Prop := r = RMk c \/ r = RRd c 0.

(** Reader goroutines of [c] that are started but not scheduled yet. *)
Fixpoint nrd (c : cid) (l : list tcode) : nat :=
  match l with
  | [] => 0
  | TReader c' :: l' => (if decide (c' = c) then 1 else 0) + nrd c l'
  | _ :: l' => nrd c l'
  end.

Record gate_ok (w : world) (Ls : gmap tid gl) (c : cid) : Prop := GateOk {
  gt_closed : w_chclosed (c_wait (conn_of w c)) = true -> w_ready (c_wait (conn_of w c)) = true;
  gt_set : forall t, hold Ls t (KSet c) <> 0 -> w_ready (c_wait (conn_of w c)) = true;
  gt_gate : forall t, hold Ls t (KGate c) <> 0 -> g_client G c = false /\ w_ready (c_wait (conn_of w c)) = true /\
    w_locked (c_wait (conn_of w c)) = false /\ w_chclosed (c_wait (conn_of w c)) = false;
  gt_excl : excl Ls (KGate c);
  gt_locked : g_client G c = false -> w_locked (c_wait (conn_of w c)) = true -> w_chclosed (c_wait (conn_of w c)) = false;
  gt_early : g_client G c = false ->
    (exists t, early (rl Ls t) c) \/ nrd c (w_spawn w) <> 0 \/ c ∉ dom (w_conns w) ->
    w_ready (c_wait (conn_of w c)) = true \/ w_locked (c_wait (conn_of w c)) = false;
  gt_one : forall t, rl Ls t = RRd c 1 ->
    if g_client G c then w_ready (c_wait (conn_of w c)) = false
    else w_locked (c_wait (conn_of w c)) = false /\ w_chclosed (c_wait (conn_of w c)) = false /\ forall t', hold Ls t' (KGate c) = 0;
  gt_three : forall t, rl Ls t = RRd c 3 -> g_client G c = true /\
    w_ready (c_wait (conn_of w c)) = true /\ w_chclosed (c_wait (conn_of w c)) = false }.

Record proc_ok (w : world) (Ls : gmap tid gl) (p : pid) : Prop := ProcOk {
  pr_excl : excl Ls (KDone p);
  pr_done : forall t, hold Ls t (KDone p) <> 0 -> p_done (proc_of w p) = true /\ p_count (proc_of w p) <> 0;
  pr_start : forall t, hold Ls t (KStart p) <> 0 -> p_done (proc_of w p) = false -> p_count (proc_of w p) <> 0;
  pr_old : forall t, hold Ls t (KDone p) <> 0 \/ hold Ls t (KStart p) <> 0 -> p < w_next w;
  pr_none : con = false -> p_count (proc_of w p) = 0 }.

Definition there (w : world) (c : cid) : Prop := c ∈ dom (w_conns w).
Definition code_there (w : world) (c : tcode) : Prop :=
  match c with
  | TReader c | TReadNext c _ | TDisconnect c | TWaitMessages c => there w c
  | _ => False
  end.

(** The part without goroutines: references lead to objects that exist, errors
    have a text. *)
Record Base (w : world) : Prop := MkBase {
  i_nss : forall c name n, c_nss (conn_of w c) !! name = Some n -> there w (n_conn n) /\ n_id n < w_next w;
  i_nsdom : forall i o, w_nss w !! i = Some o -> i < w_next w;
  i_procs : forall c name p, c_procs (conn_of w c) !! name = Some p -> p < w_next w;
  i_native : forall c, onlyNative G c = true -> there w c -> c_nss (conn_of w c) !! "" <> None;
  i_msgs : forallb msg_ok (b_msgs (w_srv w)) = true;
  i_bcast : Forall (fun b => forallb msg_ok b = true) (s_bcast (w_srv w));
  i_bufs : forall ch, forallb msg_ok (ch_buf (chan_of w ch)) = true;
  i_gerr : forall c, err_ok (w_err (c_wait (conn_of w c))) = true;
  i_ends : forall c, err_ok (c_inend (conn_of w c)) = true;
  i_ctxs : forall k x, w_ctxs w !! k = Some x -> err_ok (x_done x) = true;
  i_connbuf : Forall (there w) (s_connbuf (w_srv w));
  i_disc : Forall (there w) (s_disc (w_srv w));
  i_conns : forall c, c ∈ s_conns (w_srv w) -> there w c;
  i_spawn : Forall (code_there w) (w_spawn w) }.

(** The part about goroutines. *)
Record Ghost (w : world) (Ls : gmap tid gl) : Prop := MkGhost {
  i_know : forall t l, Ls !! t = Some l -> kd l ⊆ dom (w_conns w) /\ kx l <= w_next w;
  i_nsmu : forall c, lock_ok Ls (c_nsmu (conn_of w c)) (KNsW c) (KNsR c);
  i_room : forall i, lock_ok Ls (mu_of w i) (KRmW i) (KRmR i);
  i_b : forall t, hold Ls t KB = if decide (b_mu (w_srv w) = Some t) then 1 else 0;
  i_close : forall c, excl Ls (KCloseCh c) /\
    (forall t, hold Ls t (KCloseCh c) <> 0 -> c_closed (conn_of w c) = true /\ c_closeCh (conn_of w c) = false) /\
    (c_closeCh (conn_of w c) = true -> c_closed (conn_of w c) = true);
  i_swap : forall g, excl Ls (KSwap g) /\
    (forall t, hold Ls t (KSwap g) <> 0 -> g < b_gen (w_srv w) /\ g ∉ b_closed (w_srv w)) /\
    (g ∈ b_closed (w_srv w) -> g < b_gen (w_srv w));
  i_gate : forall c, gate_ok w Ls c;
  i_proc : forall p, proc_ok w Ls p;
  i_one : forall t t' c, owns (rl Ls t) c -> owns (rl Ls t') c -> t = t';
  i_mk : forall t c, owns (rl Ls t) c -> there w c /\ nrd c (w_spawn w) = 0;
  i_readers : forall c, nrd c (w_spawn w) <= 1 }.

Definition Inv (w : world) (Ls : gmap tid gl) : Prop := Base w /\ Ghost w Ls.

End rules.
