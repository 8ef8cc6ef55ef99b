(** * Sem.v : executions.

    A system is a world and a set of goroutines.  One step of the system is one
    atomic operation of one goroutine, the start of a goroutine, or an action
    of the environment (network, clock, contexts, the application starting a
    goroutine).  Any interleaving is possible. *)
From Coq Require Import ZArith.
From stdpp Require Import gmap strings list relations.
From RecordUpdate Require Import RecordUpdate.
From Verif Require Import Go Errors Message World Lang Code.

(** ** References held by application code always denote existing objects. *)
Definition nsref_eqb (a b : nsref) : bool :=
  Nat.eqb (n_conn a) (n_conn b) && String.eqb (n_name a) (n_name b) && Nat.eqb (n_id a) (n_id b).
Definition valid_conn (w : world) (c : cid) : bool :=
  match w_conns w !! c with Some _ => true | None => false end.
Definition valid_ns (w : world) (n : nsref) : bool :=
  valid_conn w (n_conn n) &&
  match w_nss w !! n_id n with Some o => nsref_eqb (o_ref o) n | None => false end.
Definition valid_ons (w : world) (n : option nsref) : bool :=
  match n with Some n => valid_ns w n | None => true end.
Definition valid_sender (w : world) (s : option sender) : bool :=
  match s with
  | None | Some (SendExclude _) => true
  | Some (SendConn c) => valid_conn w c
  | Some (SendNS n) | Some (SendRoom n) => valid_ns w n
  end.
Definition valid_api (w : world) (a : api) : bool :=
  match a with
  | AConnect c _ _ | AConnectLoop c _ _ _ | ANamespace c _ | ADisconnectAll c _ | AWrite c _
  | AAsk c _ _ | AClose c | AIsClosed c | AGetID c | ASet c _ _ | AGet c _ | AIncrement c _
  | ADecrement c _ | AHandlePayload c _ _ => valid_conn w c
  | AWaitConnect c _ _ cur => valid_conn w c && valid_ons w cur
  | AEmit n _ _ | AEmitBinary n _ _ | ANSAsk n _ _ _ | AJoinRoom n _ _ | ARoom n _ | ARooms n
  | ALeaveAll n _ | ADisconnect n _ | ANSBroadcast n _ _ => valid_ons w n
  | ARoomEmit n _ _ _ | ARoomLeave n _ _ => valid_ns w n
  | ABroadcast e _ => valid_sender w e
  | _ => true
  end.

(** ** Systems *)
Record sys : Type := Sys {
  s_w : world;
  s_th : gmap tid (prog (option tcode));
  s_next : tid;
  s_crash : option string }.

(** What the environment may do. *)
Inductive env : Type :=
| EDeliver (c : cid) (typ : mtype) (b : string)  (* a frame arrives *)
| EReadEnd (c : cid) (e : gerr)                  (* no more frames: reads fail with [e] *)
| EWriteFail (c : cid) (e : gerr)                (* writes fail with [e] from now on *)
| ETick (d : nat)                                (* time passes *)
| ECtxNew (k : nat) (deadline : option Z)        (* the application makes a context *)
| ECtxDone (k : nat) (e : gerr)                  (* a context is done *)
| ESeeds (l : list nat)                          (* the runtime's choices *)
| EGo (code : tcode).                            (* the application or net/http starts a goroutine *)

Inductive action : Type :=
| Step (t : tid)      (* goroutine [t] makes one step *)
| Start               (* the oldest [go] statement takes effect *)
| Env (e : env).

(** Only these goroutines are started from outside.  Upgrade makes server-side
    connections, Dial client-side ones. *)
Definition startable (G : cfg) (code : tcode) : bool :=
  match code with
  | TUser _ => true
  | TUpgrade c => negb (g_client G c)
  | TDial c => g_client G c
  | _ => false
  end.

(** The errors of the network and of contexts have a text (they are not a
    neffos CloseError without inner error, whose Error method panics). *)
Definition has_text (e : gerr) : bool := match err_text e with Ok _ => true | Panic _ => false end.
Definition env_ok (e : env) : bool :=
  match e with
  | EReadEnd _ err | EWriteFail _ err | ECtxDone _ err => has_text err
  | _ => true
  end.

Definition env_step (e : env) (w : world) : world :=
  match e with
  | EDeliver c typ b =>
      match w_conns w !! c with
      | Some k => match c_inend k with
                  | None => upd_conn c (fun k => k <| c_in ::= fun l => l ++ [(typ, b)] |> <| c_got ::= fun l => l ++ [(typ, b)] |>) w
                  | Some _ => w
                  end
      | None => w
      end
  | EReadEnd c err =>
      match w_conns w !! c with
      | Some k => match c_inend k with
                  | None => upd_conn c (fun k => k <| c_inend := Some err |>) w
                  | Some _ => w
                  end
      | None => w
      end
  | EWriteFail c err =>
      match w_conns w !! c with
      | Some _ => upd_conn c (fun k => k <| c_wfail := Some err |>) w
      | None => w
      end
  | ETick d => w <| w_now ::= fun z => (z + Z.of_nat d)%Z |>
  | ECtxNew k d =>
      match w_ctxs w !! k with
      | None => w <| w_ctxs ::= <[k := Ctxt None d]> |>
      | Some _ => w
      end
  | ECtxDone k err =>
      match w_ctxs w !! k with
      | Some x => match x_done x with
                  | None => w <| w_ctxs ::= <[k := x <| x_done := Some err |>]> |>
                  | Some _ => w
                  end
      | None => w
      end
  | ESeeds l => w <| w_seeds := l |>
  | EGo _ => w
  end.

Section sem.
Variable G : cfg.

(** One step of a goroutine. *)
Inductive tres : Type :=
| TNext (w : world) (p : prog (option tcode))
| TDone (w : world)
| TBlocked
| TPanic (why : string).

Definition tstep (t : tid) (w : world) (p : prog (option tcode)) : tres :=
  match p with
  | Ret None => TDone w
  | Ret (Some c) => TNext w (code G c)
  | Do o k => match ostep t w o with
              | Goes w' r => TNext w' (k r)
              | Blocked => TBlocked
              | Panics why => TPanic why
              end
  | Call a k => if valid_api w a then TNext w (bind (impl G a) k) else TBlocked
  | Crash why => TPanic why
  end.

Definition spawn (c : tcode) (s : sys) : sys :=
  Sys (s_w s) (<[s_next s := code G c]> (s_th s)) (S (s_next s)) (s_crash s).

(** One step of the system; [None] if it is not possible. *)
Definition step (a : action) (s : sys) : option sys :=
  match s_crash s with
  | Some _ => None
  | None =>
      match a with
      | Step t =>
          match s_th s !! t with
          | None => None
          | Some p =>
              match tstep t (s_w s) p with
              | TNext w' p' => Some (Sys w' (<[t := p']> (s_th s)) (s_next s) None)
              | TDone w' => Some (Sys w' (delete t (s_th s)) (s_next s) None)
              | TBlocked => None
              | TPanic why => Some (Sys (s_w s) (s_th s) (s_next s) (Some why))
              end
          end
      | Start =>
          match w_spawn (s_w s) with
          | c :: rest => Some (spawn c (Sys (s_w s <| w_spawn := rest |>) (s_th s) (s_next s) None))
          | [] => None
          end
      | Env (EGo c) => if startable G c then Some (spawn c s) else None
      | Env e => if env_ok e then Some (Sys (env_step e (s_w s)) (s_th s) (s_next s) None) else None
      end
  end.

(** The process right after neffos.New (server.go:113-135). *)
Definition init : sys := Sys world0 {[0 := code G TServer]} 1 None.

Definition sstep (s s' : sys) : Prop := exists a, step a s = Some s'.
Definition steps : sys -> sys -> Prop := rtc sstep.
Definition reachable (s : sys) : Prop := steps init s.

(** Executable: a schedule. *)
Fixpoint run (l : list action) (s : sys) : option sys :=
  match l with
  | [] => Some s
  | a :: l' => match step a s with Some s' => run l' s' | None => None end
  end.

(** Run one goroutine until it blocks, ends, or makes [fuel] steps. *)
Fixpoint drive (fuel : nat) (t : tid) (s : sys) : sys :=
  match fuel with
  | O => s
  | S f => match step (Step t) s with Some s' => drive f t s' | None => s end
  end.

End sem.

(** ** Sequential runs: one goroutine alone, no API calls by callbacks. *)
Inductive xout (A : Type) : Type :=
| XDone (w : world) (a : A)
| XBlocked (w : world) (o : op) (k : res o -> prog A)  (* waits at [o], continues with [k] *)
| XCall (w : world) (a : api) (k : ares a -> prog A)
| XPanic (w : world) (why : string).
Arguments XDone {A} w a.
Arguments XBlocked {A} w o k.
Arguments XCall {A} w a k.
Arguments XPanic {A} w why.

Fixpoint exec {A} (t : tid) (p : prog A) (w : world) : xout A :=
  match p with
  | Ret a => XDone w a
  | Do o k => match ostep t w o with
              | Goes w' r => exec t (k r) w'
              | Blocked => XBlocked w o k
              | Panics why => XPanic w why
              end
  | Call a k => XCall w a k
  | Crash why => XPanic w why
  end.
