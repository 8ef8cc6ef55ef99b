(** * Spec_View.v : how a world of the model is read as a state of the
    reference machine (Spec_Conn.v), and what an undisturbed connection is. *)
From Coq Require Import ZArith.
From stdpp Require Import gmap strings list relations.
From RecordUpdate Require Import RecordUpdate.
From Verif Require Import Go Errors Message World Lang Code Sem Spec_Conn Spec_Wire.

(** A pure application as callbacks of the model. *)
Definition lift (A : app) : namespaces :=
  (fun evs : gmap string (message -> option gerr) =>
     (fun f : message -> option gerr => (fun (_ : nsref) m => Ret (f m)) : handler) <$> evs) <$> A.

(** What can be seen of connection [c] in a world. *)
Definition fired_of (c : cid) (l : list event) : list (string * string * message) :=
  omap (fun e => match e with
                 | LFire n key m => if Nat.eqb (n_conn n) c then Some (n_name n, key, m) else None
                 | _ => None
                 end) l.
Definition subs_of (c : cid) (l : list event) : list (bool * string) :=
  omap (fun e => match e with
                 | LExch (XSubscribe c' ns) => if Nat.eqb c' c then Some (true, ns) else None
                 | LExch (XUnsubscribe c' ns) => if Nat.eqb c' c then Some (false, ns) else None
                 | _ => None
                 end) l.
Definition view (w : world) (c : cid) : cstate :=
  CState ((fun n => o_rooms (ns_of w n)) <$> c_nss (conn_of w c))
         (c_out (conn_of w c)) (fired_of c (w_log w)) (subs_of c (w_log w)).

Definition role_of (G : cfg) (c : cid) (w : world) : role :=
  Role (g_client G c) (if g_client G c then c_id (conn_of w c) else serverConnID G c)
       (match g_exch G with Some _ => true | None => false end).

(** A connection that is open, whose peer is reachable, whose handshake is
    over and that no other goroutine is using right now. *)
Record quiet_ (G : cfg) (c : cid) (k : conn) (nss : gmap nat nsobj) (next : nat) : Prop := Quiet {
  q_open_ : c_closed k = false;
  q_sock_ : c_sockclosed k = false;
  q_wfail_ : c_wfail k = None;
  q_ready_ : g_client G c = false -> w_ready (c_wait k) = true;
  q_nsmu_ : c_nsmu k = rw0;
  q_ns_ : forall name n, c_nss k !! name = Some n ->
         n_conn n = c /\ n_name n = name /\
         exists o, nss !! n_id n = Some o /\ o_ref o = n /\ o_mu o = rw0;
  q_fresh_ : forall id o, nss !! id = Some o -> id < next }.
Definition quiet (G : cfg) (w : world) (c : cid) : Prop :=
  w_conns w !! c = Some (conn_of w c) /\
  quiet_ G c (conn_of w c) (w_nss w) (w_next w).

(** No Connect of [c] is in progress. *)
Definition idle (w : world) (c : cid) : Prop :=
  forall name p, c_procs (conn_of w c) !! name = Some p ->
    p < w_next w /\ (p_done (proc_of w p) = true \/ p_count (proc_of w p) = 0).

(** Nothing but [c] is touched. *)
Record only (c : cid) (w w' : world) : Prop := Only {
  y_conns : forall c', c' <> c -> w_conns w' !! c' = w_conns w !! c';
  y_log : forall c', c' <> c -> fired_of c' (w_log w') = fired_of c' (w_log w) /\ subs_of c' (w_log w') = subs_of c' (w_log w);
  y_nss : forall id o, w_nss w !! id = Some o -> n_conn (o_ref o) <> c -> w_nss w' !! id = Some o;
  y_srv : w_srv w' = w_srv w;
  y_chans : w_chans w' = w_chans w;
  y_spawn : w_spawn w' = w_spawn w;
  y_id : c_id (conn_of w' c) = c_id (conn_of w c);
  y_waiting : c_waiting (conn_of w' c) = c_waiting (conn_of w c);
  y_acked : c_acked (conn_of w' c) = c_acked (conn_of w c);
  y_closeCh : c_closeCh (conn_of w' c) = c_closeCh (conn_of w c);
  y_inside : c_inside (conn_of w' c) = c_inside (conn_of w c);
  y_ctxs : w_ctxs w' = w_ctxs w;
  y_now : w_now w' = w_now w;
  y_procs : forall p, p < w_next w -> proc_of w' p = proc_of w p;
  y_cprocs : forall name p, c_procs (conn_of w' c) !! name = Some p -> c_procs (conn_of w c) !! name = Some p \/ w_next w <= p;
  y_cprocs' : forall name p, c_procs (conn_of w c) !! name = Some p -> c_procs (conn_of w' c) !! name = Some p;
  y_next : w_next w <= w_next w';
  y_idle : idle w c -> idle w' c }.

(** An application of pure callbacks whose errors have a text (a CloseError
    wraps an error), on a connection that is not in the native-only mode. *)
Record setting (G : cfg) (c : cid) (A : app) : Prop := Setting {
  app_of : g_namespaces G c = lift A;
  app_text : forall ns evs key f m e, A !! ns = Some evs -> evs !! key = Some f -> f m = Some e ->
    exists text, err_text e = Ok text;
  app_mixed : onlyNative G c = false }.

(** Nothing else is going on at connection [c]. *)
Definition calm (G : cfg) (w : world) (c : cid) : Prop := quiet G w c /\ idle w c.

(** Nobody waits for a reply with this token. *)
Definition no_pending (G : cfg) (w : world) (c : cid) (tok : string) : Prop :=
  c_waiting (conn_of w c) !! tok = None /\ (g_client G c = false -> s_waiting (w_srv w) !! tok = None).

(** The message in a frame that [c] receives. *)
Definition received (G : cfg) (c : cid) (typ : mtype) (b : string) : message :=
  DeserializeMessage (g_known G) typ b (allowNative G c) (onlyNative G c).

(** It carries a token of the peer's, or at least it is not a reply that some
    Ask (on this server or, through a StackExchange, on another one) waits for. *)
Definition unasked (G : cfg) (w : world) (c : cid) (m : message) : Prop :=
  IsWait (g_client G c) m = false \/
  no_pending G w c (m_wait m) /\ (m_fromStackExchange m = false \/ g_exch G = None \/ g_client G c = true).

(** What belongs to others than [c] is untouched. *)
Record others (c : cid) (w w' : world) : Prop := Others {
  z_conns : forall c', c' <> c -> w_conns w' !! c' = w_conns w !! c';
  z_log : forall c', c' <> c -> fired_of c' (w_log w') = fired_of c' (w_log w) /\ subs_of c' (w_log w') = subs_of c' (w_log w);
  z_nss : forall id o, w_nss w !! id = Some o -> n_conn (o_ref o) <> c -> w_nss w' !! id = Some o;
  z_procs : forall p, p < w_next w -> (forall name, c_procs (conn_of w c) !! name <> Some p) -> proc_of w' p = proc_of w p;
  z_cprocs : forall name p, c_procs (conn_of w' c) !! name = Some p -> c_procs (conn_of w c) !! name = Some p \/ w_next w <= p;
  z_srv : w_srv w' = w_srv w;
  z_now : w_now w' = w_now w;
  z_ctxs : w_ctxs w' = w_ctxs w;
  z_spawn : w_spawn w' = w_spawn w;
  z_id : c_id (conn_of w' c) = c_id (conn_of w c);
  z_next : w_next w <= w_next w' }.

(** ** Calls that wait for the peer *)

(** The context of a call is neither done nor expired. *)
Definition ctx_live (w : world) (x : ctxref) : Prop :=
  match x with
  | None => True
  | Some k =>
      match w_ctxs w !! k with
      | None => True
      | Some xc => x_done xc = None /\
          match x_deadline xc with Some d => (w_now w - 1000000000 <= d)%Z | None => True end
      end
  end.

(** While a call waits, others may have worked, but the objects it made
    (reachable from no connection yet) and the processes are as they were. *)
Record kept (c : cid) (w w' : world) : Prop := Kept {
  k_nss : forall id o, w_nss w !! id = Some o -> n_conn (o_ref o) = c ->
    (forall name n, c_nss (conn_of w c) !! name = Some n -> n_id n <> id) ->
    w_nss w' !! id = Some o /\ (forall name n, c_nss (conn_of w' c) !! name = Some n -> n_id n <> id);
  k_procs : forall p, p < w_next w -> proc_of w' p = proc_of w p;
  k_cprocs : forall name p, c_procs (conn_of w c) !! name = Some p -> c_procs (conn_of w' c) !! name = Some p;
  k_next : w_next w <= w_next w' }.

(** What the peer's reply, or the context, says. *)
Definition verdict (r : gerr + message) : option gerr :=
  match r with inl e => Some e | inr m => m_err m end.

(** The call waits for the reply with token [tok] in channel [ch]; nothing has
    arrived yet. *)
Definition waits_for (w : world) (c : cid) (tok : string) (ch : chid) : Prop :=
  c_waiting (conn_of w c) !! tok = Some ch /\ w_chans w !! ch = Some (chan0 1).

(** The call [p] made by goroutine [t] sends the request [m] (with a fresh
    token), which leaves the connection in [mid] plus that frame, and waits.
    Whenever the reply or the end of the context comes, [r], [p] ends;
    [post r s2 b s3] relates the connection then, the result and the connection
    at the end.  If the call is about the NSConn [on], that is still connected
    then. *)
Definition asks {B} (G : cfg) (c : cid) (t : tid) (x : ctxref) (on : option nsref) (p : prog B) (w : world)
    (m : message) (mid : cstate) (post : gerr + message -> cstate -> B -> cstate -> Prop) : Prop :=
  exists tok ch w1 k,
    tok = genWait (g_client G c) (w_now w) /\
    exec t p w = XBlocked w1 (OSelect ch x) k /\
    match on with Some n => c_nss (conn_of w1 c) !! n_name n = Some n | None => True end /\
    quiet G w1 c /\ others c w w1 /\ view w1 c = push (wire_of (set_wait tok m)) mid /\ waits_for w1 c tok ch /\
    forall w2 r, quiet G w2 c -> kept c w1 w2 -> c_id (conn_of w2 c) = c_id (conn_of w c) ->
      match on with Some n => c_nss (conn_of w2 c) !! n_name n = Some n | None => True end ->
      select_reply w2 ch x = [r] ->
      exists w3 b, exec t (Do (OSelect ch x) k) w2 = XDone w3 b /\ quiet G w3 c /\ others c w2 w3 /\
        post r (view w2 c) b (view w3 c).

(** ** Two ends of a link *)

(** How the message [m], sent with token [tok] by the peer, arrives at [b]. *)
Definition arrived (G : cfg) (b : cid) (tok : string) (m : message) : message :=
  set_setBinary (m_setBinary m)
  (set_isNative (allowNative G b && String.eqb (m_event m) OnNativeMessage)
  (set_body (m_body m) (set_event (m_event m) (set_room (m_room m)
  (set_namespace (m_namespace m) (set_wait tok no_message)))))).

(** A request as an application makes it: no error, names that survive the wire. *)
Record request (m : message) : Prop := Request {
  rq_err : m_err m = None;
  rq_noop : m_isNoOp m = false;
  rq_ns : safe_name (m_namespace m);
  rq_room : safe_name (m_room m);
  rq_event : safe_name (m_event m) }.

(** One round trip: the call [p] of goroutine [ta] at connection [a] sends one
    frame; goroutine [tb], the reader of [b], handles it and sends one frame;
    goroutine [tr], the reader of [a], handles that; then the call returns [res]. *)
Definition exchange {B} (G : cfg) (a b : cid) (ta tb tr : tid) (p : prog B) (w w4 : world) (res : B) : Prop :=
  exists ch x k w1 f w2 g err w3,
    exec ta p w = XBlocked w1 (OSelect ch x) k /\ cs_sent (view w1 a) = cs_sent (view w a) ++ [f] /\
    exec tb (HandlePayload G b (fst f) (snd f)) w1 = XDone w2 err /\ cs_sent (view w2 b) = cs_sent (view w b) ++ [g] /\
    exec tr (HandlePayload G a (fst g) (snd g)) w2 = XDone w3 None /\
    exec ta (Do (OSelect ch x) k) w3 = XDone w4 res.

(** The two ends share nothing and nobody waits for the token [tok]. *)
Record linked (G : cfg) (a b : cid) (Aa Ab : app) (w : world) (tok : string) : Prop := Linked {
  lk_ne : a <> b;
  lk_a : setting G a Aa;
  lk_b : setting G b Ab;
  lk_calm_a : calm G w a;
  lk_calm_b : calm G w b;
  lk_procs : forall n n' p, c_procs (conn_of w a) !! n = Some p -> c_procs (conn_of w b) !! n' <> Some p;
  lk_free : no_pending G w b tok;
  lk_free' : no_pending G w a tok;
  lk_inside : c_inside (conn_of w a) = false;
  lk_acked : g_client G a = false -> c_acked (conn_of w a) = true }.

(** A verdict that the other end can understand: agreement, or an error that is
    not a Reply and has a text. *)
Definition clear_verdict (v : option gerr) : Prop :=
  match v with
  | None => True
  | Some e => is_reply e = None /\ exists t, err_text e = Ok t /\ t <> ""
  end.
