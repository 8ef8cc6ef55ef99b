(** * Spec_App.v : what the application may contain.

    Application code (callbacks, goroutines, functions passed to Do) is any
    program that calls the exported API, reads the clock and returns.  It may
    branch on everything it learns. *)
From Coq Require Import ZArith.
From stdpp Require Import gmap strings list relations.
From Verif Require Import Go Errors Message World Lang Code Sem.

(** An error whose Error method does not panic, and a message with such an
    error. *)
Definition err_ok (e : option gerr) : bool := match e with Some e => has_text e | None => true end.
Definition msg_ok (m : message) : bool := err_ok (m_err m).

(** The same of the results of API calls. *)
Definition res_ok (a : api) : ares a -> bool :=
  match a as a return ares a -> bool with
  | AConnect _ _ _ | AConnectLoop _ _ _ _ | AWaitConnect _ _ _ _ | AJoinRoom _ _ _ => fun r => err_ok (snd r)
  | ADisconnectAll _ _ | AHandlePayload _ _ _ | ALeaveAll _ _ | ADisconnect _ _ | ARoomLeave _ _ _ => err_ok
  | AAsk _ _ _ | ANSAsk _ _ _ _ | AServerAsk _ _ => fun r => msg_ok (fst r) && err_ok (snd r)
  | _ => fun _ => true
  end.

(** A program that only makes [allowed] calls and whose result is [good],
    whatever the calls return. *)
Fixpoint app_code (allowed : api -> Prop) {A} (good : A -> Prop) (p : prog A) : Prop :=
  match p with
  | Ret a => good a
  | Do ONow k => forall r, app_code allowed good (k r)
  | Do OSleep k => forall r, app_code allowed good (k r)
  | Do _ _ => False
  | Call a k => allowed a /\ forall r, res_ok a r = true -> app_code allowed good (k r)
  | Crash _ => False
  end.

(** All application code of a process. *)
Record application (allowed : api -> Prop) (G : cfg) : Prop := App {
  app_callbacks : forall c ns evs ev (h : handler) n m,
    g_namespaces G c !! ns = Some evs -> evs !! ev = Some h -> msg_ok m = true ->
    app_code allowed (fun e => err_ok e = true) (h n m);
  app_onconnect : forall f c, g_onconnect G = Some f -> app_code allowed (fun e => err_ok e = true) (f c);
  app_ondisconnect : forall f c, g_ondisconnect G = Some f -> app_code allowed (fun _ => True) (f c);
  app_do : forall k c, app_code allowed (fun _ => True) (g_do G k c);
  app_user : forall k, app_code allowed (fun _ => True) (g_user G k);
  app_known : forall k, In k (g_known G) -> has_text (k_err k) = true;
  app_exch : forall x, g_exch G = Some x ->
    (forall c, err_ok (x_onconnect x c) = true) /\
    (forall m tok, err_ok (x_notify x m tok) = true) /\
    (forall cx m tok, msg_ok m = true -> msg_ok (fst (x_ask x cx m tok)) = true /\ err_ok (snd (x_ask x cx m tok)) = true) }.

(** Calls that do not panic by themselves: no message with an error that
    cannot be printed, Rooms and Broadcast of a NSConn that exists (and, for
    Broadcast, belongs to a server), and no Disconnect of the single namespace
    of a connection with native messages only. *)
Definition careful (G : cfg) (a : api) : Prop :=
  match a with
  | AWrite _ m | AAsk _ _ m | AServerAsk _ m => msg_ok m = true
  | ABroadcast _ msgs => forallb msg_ok msgs = true
  | ANSBroadcast n _ msgs => (exists n', n = Some n' /\ g_client G (n_conn n') = false) /\ forallb msg_ok msgs = true
  | ARooms n => n <> None
  | ADisconnect (Some n) _ => onlyNative G (n_conn n) = false
  | _ => True
  end.

(** No Connect. *)
Definition no_connect (a : api) : Prop :=
  match a with AConnect _ _ _ | AConnectLoop _ _ _ _ => False | _ => True end.

(** ** Arbitrary applications

    For properties that do not depend on what the callbacks return: the
    application code only acts through the API (it may panic itself). *)
Fixpoint user_code (allowed : api -> Prop) {A} (p : prog A) : Prop :=
  match p with
  | Ret _ | Crash _ => True
  | Do ONow k => forall r, user_code allowed (k r)
  | Do OSleep k => forall r, user_code allowed (k r)
  | Do _ _ => False
  | Call a k => allowed a /\ forall r, user_code allowed (k r)
  end.
Record user_app (allowed : api -> Prop) (G : cfg) : Prop := UserApp {
  ua_callbacks : forall c ns evs ev (h : handler) n m,
    g_namespaces G c !! ns = Some evs -> evs !! ev = Some h -> user_code allowed (h n m);
  ua_onconnect : forall f c, g_onconnect G = Some f -> user_code allowed (f c);
  ua_ondisconnect : forall f c, g_ondisconnect G = Some f -> user_code allowed (f c);
  ua_do : forall k c, user_code allowed (g_do G k c);
  ua_user : forall k, user_code allowed (g_user G k) }.

(** The callback registered under [key] is the one to run for message [m] in
    the namespace of [n]: the one of exactly that event, or the catch-all if
    there is none. *)
Definition dispatched (G : cfg) (n : nsref) (key : string) (m : message) : Prop :=
  exists evs h, g_namespaces G (n_conn n) !! n_name n = Some evs /\ evs !! key = Some h /\
    (key = m_event m \/ (evs !! m_event m = None /\ key = OnAnyEvent)).

(** The callback for an event in the namespace of [n]. *)
Definition chosen (G : cfg) (n : nsref) (ev : string) : option (string * handler) :=
  match g_namespaces G (n_conn n) !! n_name n with
  | None => None
  | Some evs => match evs !! ev with
                | Some h => Some (ev, h)
                | None => match evs !! OnAnyEvent with Some h => Some (OnAnyEvent, h) | None => None end
                end
  end.

(** Not one of the four membership requests. *)
Definition ordinary (m : message) : Prop :=
  m_isInvalid m = false /\ m_event m <> OnNamespaceConnect /\ m_event m <> OnNamespaceDisconnect /\
  m_event m <> OnRoomJoin /\ m_event m <> OnRoomLeave.

(** A callback runs with [m] because of something the other side sent.  (The
    library marks the other messages as local.  Only Room.Leave does not, its
    message is an unforced leave request without a wait token.) *)
Definition from_remote (m : message) : Prop :=
  m_isLocal m = false /\
  ~ (m_wait m = "" /\ m_isForced m = false /\ (m_event m = OnRoomLeave \/ m_event m = OnRoomLeft)).
