(** * Exchange.v : several stack exchanges (stackexchange.go, server.go:137-165)
    and the routing of the redis and nats ones (stackexchange/redis,
    stackexchange/nats). *)
From Coq Require Import String Ascii.
From stdpp Require Import gmap strings list.
From Verif Require Import Go Errors Message.

(** ** Combining exchanges *)

(** A StackExchange of the application: a number and what its methods return.
    [x_init] is [None] if it is not a StackExchangeInitializer. *)
Record leaf : Type := Leaf {
  x_id : nat;
  x_init : option (option gerr);
  x_onConnect : nat -> option gerr;
  x_publish : list message -> bool;
  x_ask : message -> string -> message * option gerr;
  x_notify : message -> string -> option gerr }.

(** stackexchange.go:65-75 *)
Inductive exch : Type := XLeaf (l : leaf) | XWrap (parent current : exch).

(** The calls that reach the exchanges of the application. *)
Inductive call : Type :=
| COnConnect (c : nat) | COnDisconnect (c : nat) | CPublish (msgs : list message)
| CSubscribe (c : nat) (ns : string) | CUnsubscribe (c : nat) (ns : string)
| CAsk (m : message) (token : string) | CNotifyAsk (m : message) (token : string).
Notation calls := (list (nat * call)).

(** stackexchange.go:53-61 stackExchangeInit; server.go:143-159 UseStackExchange;
    a nil argument is [None] *)
Definition UseStackExchange (s : option exch) (exc : option leaf) : option exch * option gerr :=
  match exc with
  | None => (s, None)
  | Some l =>
      match x_init l with
      | Some (Some e) => (s, Some e)
      | _ => match s with
             | Some x => (Some (XWrap x (XLeaf l)), None)
             | None => (Some (XLeaf l), None)
             end
      end
  end.

(** stackexchange.go:77-86 *)
Fixpoint exch_OnConnect (x : exch) (c : nat) : option gerr * calls :=
  match x with
  | XLeaf l => (x_onConnect l c, [(x_id l, COnConnect c)])
  | XWrap p q =>
      match exch_OnConnect p c with
      | (Some e, t) => (Some e, t)
      | (None, t) => let '(e, t') := exch_OnConnect q c in (e, t ++ t')
      end
  end.

(** stackexchange.go:88-91 *)
Fixpoint exch_OnDisconnect (x : exch) (c : nat) : calls :=
  match x with
  | XLeaf l => [(x_id l, COnDisconnect c)]
  | XWrap p q => exch_OnDisconnect p c ++ exch_OnDisconnect q c
  end.

(** stackexchange.go:93-99 *)
Fixpoint exch_Publish (x : exch) (msgs : list message) : bool * calls :=
  match x with
  | XLeaf l => (x_publish l msgs, [(x_id l, CPublish msgs)])
  | XWrap p q =>
      let '(okParent, t) := exch_Publish p msgs in
      let '(okCurrent, t') := exch_Publish q msgs in
      (okParent && okCurrent, t ++ t')
  end.

(** stackexchange.go:101-109: [msg, err := s.parent.Ask(ctx, msg, token)] assigns the parameter *)
Fixpoint exch_Ask (x : exch) (m : message) (token : string) : message * option gerr * calls :=
  match x with
  | XLeaf l => (x_ask l m token, [(x_id l, CAsk m token)])
  | XWrap p q =>
      match exch_Ask p m token with
      | (msg, Some _, t) => let '(r, t') := exch_Ask q msg token in (r, t ++ t')
      | (msg, None, t) => (msg, None, t)
      end
  end.

(** stackexchange.go:111-118 *)
Fixpoint exch_NotifyAsk (x : exch) (m : message) (token : string) : option gerr * calls :=
  match x with
  | XLeaf l => (x_notify l m token, [(x_id l, CNotifyAsk m token)])
  | XWrap p q =>
      match exch_NotifyAsk p m token with
      | (Some _, t) => let '(e, t') := exch_NotifyAsk q m token in (e, t ++ t')
      | (None, t) => (None, t)
      end
  end.

(** stackexchange.go:120-128 *)
Fixpoint exch_Subscribe (x : exch) (c : nat) (ns : string) : calls :=
  match x with
  | XLeaf l => [(x_id l, CSubscribe c ns)]
  | XWrap p q => exch_Subscribe p c ns ++ exch_Subscribe q c ns
  end.
Fixpoint exch_Unsubscribe (x : exch) (c : nat) (ns : string) : calls :=
  match x with
  | XLeaf l => [(x_id l, CUnsubscribe c ns)]
  | XWrap p q => exch_Unsubscribe p c ns ++ exch_Unsubscribe q c ns
  end.

(** ** Routing: redis *)

(** Redis matches the channel of a published message against the subscribed
    glob patterns: '*' any text, '?' one byte, '\' quotes, '[...]' a set of bytes
    (ranges and '^'; see stringmatchlen in the redis sources). *)
Definition in_range (a b c : ascii) : bool :=
  let a := nat_of_ascii a in let b := nat_of_ascii b in let c := nat_of_ascii c in
  (Nat.min a b <=? c) && (c <=? Nat.max a b).
(* the members of a set up to the closing bracket: does [c] match, and the pattern behind it *)
Fixpoint glob_set (n : nat) (p : string) (c : ascii) (found : bool) : bool * string :=
  match n with
  | O => (found, "")
  | S n =>
      match p with
      | EmptyString => (found, "")
      | String "\" (String x p') => glob_set n p' c (found || Ascii.eqb x c)
      | String "]" p' => (found, p')
      | String x (String "-" (String y p')) => glob_set n p' c (found || in_range x y c)
      | String x p' => glob_set n p' c (found || Ascii.eqb x c)
      end
  end.
Fixpoint any_suffix (f : string -> bool) (s : string) : bool :=
  f s || match s with EmptyString => false | String _ s' => any_suffix f s' end.
Fixpoint glob (n : nat) (p s : string) : bool :=
  match n with
  | O => false
  | S n =>
      match p with
      | EmptyString => match s with EmptyString => true | _ => false end
      | String "*" p' => any_suffix (glob n p') s
      | String "?" p' => match s with EmptyString => false | String _ s' => glob n p' s' end
      | String "[" p' =>
          match s with
          | EmptyString => false
          | String c s' =>
              let '(neg, p'') := match p' with String "^" q => (true, q) | _ => (false, p') end in
              let '(ok, rest) := glob_set n p'' c false in
              if xorb ok neg then glob n rest s' else false
          end
      | String "\" (String x p') =>
          match s with EmptyString => false | String c s' => Ascii.eqb x c && glob n p' s' end
      | String x p' =>
          match s with EmptyString => false | String c s' => Ascii.eqb x c && glob n p' s' end
      end
  end.
Definition redis_match (pattern channel : string) : bool := glob (S (String.length pattern)) pattern channel.

(** stackexchange/redis/stackexchange_redis.go:182-195 getChannel *)
Definition redis_getChannel (prefix namespace room connID : string) : result string :=
  if negb (is_empty connID) then Ok (prefix ++ "." ++ connID ++ ".")%string
  else if is_empty namespace && negb (is_empty room) then
    Panic "namespace cannot be empty when sending to a namespace's room"
  else Ok (prefix ++ "." ++ namespace ++ ".")%string.

(** stackexchange/nats/stackexchange_nats.go:225-238 getSubject *)
Definition nats_getSubject (prefix namespace room connID : string) : result string :=
  if negb (is_empty connID) then Ok (prefix ++ "." ++ connID)%string
  else if is_empty namespace && negb (is_empty room) then
    Panic "namespace cannot be empty when sending to a namespace's room"
  else Ok (prefix ++ "." ++ namespace)%string.

(** The subscriber of each connection: the patterns it is subscribed to.  The
    state of the exchange's goroutine [run]. *)
Notation subscribers := (gmap nat (gset string)).

(** The calls of the server that reach the exchange: OnConnect, Subscribe, Unsubscribe, OnDisconnect
    (stackexchange/redis/stackexchange_redis.go:201-225, 286-310; stackexchange/nats/stackexchange_nats.go:253-284, 355-379). *)
Inductive xevent : Type :=
| XEConnect (c : nat) (id : string)       (* OnConnect: subscribes to the channel of its ID, then addSubscriber *)
| XESubscribe (c : nat) (ns : string)
| XEUnsubscribe (c : nat) (ns : string)
| XEDisconnect (c : nat).

(** stackexchange/redis/stackexchange_redis.go:151-180 run, 201-225 OnConnect, 286-310.  getChannel(ns, "", "") does not panic. *)
Definition redis_step (prefix : string) (s : subscribers) (e : xevent) : subscribers :=
  match e with
  | XEConnect c id =>
      match redis_getChannel prefix "" "" id with
      | Ok ch => <[c := {[ ch ]}]> s
      | Panic _ => s
      end
  | XESubscribe c ns =>
      match s !! c, redis_getChannel prefix ns "" "" with
      | Some l, Ok ch => <[c := {[ ch ]} ∪ l]> s
      | _, _ => s
      end
  | XEUnsubscribe c ns =>
      match s !! c, redis_getChannel prefix ns "" "" with
      | Some l, Ok ch => <[c := l ∖ {[ ch ]}]> s
      | _, _ => s
      end
  | XEDisconnect c => delete c s
  end.
Definition redis_run (prefix : string) (l : list xevent) : subscribers := fold_left (redis_step prefix) l ∅.

(** stackexchange/redis/stackexchange_redis.go:239-252 publish.  The channel, the payload; redis hands the payload to a subscriber
    once for each of its patterns that match. *)
Definition redis_publish (prefix : string) (s : subscribers) (m : message) : result (list (nat * string)) :=
  match redis_getChannel prefix (m_namespace m) (m_room m) (m_to m) with
  | Panic w => Panic w
  | Ok ch =>
      match serializeMessage m with
      | Panic w => Panic w
      | Ok b => Ok (map_to_list s ≫= fun p =>
                  map (fun _ => (p.1, b)) (List.filter (fun pat => redis_match pat ch) (elements p.2)))
      end
  end.

(** stackexchange/redis/stackexchange_redis.go:211-221, the goroutine of OnConnect; stackexchange/nats/stackexchange_nats.go:240-247: what it passes to Conn.Write *)
Definition exchange_received (ks : list known) (allowNative onlyNative : bool) (payload : string) : message :=
  set_fromStackExchange true (DeserializeMessage ks TextMessage payload allowNative onlyNative).

(** server.go:504-525: what Broadcast publishes for [exceptSender]: nobody, a connection with
    this serverConnID, or any other stringer. *)
Inductive except : Type := ExceptNone | ExceptConn (serverConnID : string) | ExceptName (s : string).
Definition prepare (ex : except) (m : message) : message :=
  match ex with
  | ExceptNone => m
  | ExceptConn sid => set_fromExplicit sid m
  | ExceptName s => if is_empty s then set_fromExplicit "" m else set_from s m
  end.

(** ** Routing: nats *)

(** The tokens of a subject. *)
Fixpoint nats_tokens (s : string) : list string :=
  match s with
  | EmptyString => [""%string]
  | String c s' =>
      if Ascii.eqb c "." then ""%string :: nats_tokens s'
      else match nats_tokens s' with
           | t :: ts => String c t :: ts
           | [] => [String c EmptyString]
           end
  end.
(** nats matches token by token: the token '*' any one token, a final '>' one or more tokens. *)
Fixpoint tokens_match (p s : list string) : bool :=
  match p, s with
  | [], [] => true
  | [x], _ :: _ :: _ => String.eqb x ">"
  | x :: p', y :: s' => (String.eqb x "*" || String.eqb x y || (String.eqb x ">" && match p' with [] => true | _ => false end)) && tokens_match p' s'
  | _, _ => false
  end.
Definition nats_match (pattern subject : string) : bool := tokens_match (nats_tokens pattern) (nats_tokens subject).

(** A subscriber (stackexchange/nats/stackexchange_nats.go:35-46): the open subscriptions of its nats connection, by
    the order of their creation, and the map [subscriptions] from subjects to subscriptions. *)
Record natsub : Type := NatSub { ns_next : nat; ns_open : gmap nat string; ns_handles : gmap string nat }.
Notation natsubs := (gmap nat natsub).

(** stackexchange/nats/stackexchange_nats.go:157-222 run, 253-284 OnConnect.  The nats connection stays up and
    accepts every subject; a connection has one OnConnect.  Unsubscribe keeps the handle in the map;
    unsubscribing a closed subscription does nothing. *)
Definition nats_step (prefix : string) (s : natsubs) (e : xevent) : natsubs :=
  match e with
  | XEConnect c id =>
      match nats_getSubject prefix "" "" id with
      | Ok sj => <[c := NatSub 1 {[ 0 := sj ]} ∅]> s
      | Panic _ => s
      end
  | XESubscribe c ns =>
      match s !! c, nats_getSubject prefix ns "" "" with
      | Some k, Ok sj => <[c := NatSub (S (ns_next k)) (<[ns_next k := sj]> (ns_open k)) (<[sj := ns_next k]> (ns_handles k))]> s
      | _, _ => s
      end
  | XEUnsubscribe c ns =>
      match s !! c, nats_getSubject prefix ns "" "" with
      | Some k, Ok sj =>
          match ns_handles k !! sj with
          | Some i => <[c := NatSub (ns_next k) (delete i (ns_open k)) (ns_handles k)]> s
          | None => s
          end
      | _, _ => s
      end
  | XEDisconnect c => delete c s
  end.
Definition nats_run (prefix : string) (l : list xevent) : natsubs := fold_left (nats_step prefix) l ∅.

(** stackexchange/nats/stackexchange_nats.go:298-306 publish.  nats hands the payload to every open subscription whose
    subject matches.  (NoEcho, line 115, concerns only the connection that publishes, which has no
    subscriptions.) *)
Definition nats_publish (prefix : string) (s : natsubs) (m : message) : result (list (nat * string)) :=
  match nats_getSubject prefix (m_namespace m) (m_room m) (m_to m) with
  | Panic w => Panic w
  | Ok sj =>
      match serializeMessage m with
      | Panic w => Panic w
      | Ok b => Ok (map_to_list s ≫= fun p =>
                  map (fun _ => (p.1, b)) (List.filter (fun q => nats_match q.2 sj) (map_to_list (ns_open p.2))))
      end
  end.
