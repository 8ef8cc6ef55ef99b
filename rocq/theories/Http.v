(** * Http.v : the HTTP side of Server.Upgrade (server.go:223-336). *)
From Coq Require Import String Ascii ZArith NArith.
From stdpp Require Import gmap strings list.
From Verif Require Import Go Errors.

(** ** net/textproto *)

(** The token bytes of RFC 7230, validHeaderFieldByte *)
Definition is_lower (c : ascii) : bool := (97 <=? nat_of_ascii c) && (nat_of_ascii c <=? 122).
Definition is_upper (c : ascii) : bool := (65 <=? nat_of_ascii c) && (nat_of_ascii c <=? 90).
Definition is_digit (c : ascii) : bool := (48 <=? nat_of_ascii c) && (nat_of_ascii c <=? 57).
Fixpoint has_byte (c : ascii) (s : string) : bool :=
  match s with EmptyString => false | String d s' => Ascii.eqb c d || has_byte c s' end.
Definition valid_header_byte (c : ascii) : bool :=
  is_lower c || is_upper c || is_digit c || has_byte c "!#$%&'*+-.^_`|~".
Definition to_upper (c : ascii) : ascii := if is_lower c then ascii_of_nat (nat_of_ascii c - 32) else c.
Definition to_lower (c : ascii) : ascii := if is_upper c then ascii_of_nat (nat_of_ascii c + 32) else c.
Fixpoint all_valid (s : string) : bool :=
  match s with EmptyString => true | String c s' => valid_header_byte c && all_valid s' end.
Fixpoint canon_go (upper : bool) (s : string) : string :=
  match s with
  | EmptyString => EmptyString
  | String c s' => String (if upper then to_upper c else to_lower c) (canon_go (Ascii.eqb c "-") s')
  end.
(** http.CanonicalHeaderKey: a name with a byte that is not a token byte is returned unchanged *)
Definition CanonicalHeaderKey (s : string) : string := if all_valid s then canon_go true s else s.

(** http.Header; [None] is the nil map *)
Notation header := (option (gmap string (list string))).
Definition header_values (h : header) (k : string) : list string :=
  match h with Some m => default [] (m !! k) | None => [] end.
(** http.Header.Add: panics on a nil map *)
Definition header_Add (h : header) (k v : string) : result header :=
  let k := CanonicalHeaderKey k in
  match h with
  | Some m => Ok (Some (<[k := default [] (m !! k) ++ [v]]> m))
  | None => Panic "assignment to entry in nil map"
  end.

(** ** server.go:227-253 *)
Definition URLParamAsHeaderPrefix : string := "X-Websocket-Header-".

Fixpoint add_all (h : header) (k : string) (vs : list string) : result header :=
  match vs with
  | [] => Ok h
  | v :: vs' => match header_Add h k v with Ok h' => add_all h' k vs' | Panic w => Panic w end
  end.

(** The body of the loop, server.go:231-251.  strings.Index(k, p) is 0 exactly if
    [p] is a prefix of [k]. *)
Definition parse_param (k : string) (values : list string) (h : header) : result header :=
  if String.length k <=? String.length URLParamAsHeaderPrefix then Ok h
  else
    let k := CanonicalHeaderKey k in
    if negb (has_prefix k URLParamAsHeaderPrefix) then Ok h
    else
      let h := match h with None => Some ∅ | Some m => Some m end in
      add_all h (drop (String.length URLParamAsHeaderPrefix) k) values.

(** The loop over the map of query parameters, in the order [q] in which the Go
    runtime happens to enumerate it. *)
Fixpoint tryParseURLParamsToHeaders (q : list (string * list string)) (h : header) : result header :=
  match q with
  | [] => Ok h
  | (k, values) :: q' =>
      match parse_param k values h with
      | Ok h' => tryParseURLParamsToHeaders q' h'
      | Panic w => Panic w
      end
  end.

(** ** server.go:279-315: what Upgrade answers before it has a socket *)
Record response : Type := Response { rs_status : Z; rs_allow : option string }.
Inductive upgrade_result : Type :=
| Answered (r : response) (err : gerr)                   (* returns nil, err *)
| Upgrading (h : header) (r : result header)             (* calls the upgrader with the request *).

(** server.go:285-307 *)
Definition upgrade_prologue (closed : bool) (method : string) (q : list (string * list string)) (h : header) : upgrade_result :=
  if closed then Answered (Response 500 None) EServerClosed
  else if String.eqb method "HEAD" then Answered (Response 302 None) EUpgradeOnRetry
  else if negb (String.eqb method "GET") then Answered (Response 405 (Some "GET")) EInvalidMethod
  else Upgrading h (tryParseURLParamsToHeaders q h).

(** server.go:261-263 IsTryingToReconnect *)
Definition IsTryingToReconnect (err : option gerr) : bool :=
  match err with Some e => gerr_eqb e EUpgradeOnRetry | None => false end.

(** server.go:309-398: [after] is what the upgrader and everything behind it return for the
    request with these headers. *)
Definition upgrade_error (closed : bool) (method : string) (q : list (string * list string)) (h : header)
    (after : header -> option gerr) : result (option gerr) :=
  match upgrade_prologue closed method q h with
  | Answered _ e => Ok (Some e)
  | Upgrading _ (Ok h') => Ok (after h')
  | Upgrading _ (Panic w) => Panic w
  end.

(** ** server.go:333-336 and conn.go:273-275 *)

(** strconv.Atoi with the error ignored: 0 if the text is not a number, the
    nearest int if it is out of range. *)
Fixpoint digits_value (acc : Z) (s : string) : option Z :=
  match s with
  | EmptyString => Some acc
  | String c s' =>
      if is_digit c then digits_value (acc * 10 + Z.of_nat (nat_of_ascii c - 48)) s' else None
  end.
Definition clamp64 (z : Z) : Z := Z.max (- 2 ^ 63) (Z.min (2 ^ 63 - 1) z).
Definition Atoi (s : string) : Z :=
  let '(neg, d) := match s with
                   | String "+" s' => (false, s')
                   | String "-" s' => (true, s')
                   | _ => (false, s)
                   end in
  match d with
  | EmptyString => 0%Z
  | _ => match digits_value 0 d with
         | Some z => clamp64 (if neg : bool then - z else z)
         | None => 0%Z
         end
  end.

Definition websocketReconectHeaderKey : string := "X-Websocket-Reconnect".
(** http.Header.Get *)
Definition header_Get (h : header) (k : string) : string := hd "" (header_values h (CanonicalHeaderKey k)).
Definition ReconnectTries (h : header) : Z :=
  let v := header_Get h websocketReconectHeaderKey in
  if String.eqb v "" then 0%Z else Atoi v.
Definition WasReconnected (h : header) : bool := (0 <? ReconnectTries h)%Z.
