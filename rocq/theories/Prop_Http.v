(** * Prop_Http.v : property theorems (generated by tools/genprops.py from HttpProofs.v).
    Every proof is the lemma of the same name in HttpProofs.v. *)
From Coq Require Import String Ascii ZArith.
From stdpp Require Import gmap strings list.
From Verif Require Import Go Errors Http Spec_Http.
From Verif Require Import HttpProofs.

(** C41.  For all query parameters, in whatever order they are enumerated, and all headers: nothing
    panics and every header has its old values followed by the values of the parameters that ask
    for it, and no other. *)
Theorem C41_headers : forall q h, exists h', tryParseURLParamsToHeaders q h = Ok h' /\
  forall name, header_values h' name = header_values h name ++ given q name.
Proof. exact l_C41_headers. Qed.
Print Assumptions C41_headers.

(** C41.  Parameter names are compared without regard to case: a name of token bytes asks for header
    [name] (given in its canonical form) exactly if it is the prefix and [name] up to case. *)
Theorem C41_case : forall k name, all_valid k = true -> CanonicalHeaderKey name = name -> name <> "" -> all_valid name = true ->
  (asks_header k name <-> lower k = lower ("X-Websocket-Header-" ++ name)).
Proof. exact l_C41_case. Qed.
Print Assumptions C41_case.

Example C41_example :
  (exists h, tryParseURLParamsToHeaders [("x-websocket-header-X-token", ["a"; "b"]); ("page", ["1"]); ("X-Websocket-Header-", ["none"])]
     (Some (<["Host" := ["neffos"]]> ∅)) = Ok (Some h) /\ h !! "X-Token" = Some ["a"; "b"] /\ size h = 2) /\
  asks_header "x-websocket-header-X-token" "X-Token".
Proof. split; [eexists; vm_compute; done|]. split; [reflexivity|discriminate]. Qed.

(** C42.  What Upgrade does before it has a socket: a closed server rejects every request with 500, a
    HEAD request is answered with 302, any other method than GET with 405 and Allow: GET, and the
    upgrader is called exactly for a GET request to an open server. *)
Theorem C42_decisions : forall closed method q h,
  (closed = true -> upgrade_prologue closed method q h = Answered (Response 500 None) EServerClosed) /\
  (closed = false -> method = "HEAD"%string -> upgrade_prologue closed method q h = Answered (Response 302 None) EUpgradeOnRetry) /\
  (closed = false -> method <> "HEAD"%string -> method <> "GET"%string ->
     upgrade_prologue closed method q h = Answered (Response 405 (Some "GET"%string)) EInvalidMethod) /\
  ((exists h0 h', upgrade_prologue closed method q h = Upgrading h0 (Ok h')) <-> closed = false /\ method = "GET"%string) /\
  (forall h0 why, upgrade_prologue closed method q h <> Upgrading h0 (Panic why)).
Proof. exact l_C42_decisions. Qed.
Print Assumptions C42_decisions.

(** C42.  IsTryingToReconnect holds of the error of Upgrade exactly if the server was open and the
    request was a HEAD request, provided that the upgrader and OnConnect do not return that very
    error value themselves. *)
Theorem C42_reconnect : forall closed method q h after err,
  (forall h', after h' <> Some EUpgradeOnRetry) ->
  upgrade_error closed method q h after = Ok err ->
  (IsTryingToReconnect err = true <-> closed = false /\ method = "HEAD"%string).
Proof. exact l_C42_reconnect. Qed.
Print Assumptions C42_reconnect.

Example C42_example : upgrade_error false "HEAD" [] None (fun _ => None) = Ok (Some EUpgradeOnRetry) /\
  upgrade_error false "POST" [] None (fun _ => None) = Ok (Some EInvalidMethod) /\
  upgrade_error false "GET" [] None (fun _ => Some (EUser 1 "bad origin")) = Ok (Some (EUser 1 "bad origin")).
Proof. done. Qed.

(** C53.  A browser client that announces the number of its reconnection attempts with a header or, since
    browsers cannot set headers, with the URL parameter for it, is recognised with that number, whatever its sign. *)
Theorem C53_reconnect_tries : forall n h, (- 2 ^ 63 <= n < 2 ^ 63)%Z ->
  (header_values h "X-Websocket-Reconnect" = [format_int n] -> ReconnectTries h = n /\ WasReconnected h = (0 <? n)%Z) /\
  (forall q h', header_values h "X-Websocket-Reconnect" = [] ->
     given q "X-Websocket-Reconnect" = [format_int n] ->
     tryParseURLParamsToHeaders q h = Ok h' -> ReconnectTries h' = n /\ WasReconnected h' = (0 <? n)%Z).
Proof. exact l_C53_reconnect_tries. Qed.
Print Assumptions C53_reconnect_tries.

(** C53.  A number that is no 64 bit integer counts as the nearest one. *)
Theorem C53_range : forall n h rest, header_values h "X-Websocket-Reconnect" = format_int n :: rest ->
  ReconnectTries h = Z.max (- 2 ^ 63) (Z.min (2 ^ 63 - 1) n) /\ WasReconnected h = (0 <? n)%Z.
Proof. exact l_C53_range. Qed.
Print Assumptions C53_range.

(** C53.  Anything that is not a decimal number counts as no reconnection. *)
Theorem C53_garbage : forall h v rest, header_values h "X-Websocket-Reconnect" = v :: rest ->
  ~ numeral v -> ReconnectTries h = 0%Z /\ WasReconnected h = false.
Proof. exact l_C53_garbage. Qed.
Print Assumptions C53_garbage.

(** C53.  A number with a minus sign, of any length, counts as no reconnection; a plus sign changes nothing. *)
Theorem C53_sign : forall h h' v rest rest', digits_only v ->
  (header_values h "X-Websocket-Reconnect" = String "-" v :: rest -> (ReconnectTries h <= 0)%Z /\ WasReconnected h = false) /\
  (header_values h "X-Websocket-Reconnect" = String "+" v :: rest -> header_values h' "X-Websocket-Reconnect" = v :: rest' ->
     ReconnectTries h = ReconnectTries h' /\ WasReconnected h = WasReconnected h').
Proof. exact l_C53_sign. Qed.
Print Assumptions C53_sign.

Example C53_example : given [("X-Websocket-Header-X-Websocket-Reconnect", ["12"]); ("room", ["r"])] "X-Websocket-Reconnect" = [format_int 12] /\
  ReconnectTries (Some {[ "X-Websocket-Reconnect" := ["99999999999999999999"] ]}) = (2 ^ 63 - 1)%Z /\
  ReconnectTries (Some {[ "X-Websocket-Reconnect" := ["1x"] ]}) = 0%Z /\ ~ numeral "1x" /\
  digits_only "12" /\ ReconnectTries (Some {[ "X-Websocket-Reconnect" := ["-12"] ]}) = (-12)%Z /\ format_int (-12) = "-12".
Proof.
  split; [vm_compute; reflexivity|]. split; [vm_compute; reflexivity|]. split; [vm_compute; reflexivity|]. split.
  - intros [[_ H]|(s & [E|E] & _)]; [|discriminate E..]. inversion H as [|? ? _ H']; subst. inversion H' as [|? ? H'' _]; subst. vm_compute in H''. lia.
  - split; [split; [discriminate|repeat constructor; vm_compute; lia]|]. split; vm_compute; reflexivity.
Qed.
