(** * Prop_End.v : property theorems (generated by tools/genprops.py from EndProofs.v).
    Every proof is the lemma of the same name in EndProofs.v. *)
From Coq Require Import ZArith Ascii.
From stdpp Require Import gmap strings list relations.
From RecordUpdate Require Import RecordUpdate.
From Verif Require Import Go Errors Message World Lang Code Sem Spec_App Spec_Conn Spec_View Spec_Ident Examples Scenes EndProofs.
From Verif Require Import EndProofs.

(** C63.  In every schedule of any application, whatever the other side sends and whatever fails: if a goroutine reads
    (or is about to read) a connection, then it goes on to do so as long as the connection is open.  So when it has ended,
    for whatever reason, the connection is closed. *)
Theorem C63_reader : forall G c t s s',
  reachable G s -> (s_th s !! t = Some (code G (TReader c)) \/ s_th s !! t = Some (code G (TReaderLoop c))) -> steps G s s' ->
  c_closed (conn_of (s_w s') c) = false -> is_Some (s_th s' !! t).
Proof. exact l_C63_reader. Qed.
Print Assumptions C63_reader.

(** C63.  In every schedule of any application: if Dial returned an error although there was a connection, because the
    acknowledgment could not be written or the server refused the client or the connection broke, then this connection is closed. *)
Theorem C63_dial_error : forall G c s e i,
  user_app (fun _ => True) G -> reachable G s -> LDial c (Some e) i ∈ w_log (s_w s) -> c_closed (conn_of (s_w s) c) = true.
Proof. exact l_C63_dial_error. Qed.
Print Assumptions C63_dial_error.

(** C63.  In every schedule of any application a closed connection is closed for ever. *)
Theorem C63_for_ever : forall G c s s',
  steps G s s' -> c_closed (conn_of (s_w s) c) = true -> c_closed (conn_of (s_w s') c) = true.
Proof. exact l_C63_for_ever. Qed.
Print Assumptions C63_for_ever.

(** C29 (missing: a frame that starts with "M" may take the place of the acceptance, see C29_echo_refuted).  In every
    schedule of any application, whatever the other side sends: if Dial of a client (that does not only exchange native
    messages) returned without an error, with the ID i, then before it returned the handshake was completed, by a frame
    "A" followed by i that the server sent; unless it sent a frame that starts with "M". *)
Theorem C29_dial_partial : forall G c s before i after,
  user_app (fun _ => True) G -> g_client G c = true -> onlyNative G c = false -> reachable G s ->
  w_log (s_w s) = after ++ LDial c None i :: before ->
  (LAcked c ∈ before /\ told c i (s_w s)) \/ exists typ rest, In (typ, String "M" rest) (c_got (conn_of (s_w s) c)).
Proof. exact l_C29_dial_partial. Qed.
Print Assumptions C29_dial_partial.

(** C29. A Dial that succeeded, with the ID that the server sent. *)
Example C29_dial_example :
  user_app (fun _ => True) exG /\ g_client exG 2 = true /\ onlyNative exG 2 = false /\
  let s := play exG [Go 0; Act1 (Env (EGo (TDial 2))); Go 1; Act1 Start; Act1 (Env (EDeliver 2 TextMessage "Aid-1")); Go 2; Go 1] (init exG) in
  reachable exG s /\ (exists after before, w_log (s_w s) = after ++ LDial 2 None "id-1" :: before) /\
  forall typ rest, ~ In (typ, String "M" rest) (c_got (conn_of (s_w s) 2)).
Proof. exact x_C29_dial_example. Qed.

(** C63. The reader of a client waits for frames, then the connection breaks: Dial fails, the reader has ended and the connection is closed. *)
Example C63_example :
  let s := play exG [Go 0; Act1 (Env (EGo (TDial 2))); Go 1; Act1 Start] (init exG) in
  let s' := play exG [Act1 (Env (EReadEnd 2 EEOF)); Go 2; Go 1] s in
  user_app (fun _ => True) exG /\ reachable exG s /\ steps exG s s' /\ s_th s !! 2 = Some (code exG (TReader 2)) /\ c_closed (conn_of (s_w s) 2) = false /\
  s_th s' !! 2 = None /\ c_closed (conn_of (s_w s') 2) = true /\ LDial 2 (Some EEOF) "" ∈ w_log (s_w s').
Proof. exact x_C63_example. Qed.
