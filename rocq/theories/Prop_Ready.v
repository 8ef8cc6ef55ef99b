(** * Prop_Ready.v : property theorems (generated by tools/genprops.py from ReadyProofs.v).
    Every proof is the lemma of the same name in ReadyProofs.v. *)
From Coq Require Import ZArith Ascii.
From stdpp Require Import gmap strings list relations.
From RecordUpdate Require Import RecordUpdate.
From Verif Require Import Go Errors Message World Lang Code Sem Spec_App Spec_Conn Spec_View Spec_Ready Examples ReadyProofs.
From Verif Require Import ReadyProofs.

(** C30 (missing: the handshake may be ended by the peer itself, see C30_refuted).  In every schedule of any
    application that leaves received data to the library: whenever a callback ran with a message of the other
    side, the handshake of that connection was over before ([LAcked]), unless the connection has native messages
    only and therefore no handshake. *)
Theorem C30_handshake_partial : forall G s n key m l2 l1,
  user_app no_payload G -> reachable G s -> w_log (s_w s) = l2 ++ LFire n key m :: l1 -> from_remote m ->
  onlyNative G (n_conn n) = true \/ LAcked (n_conn n) ∈ l1.
Proof. exact l_C30_handshake_partial. Qed.
Print Assumptions C30_handshake_partial.

(** C30.  A server side connection that OnConnect accepted receives any frames, then the "M" of the handshake.  While
    it receives the frames before the "M", nothing is handled.  With the "M" all of them are handled, exactly as if
    they arrived now, one kind after the other and in arrival order within a kind; then the acknowledgment
    with the ID is sent, and the handshake is over. *)
Theorem C30_queue_partial : forall G c A t w fs typ more rest,
  setting G c A -> calm G w c -> g_client G c = false -> w_err (c_wait (conn_of w c)) = None ->
  c_acked (conn_of w c) = false -> c_qtext (conn_of w c) = [] -> c_qbin (conn_of w c) = [] ->
  c_in (conn_of w c) = fs ++ (typ, String "M" more) :: rest -> Forall (fun f => early (snd f)) fs ->
  (forall f, f ∈ fs -> unasked G w c (received G c (fst f) (snd f))) ->
  (exists w1, exec t (reads G c (length fs)) w = XDone w1 true /\ view w1 c = view w c) /\
  (exists w' order s, exec t (reads G c (S (length fs))) w = XDone w' true /\
    (order = texts fs ++ binaries fs \/ order = binaries fs ++ texts fs) /\
    machine (role_of G c w) A (map (fun f => received G c (fst f) (snd f)) order) (view w c) s /\
    view w' c = push (TextMessage, String "A" (c_id (conn_of w c))) s /\ c_acked (conn_of w' c) = true /\ calm G w' c).
Proof. exact l_C30_queue_partial. Qed.
Print Assumptions C30_queue_partial.

(** C30.  A client receives any frames before its acknowledgment "A"id: nothing is handled, neither when they arrive nor when
    the acknowledgment comes; they stay in the queue.  The acknowledgment sets the ID and ends the handshake. *)
Theorem C30_client_partial : forall G c t w fs typ id rest,
  calm G w c -> g_client G c = true -> w_chclosed (c_wait (conn_of w c)) = false ->
  c_acked (conn_of w c) = false -> c_qtext (conn_of w c) = [] -> c_qbin (conn_of w c) = [] ->
  c_in (conn_of w c) = fs ++ (typ, String "A" id) :: rest -> Forall (fun f => early (snd f)) fs ->
  exists w', exec t (reads G c (S (length fs))) w = XDone w' true /\
    view w' c = view w c /\ c_acked (conn_of w' c) = true /\ c_id (conn_of w' c) = id /\ c_in (conn_of w' c) = rest /\ calm G w' c /\
    c_qtext (conn_of w' c) = map snd (texts fs) /\ c_qbin (conn_of w' c) = map snd (binaries fs).
Proof. exact l_C30_client_partial. Qed.
Print Assumptions C30_client_partial.

(** C30.  Messages of different kinds may be handled in another order than they arrived: here the connect request (binary)
    arrived first and the event (text) second; but the event is handled first, and is lost, because the
    namespace is not connected yet. *)
Theorem C30_reordered_refuted : exists G c s t w',
  reachable G s /\ g_client G c = false /\
  c_in (conn_of (s_w s) c) = [(BinaryMessage, "$1;chat;;_OnNamespaceConnect;0;0;"); (TextMessage, ";chat;;echo;0;0;hello"); (TextMessage, "M")] /\
  exec t (reads G c 3) (s_w s) = XDone w' true /\
  cs_rooms (view w' c) = {["chat" := ∅]} /\
  map (fun f => snd (fst f)) (cs_fired (view w' c)) = [OnNamespaceConnected] /\
  chosen G (NsRef c "chat" 0) "echo" <> None.
Proof. exact l_C30_reordered_refuted. Qed.
Print Assumptions C30_reordered_refuted.

(** C30. The hypotheses hold in reachable states: callbacks that ran for messages of the peer, queued frames of both kinds, and a
    client that receives a frame before its acknowledgment. *)
Example C30_example :
  user_app no_payload exG /\ reachable exG exM /\
  (exists l2 n key m l1, w_log (s_w exM) = l2 ++ LFire n key m :: l1 /\ from_remote m /\ n_conn n = 1) /\
  reachable exG waitingS /\ setting exG 1 exA /\ calm exG (s_w waitingS) 1 /\ g_client exG 1 = false /\
  w_err (c_wait (conn_of (s_w waitingS) 1)) = None /\ c_acked (conn_of (s_w waitingS) 1) = false /\
  c_in (conn_of (s_w waitingS) 1) = waiting_frames ++ [(TextMessage, "M")] /\ Forall (fun f => early (snd f)) waiting_frames /\
  (forall f, f ∈ waiting_frames -> unasked exG (s_w waitingS) 1 (received exG 1 (fst f) (snd f))) /\
  reachable exG dialS /\ calm exG (s_w dialS) 2 /\ w_chclosed (c_wait (conn_of (s_w dialS) 2)) = false /\
  c_in (conn_of (s_w dialS) 2) = [(TextMessage, "$1;chat;;_OnNamespaceConnect;0;0;"); (TextMessage, "Aid-1")].
Proof. exact x_C30_example. Qed.
