(** * Prop_Letter.v : property theorems (generated by tools/genprops.py from LetterProofs.v).
    Every proof is the lemma of the same name in LetterProofs.v. *)
From Coq Require Import ZArith Ascii.
From stdpp Require Import gmap strings list relations.
From Verif Require Import Go Errors Message World Lang Code Sem Spec_App Spec_Ready Spec_Conn Spec_View Examples ReadyProofs LetterProofs.
From Verif Require Import LetterProofs.

(** C78, as far as it holds.  Frames that arrive before the handshake are kept, each kind in its order and byte for byte, if none of them is
    empty or starts with one of the letters M, A and H.  (What becomes of them with the handshake is C30.) *)
Theorem C78_kept_partial : forall G c t w fs rest,
  calm G w c -> c_acked (conn_of w c) = false -> c_in (conn_of w c) = fs ++ rest -> Forall (fun f => early (snd f)) fs ->
  exists w1, exec t (reads G c (length fs)) w = XDone w1 true /\ view w1 c = view w c /\ c_acked (conn_of w1 c) = false /\ c_in (conn_of w1 c) = rest /\
    c_qtext (conn_of w1 c) = c_qtext (conn_of w c) ++ map snd (texts fs) /\
    c_qbin (conn_of w1 c) = c_qbin (conn_of w c) ++ map snd (binaries fs).
Proof. exact l_C78_kept_partial. Qed.
Print Assumptions C78_kept_partial.

(** C78 is violated.  A text that begins with H, sent to a server before the handshake, is taken for a refusal, which only a client can
    get: the reader stops and closes the connection, no callback is called for the text and nothing is answered. *)
Theorem C78_closed_refuted : forall G c A t w typ text rest,
  setting G c A -> calm G w c -> g_client G c = false -> c_acked (conn_of w c) = false -> c_closeCh (conn_of w c) = false ->
  cs_rooms (view w c) = ∅ -> c_in (conn_of w c) = (typ, String "H" text) :: rest ->
  exists w', exec t (code G (TReaderLoop c)) w = XDone w' None /\ c_closed (conn_of w' c) = true /\ c_sockclosed (conn_of w' c) = true /\
    cs_fired (view w' c) = cs_fired (view w c) /\ cs_sent (view w' c) = cs_sent (view w c).
Proof. exact l_C78_closed_refuted. Qed.
Print Assumptions C78_closed_refuted.

(** C78 is violated too by a text that begins with A: it is taken for the acknowledgment, which only a client can get.  The rest of the text
    becomes the ID of the connection, and the text is lost: it is not kept, no callback is called for it and nothing is answered. *)
Theorem C78_taken_refuted : forall G c t w typ text rest,
  calm G w c -> g_client G c = false -> c_acked (conn_of w c) = false -> c_in (conn_of w c) = (typ, String "A" text) :: rest ->
  exists w', exec t (code G (TReaderLoop c)) w = XDone w' (Some (TReaderLoop c)) /\ c_id (conn_of w' c) = text /\ c_acked (conn_of w' c) = true /\
    view w' c = view w c /\ c_in (conn_of w' c) = rest /\ c_qtext (conn_of w' c) = c_qtext (conn_of w c) /\ c_qbin (conn_of w' c) = c_qbin (conn_of w c).
Proof. exact l_C78_taken_refuted. Qed.
Print Assumptions C78_taken_refuted.

(** C78.  "Hello, is anyone there?" and "Anna here" are such texts, and "hello" is one that is kept. *)
Example C78_example : let w1 := s_w (letterS "Hello, is anyone there?") in let w2 := s_w (letterS "Anna here") in let w3 := s_w (letterS "hello") in
  reachable exG (letterS "Hello, is anyone there?") /\ reachable exG (letterS "Anna here") /\ reachable exG (letterS "hello") /\
  setting exG 1 exA /\ g_client exG 1 = false /\ onlyNative exG 1 = false /\
  calm exG w1 1 /\ c_acked (conn_of w1 1) = false /\ c_closeCh (conn_of w1 1) = false /\ cs_rooms (view w1 1) = ∅ /\ c_in (conn_of w1 1) = [(TextMessage, String "H" "ello, is anyone there?")] /\
  calm exG w2 1 /\ c_acked (conn_of w2 1) = false /\ c_in (conn_of w2 1) = [(TextMessage, String "A" "nna here")] /\
  calm exG w3 1 /\ c_acked (conn_of w3 1) = false /\ c_in (conn_of w3 1) = [(TextMessage, "hello")] /\ early "hello".
Proof. exact x_C78_example. Qed.
