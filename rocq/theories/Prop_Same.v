(** * Prop_Same.v : property theorems (generated by tools/genprops.py from SameProofs.v).
    Every proof is the lemma of the same name in SameProofs.v. *)
From Coq Require Import ZArith.
From stdpp Require Import gmap strings list relations.
From RecordUpdate Require Import RecordUpdate.
From Verif Require Import Go Errors Message World Lang Code Sem Spec_App Spec_Conn Spec_View Spec_Stuck Spec_Same CarelessProofs Examples SameProofs.
From Verif Require Import SameProofs.

(** C76, as far as it holds.  An Ask leaves the Asks alone that already wait on the connection, if none of them was made at the same
    reading of the clock: each still waits for its own token, and the new one too. *)
Theorem C76_apart_partial : forall G c A t x m w,
  setting G c A -> quiet G w c -> c_inside (conn_of w c) = false -> ctx_live w x -> m_err m = None ->
  let token := genWait (g_client G c) (w_now w) in
  may_send (role_of G c w) (cs_rooms (view w c)) (set_wait token m) = true ->
  (forall now ch, c_waiting (conn_of w c) !! genWait (g_client G c) now = Some ch -> now <> w_now w) ->
  exists w1 ch k, exec t (impl G (AAsk c x m)) w = XBlocked w1 (OSelect ch x) k /\ c_waiting (conn_of w1 c) !! token = Some ch /\
    forall tok' ch', c_waiting (conn_of w c) !! tok' = Some ch' -> c_waiting (conn_of w1 c) !! tok' = Some ch'.
Proof. exact l_C76_apart_partial. Qed.
Print Assumptions C76_apart_partial.

(** C76 is violated.  If an Ask that waits was made at the same reading of the clock, then the new one sends its question with the same
    token and takes the place of the other: the reply with that token, to whichever question, goes to the new one. *)
Theorem C76_replaced_refuted : forall G c A t x m w ch1,
  setting G c A -> quiet G w c -> c_inside (conn_of w c) = false -> ctx_live w x -> m_err m = None ->
  let token := genWait (g_client G c) (w_now w) in
  may_send (role_of G c w) (cs_rooms (view w c)) (set_wait token m) = true ->
  c_waiting (conn_of w c) !! token = Some ch1 -> ch1 < w_next w ->
  exists w1 ch2 k, exec t (impl G (AAsk c x m)) w = XBlocked w1 (OSelect ch2 x) k /\
    c_out (conn_of w1 c) = c_out (conn_of w c) ++ [wire_of (set_wait token m)] /\ ch2 <> ch1 /\ c_waiting (conn_of w1 c) !! token = Some ch2.
Proof. exact l_C76_replaced_refuted. Qed.
Print Assumptions C76_replaced_refuted.

(** C76, a whole run.  Two goroutines ask, one about the time and the other about the weather, at the same reading of the clock.  The other
    side answers both questions, with the tokens they came with: the goroutine that asked about the weather is told the time, and the one
    that asked about the time waits for ever: nothing is left to read, nobody is registered for a reply any more, and no continuation
    of the run, whatever messages it delivers, lets the goroutine go on. *)
Theorem C76_refuted : exists G s, user_app (fun _ => True) G /\ g_user G 0 = ask_and_tell "time" /\ g_user G 1 = ask_and_tell "weather" /\
  reachable G s /\ s_crash s = None /\
  c_out (conn_of (s_w s) 1) = [(TextMessage, "Aid-1"); (TextMessage, "$1;;;;;;"); (TextMessage, "0;chat;;time;0;0;"); (TextMessage, "0;chat;;weather;0;0;");
    (TextMessage, ";chat;;told about weather;0;0;noon")] /\
  map snd (c_got (conn_of (s_w s) 1)) = ["M"; "$1;chat;;_OnNamespaceConnect;0;0;"; "0;chat;;time;0;0;noon"; "0;chat;;weather;0;0;rain"] /\
  c_in (conn_of (s_w s) 1) = [] /\ map_to_list (c_waiting (conn_of (s_w s) 1)) = [] /\
  (exists t ch, at_op s t (OSelect ch None) /\ stuck G s t).
Proof. exact l_C76_refuted. Qed.
Print Assumptions C76_refuted.

(** C76.  The hypotheses of the theorem about the replaced Ask hold in a reachable state, when the goroutine that asked about the time waits
    and the one that asks about the weather starts; and those of the theorem about Asks apart hold in that state one tick of the clock later. *)
Example C76_example : let w := s_w twoS in let w' := w <| w_now := 1%Z |> in let m := question_about "weather" in
  reachable sameG twoS /\ setting sameG 1 samePure /\ quiet sameG w 1 /\ c_inside (conn_of w 1) = false /\ m_err m = None /\
  may_send (role_of sameG 1 w) (cs_rooms (view w 1)) (set_wait (genWait (g_client sameG 1) (w_now w)) m) = true /\
  (exists ch, c_waiting (conn_of w 1) !! genWait (g_client sameG 1) (w_now w) = Some ch /\ ch < w_next w) /\
  quiet sameG w' 1 /\ may_send (role_of sameG 1 w') (cs_rooms (view w' 1)) (set_wait (genWait (g_client sameG 1) (w_now w')) m) = true /\
  (forall now ch, c_waiting (conn_of w' 1) !! genWait (g_client sameG 1) now = Some ch -> now <> w_now w').
Proof. exact x_C76_example. Qed.
