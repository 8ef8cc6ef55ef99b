(** * Prop_Close.v : property theorems (generated by tools/genprops.py from CloseProofs.v).
    Every proof is the lemma of the same name in CloseProofs.v. *)
From Coq Require Import ZArith.
From stdpp Require Import gmap strings list relations.
From RecordUpdate Require Import RecordUpdate.
From Verif Require Import Go Errors Message World Lang Code Sem Spec_Conn Spec_View Examples.
From Verif Require Import CloseProofs.

(** C21. Close runs, for each connected namespace in some order, the forced leave and left callbacks of
    each of its rooms and then the disconnect callback, each once; nothing stays connected; no frame is
    written; waiters are forgotten; the socket is closed; the server is told (by a new goroutine); other
    connections are untouched. *)
Theorem C21_close : forall G c A t w,
  setting G c A -> quiet G w c -> c_closeCh (conn_of w c) = false ->
  let s := view w c in
  exists w' orders,
    exec t (Close G c) w = XDone w' tt /\
    Permutation (map fst orders) (elements (dom (cs_rooms s))) /\
    (forall ns order, (ns, order) ∈ orders -> exists rs, cs_rooms s !! ns = Some rs /\ Permutation order (elements rs)) /\
    let s' := view w' c in
    cs_rooms s' = ∅ /\ cs_sent s' = cs_sent s /\ cs_subs s' = cs_subs s /\
    cs_fired s' = flat_map (close_calls A) (rev orders) ++ cs_fired s /\
    c_closed (conn_of w' c) = true /\ c_sockclosed (conn_of w' c) = true /\
    c_acked (conn_of w' c) = false /\ c_waiting (conn_of w' c) = ∅ /\
    w_spawn w' = w_spawn w ++ (if g_client G c then [] else [TDisconnect c]) /\
    (forall c', c' <> c -> conn_of w' c' = conn_of w c') /\ w_srv w' = w_srv w.
Proof. exact l_C21_close. Qed.
Print Assumptions C21_close.

Example C21_example : reachable exG exM /\ setting exG 1 exA /\ quiet exG (s_w exM) 1 /\
  c_closeCh (conn_of (s_w exM) 1) = false /\
  cs_rooms (view (s_w exM) 1) = {["chat" := {["open"; "jail"]}]} /\
  length (close_calls exA ("chat", ["open"; "jail"])) = 5.
Proof.
  split; [apply play_reachable|]. split; [apply ex_setting|]. split; [apply ex_calm; auto|].
  split; [vm_compute; reflexivity|]. split; [decide_eq|]. vm_compute. reflexivity.
Qed.

(** C21. A second Close does nothing. *)
Theorem C21_close_again : forall G c t w, c_closed (conn_of w c) = true -> exec t (Close G c) w = XDone w tt.
Proof. exact l_C21_close_again. Qed.
Print Assumptions C21_close_again.
