(** * ExitProofs.v : what the stack exchange is told about connections (C80). *)
From Coq Require Import ZArith.
From stdpp Require Import gmap strings list relations.
From RecordUpdate Require Import RecordUpdate.
From Verif Require Import Go Errors Message World Lang Code Sem ExecProofs Spec_App Spec_Conn Spec_View Spec_Exit SeqProofs LocalProofs Examples.

(*@file Prop_Exit.v
From Coq Require Import ZArith.
From stdpp Require Import gmap strings list relations.
From RecordUpdate Require Import RecordUpdate.
From Verif Require Import Go Errors Message World Lang Code Sem Spec_App Spec_Conn Spec_View Spec_Exit Examples ExitProofs. @*)

#[local] Open Scope prog_scope.
Section exit.
Context (G : cfg) (t : tid) (c : cid).
Definition gone (w : world) : world :=
  upd_srv (fun s => s <| s_count ::= fun n => (n + -1)%Z |>) (upd_srv (fun s => s <| s_conns ::= fun d => d ∖ {[c]} |>)
    (upd_srv (srv_take (SDisconnect c)) (pop_seed w) <| w_log ::= cons (LSrv (SDisconnect c)) |>)).
Lemma gone_log w : w_log (gone w) = LSrv (SDisconnect c) :: w_log w.
Proof. reflexivity. Qed.
Lemma gone_conn w : conn_of (gone w) c = conn_of w c.
Proof. reflexivity. Qed.
Lemma gone_conns w : c ∉ s_conns (w_srv (gone w)).
Proof. cbn. set_solver. Qed.
Lemma server_gone w : next_is w (SDisconnect c) -> c ∈ s_conns (w_srv w) ->
  exec t (server_step G) w = exec t (
      let! skip :=
        match g_ondisconnect G with
        | None => Ret false
        | Some f =>
            let! quiet :=
              if g_firealways G then Ret false else
              let! ready := opr (OWReady c) in
              if negb ready then Ret true else
              let! err := opr (OWErr c) in
              Ret (match err with Some _ => true | None => false end) in
            if quiet : bool then Ret true
            else opr (OLog (LOnDisconnect c)) ;;; f c ;;; Ret false
        end in
      if skip : bool then Ret tt else exch_call G (XOnDisconnect c)) (gone w).
Proof.
  intros Hn Hc. unfold server_step.
  rewrite (exec_opb t OSrvSelect _ _ (upd_srv (srv_take (SDisconnect c)) (pop_seed w)) (SDisconnect c)) by (cbn [ostep]; rewrite Hn; reflexivity).
  rewrite (exec_opb t (OLog (LSrv (SDisconnect c))) _ _ _ _ eq_refl).
  rewrite (exec_opb t (OSMem c) _ _ _ true) by (cbn [ostep]; f_equal; apply bool_decide_eq_true; exact Hc).
  cbn [negb]. rewrite (exec_opb t (OSDel c) _ _ _ _ eq_refl). rewrite (exec_opb t (OSCountAdd (-1)) _ _ _ _ eq_refl). reflexivity.
Qed.
End exit.

(*@prop C80, as far as it holds.  The server takes up the end of a connection it knows, and has a stack exchange.  Without an OnDisconnect callback
    the exchange is told. @*)
Lemma l_C80_plain_partial : forall G t c w,
  g_exch G <> None -> g_ondisconnect G = None -> next_is w (SDisconnect c) -> c ∈ s_conns (w_srv w) ->
  exists w', exec t (server_step G) w = XDone w' tt /\ w_log w' = LExch (XOnDisconnect c) :: LSrv (SDisconnect c) :: w_log w /\ c ∉ s_conns (w_srv w').
Proof.
  intros G t c w He Hd Hn Hc. rewrite (server_gone G t c w Hn Hc), Hd. unfold exch_call, usesStackExchange. destruct (g_exch G); [|contradiction].
  cbn [bind opr exec ostep]. eexists. split; [reflexivity|]. split; [reflexivity|]. apply gone_conns.
Qed.
(*@prop C80, as far as it holds.  With an OnDisconnect callback that returns, the exchange is told after the callback if the connection was accepted, or
    if FireDisconnectAlways is set. @*)
Lemma l_C80_accepted_partial : forall G t c w f,
  g_exch G <> None -> g_ondisconnect G = Some f -> next_is w (SDisconnect c) -> c ∈ s_conns (w_srv w) ->
  g_firealways G = true \/ was_accepted w c ->
  exists w1, w_log w1 = LOnDisconnect c :: LSrv (SDisconnect c) :: w_log w /\ c ∉ s_conns (w_srv w1) /\
    forall w2, exec t (f c) w1 = XDone w2 tt ->
      exists w', exec t (server_step G) w = XDone w' tt /\ w_log w' = LExch (XOnDisconnect c) :: w_log w2.
Proof.
  intros G t c w f He Hd Hn Hc Ha. rewrite (server_gone G t c w Hn Hc), Hd. unfold exch_call, usesStackExchange. destruct (g_exch G); [|contradiction].
  exists (gone c w <| w_log ::= cons (LOnDisconnect c) |>). split; [reflexivity|]. split; [apply gone_conns|]. intros w2 E.
  eexists. split; [|shelve].
  assert (Eq : exec t (if g_firealways G then Ret false else
              let! ready := opr (OWReady c) in
              if negb ready then Ret true else
              let! err := opr (OWErr c) in
              Ret (match err with Some _ => true | None => false end)) (gone c w) = XDone (gone c w) false).
  { destruct (g_firealways G); [reflexivity|]. destruct Ha as [Ha|[H1 H2]]; [discriminate Ha|]. cbn [bind opr exec ostep]. rewrite gone_conn, H1. cbn [negb bind opr exec ostep].
    rewrite gone_conn, H2. reflexivity. }
  rewrite exec_bind. rewrite (exec_bind_done _ _ _ _ _ _ Eq). cbn [bind opr exec ostep]. rewrite (exec_bind_done _ _ _ _ _ _ E). cbn [xbind exec bind opr ostep]. reflexivity.
  Unshelve. reflexivity.
Qed.
(*@prop C80 is violated.  With an OnDisconnect callback and without FireDisconnectAlways, the exchange is not told about the end of a connection that
    was not accepted; and the server forgets the connection, so that it will not be told later. @*)
Lemma l_C80_refused_refuted : forall G t c w f,
  g_ondisconnect G = Some f -> g_firealways G = false -> next_is w (SDisconnect c) -> c ∈ s_conns (w_srv w) -> ~ was_accepted w c ->
  exists w', exec t (server_step G) w = XDone w' tt /\ w_log w' = LSrv (SDisconnect c) :: w_log w /\ c ∉ s_conns (w_srv w').
Proof.
  intros G t c w f Hd Hf Hn Hc Ha. exists (gone c w). split; [|split; [reflexivity|apply gone_conns]]. rewrite (server_gone G t c w Hn Hc), Hd, Hf.
  cbn [bind opr exec ostep]. rewrite gone_conn. destruct (w_ready (c_wait (conn_of w c))) eqn:E1; cbn [negb bind opr exec ostep]; [|reflexivity].
  rewrite gone_conn. destruct (w_err (c_wait (conn_of w c))) eqn:E2; cbn; [reflexivity|]. destruct Ha. split; assumption.
Qed.
Definition exitE : Code.exchange := Exchange (fun _ => None) (fun _ => true) (fun _ m _ => (m, None)) (fun _ _ => None).
Definition exitG (accept : bool) : cfg := {|
  g_client := fun c => Nat.eqb c 2; g_namespaces := fun _ => lift exA; g_connid := fun c => "id-1"; g_uuid := "u"; g_ptr := fun c => "0x1";
  g_known := knownErrors0; g_exch := Some exitE; g_sync := false; g_firealways := false;
  g_onconnect := Some (fun _ => Ret (if accept then None else Some (EUser 0 "no"))); g_ondisconnect := Some (fun _ => Ret tt);
  g_do := fun _ _ => Ret tt; g_user := fun _ => Ret tt |}.
Definition arrival : list cmd := [Go 0; Act1 (Env (EGo (TUpgrade 1))); Go 1; Act1 Start; Go 0; Go 2; Act1 (Env (EDeliver 1 TextMessage "M")); Go 2;
  Act1 (Env (EReadEnd 1 use_of_closed)); Go 2; Act1 Start; Act1 (Step 3)].
Definition exitR : list cmd := arrival ++ [Go 0; Go 3].
Definition exitS (accept : bool) : sys := play (exitG accept) exitR (init (exitG accept)).
Definition exitingS (accept : bool) : sys := play (exitG accept) arrival (init (exitG accept)).
Lemma exit_app b : user_app (fun _ => True) (exitG b).
Proof.
  constructor; try (intros; exact Logic.I).
  - intros c ns evs ev h n m Ha Hb. change (lift exA !! ns = Some evs) in Ha. unfold lift in Ha. rewrite lookup_fmap in Ha. destruct (exA !! ns) as [evs0|]; [|discriminate Ha].
    injection Ha as <-. rewrite lookup_fmap in Hb. destruct (evs0 !! ev) as [f|]; [|discriminate Hb]. injection Hb as <-. exact Logic.I.
  - intros f c H. injection H as <-. exact Logic.I.
  - intros f c H. injection H as <-. exact Logic.I.
Qed.
Lemma exit_reachable b : reachable (exitG b) (exitS b).
Proof. unfold exitS. apply play_reachable. Qed.
Lemma exiting_reachable b : reachable (exitG b) (exitingS b).
Proof. unfold exitingS. apply play_reachable. Qed.
(*@prop C80, a whole run.  OnConnect refuses a connection.  It is closed, the server has forgotten it, and nothing is left to do; the stack exchange was
    told that it came, and is not told that it went. @*)
Lemma l_C80_refuted : exists G s, user_app (fun _ => True) G /\ g_exch G <> None /\ reachable G s /\ s_crash s = None /\
  c_closed (conn_of (s_w s) 1) = true /\ elements (s_conns (w_srv (s_w s))) = [] /\ s_disc (w_srv (s_w s)) = [] /\ w_spawn (s_w s) = [] /\ map fst (map_to_list (s_th s)) = [0] /\
  exchange_calls (s_w s) = [XOnConnect 1].
Proof.
  exists (exitG false), (exitS false). split; [apply exit_app|]. split; [discriminate|]. split; [apply exit_reachable|].
  do 6 (split; [vm_compute; reflexivity|]). vm_compute. reflexivity.
Qed.
(*@exl C80.  The same application when it accepts and when it refuses: the server is about to take up the end of the connection, and the exchange is told in the
    first case. @*)
Lemma x_C80_example : (forall b, reachable (exitG b) (exitingS b)) /\ (forall b, next_is (s_w (exitingS b)) (SDisconnect 1)) /\ (forall b, 1 ∈ s_conns (w_srv (s_w (exitingS b)))) /\
  was_accepted (s_w (exitingS true)) 1 /\ ~ was_accepted (s_w (exitingS false)) 1 /\ exchange_calls (s_w (exitS true)) = [XOnDisconnect 1; XOnConnect 1].
Proof.
  split; [exact exiting_reachable|]. split; [intros []; vm_compute; reflexivity|].
  split. { intros b. apply elem_of_elements. replace (elements _) with [1] by (destruct b; vm_compute; reflexivity). left. }
  split; [split; vm_compute; reflexivity|]. split; [|vm_compute; reflexivity].
  intros [_ H]. assert (E : (match w_err (c_wait (conn_of (s_w (exitingS false)) 1)) with Some _ => true | None => false end) = true) by (vm_compute; reflexivity).
  rewrite H in E. discriminate E.
Qed.
