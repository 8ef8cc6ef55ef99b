(** * SameProofs.v : questions that are asked at the same moment (C76). *)
From Coq Require Import ZArith.
From stdpp Require Import gmap strings list relations.
From RecordUpdate Require Import RecordUpdate.
From Verif Require Import Go Errors Message World Lang Code Sem ExecProofs Spec_App Spec_Conn Spec_View Spec_Stuck Spec_Same SeqProofs LocalProofs WireProofs CarelessProofs IdentProofs Examples StuckProofs.

(*@file Prop_Same.v
From Coq Require Import ZArith.
From stdpp Require Import gmap strings list relations.
From RecordUpdate Require Import RecordUpdate.
From Verif Require Import Go Errors Message World Lang Code Sem Spec_App Spec_Conn Spec_View Spec_Stuck Spec_Same CarelessProofs Examples SameProofs. @*)

Lemma ask_adds G c A t x m w : setting G c A -> quiet G w c -> c_inside (conn_of w c) = false -> ctx_live w x -> m_err m = None ->
  let token := genWait (g_client G c) (w_now w) in
  may_send (role_of G c w) (cs_rooms (view w c)) (set_wait token m) = true ->
  exists w1 k, exec t (Ask G c x m) w = XBlocked w1 (OSelect (w_next w) x) k /\
    c_out (conn_of w1 c) = c_out (conn_of w c) ++ [wire_of (set_wait token m)] /\
    c_waiting (conn_of w1 c) = <[token := w_next w]> (c_waiting (conn_of w c)).
Proof.
  intros St Q Hin Hx He token Hmay. pose proof (At G c w (view w c) (c_nss (conn_of w c)) Q eq_refl eq_refl) as H.
  assert (Hp : printable (set_wait token m)). { unfold printable. cbn. rewrite He. exact Logic.I. }
  destruct (ask_blocks G c A St t w _ _ x m H Hx Hp Hin Hmay) as (w1 & E & H1 & _ & _). exists w1. eexists. split; [exact E|]. split.
  { pose proof (f_equal cs_sent (a_view _ _ _ _ _ H1)) as Hv. exact Hv. }
  revert E. unfold Ask.
  rewrite (exec_opb t (OIsInside c) _ _ w false) by (cbn [ostep]; rewrite Hin; reflexivity).
  unfold ask. rewrite (app_mixed _ _ _ St).
  rewrite (exec_opb t (OIsClosed c) _ _ w false) by (cbn [ostep]; rewrite (q_open _ _ _ (a_quiet _ _ _ _ _ H)); reflexivity).
  rewrite (exec_opb t (OCtxLate x) _ _ w false).
  2:{ cbn [ostep]. f_equal. destruct x as [k|]; [|reflexivity]. cbn in Hx. destruct (w_ctxs w !! k) as [xc|]; [|reflexivity].
      destruct Hx as [_ Hx]. destruct (x_deadline xc); [|reflexivity]. apply Z.ltb_ge. exact Hx. }
  rewrite (exec_opb t (ONewChan 1) _ _ _ _ eq_refl).
  rewrite (exec_opb t ONow _ _ _ _ eq_refl).
  change (IsClient G c) with (g_client G c). change (w_now (w <| w_chans ::= _ |> <| w_next ::= _ |>)) with (w_now w). fold token.
  rewrite (exec_opb t (OLog (LAsk c token)) _ _ _ _ eq_refl).
  change (if false then opr (OSpawn (TReadNext c (w_next w))) else opr (OWaitPut c token (w_next w))) with (opr (OWaitPut c token (w_next w))).
  rewrite (exec_opb t (OWaitPut c token (w_next w)) _ _ (ask_world c token w) tt eq_refl).
  pose proof (at_ask G c token _ _ _ H) as Ha.
  assert (HR : role_of G c (ask_world c token w) = role_of G c w). { unfold role_of, ask_world. rewrite conn_upd_eq. reflexivity. }
  destruct (Write_runs G c t _ _ _ (set_wait token m) Ha Hp) as (w2 & E2 & _ & O2). rewrite HR, Hmay in E2.
  rewrite (exec_bind_done _ _ _ _ _ _ E2). cbn [negb].
  intros E. assert (Ew : w1 = w2).
  { revert E. cbn [opr bind exec ostep]. destruct (pick w2 _) as [r|]; [|intros E; injection E as <-; reflexivity].
    destruct r as [e|r]; cbn [bind opr exec ostep]; discriminate. }
  rewrite Ew, (y_waiting _ _ _ O2). unfold ask_world. rewrite conn_upd_eq. reflexivity.
Qed.

(*@prop C76, as far as it holds.  An Ask leaves the Asks alone that already wait on the connection, if none of them was made at the same
    reading of the clock: each still waits for its own token, and the new one too. @*)
Lemma l_C76_apart_partial : forall G c A t x m w,
  setting G c A -> quiet G w c -> c_inside (conn_of w c) = false -> ctx_live w x -> m_err m = None ->
  let token := genWait (g_client G c) (w_now w) in
  may_send (role_of G c w) (cs_rooms (view w c)) (set_wait token m) = true ->
  (forall now ch, c_waiting (conn_of w c) !! genWait (g_client G c) now = Some ch -> now <> w_now w) ->
  exists w1 ch k, exec t (impl G (AAsk c x m)) w = XBlocked w1 (OSelect ch x) k /\ c_waiting (conn_of w1 c) !! token = Some ch /\
    forall tok' ch', c_waiting (conn_of w c) !! tok' = Some ch' -> c_waiting (conn_of w1 c) !! tok' = Some ch'.
Proof.
  intros G c A t x m w St Q Hin Hx He token Hmay Hno. destruct (ask_adds G c A t x m w St Q Hin Hx He Hmay) as (w1 & k & E & _ & Hw). fold token in Hw.
  exists w1, (w_next w), k. split; [exact E|]. rewrite Hw. split; [apply lookup_insert|]. intros tok' ch' H. rewrite lookup_insert_ne; [exact H|].
  intros <-. apply (Hno _ _ H). reflexivity.
Qed.
(*@prop C76 is violated.  If an Ask that waits was made at the same reading of the clock, then the new one sends its question with the same
    token and takes the place of the other: the reply with that token, to whichever question, goes to the new one. @*)
Lemma l_C76_replaced_refuted : forall G c A t x m w ch1,
  setting G c A -> quiet G w c -> c_inside (conn_of w c) = false -> ctx_live w x -> m_err m = None ->
  let token := genWait (g_client G c) (w_now w) in
  may_send (role_of G c w) (cs_rooms (view w c)) (set_wait token m) = true ->
  c_waiting (conn_of w c) !! token = Some ch1 -> ch1 < w_next w ->
  exists w1 ch2 k, exec t (impl G (AAsk c x m)) w = XBlocked w1 (OSelect ch2 x) k /\
    c_out (conn_of w1 c) = c_out (conn_of w c) ++ [wire_of (set_wait token m)] /\ ch2 <> ch1 /\ c_waiting (conn_of w1 c) !! token = Some ch2.
Proof.
  intros G c A t x m w ch1 St Q Hin Hx He token Hmay H1 Hlt. destruct (ask_adds G c A t x m w St Q Hin Hx He Hmay) as (w1 & k & E & Ho & Hw). fold token in Ho, Hw.
  exists w1, (w_next w), k. split; [exact E|]. split; [exact Ho|]. split; [lia|]. rewrite Hw. apply lookup_insert.
Qed.

(** No goroutine is about to read the next message for an Ask: one that reads does not hand on what it read. *)
Definition hands_on {A} (p : prog A) : bool :=
  match p with
  | Do o k => match o as o return (res o -> prog A) -> bool with
              | ORead _ => fun k => match first_op (k (inl EWrite)) with Some (OChSend _ _) => true | _ => false end
              | _ => fun _ => false
              end k
  | _ => false
  end.
Lemma no_next G s : forallb (fun e : tid * prog (option tcode) => negb (hands_on (snd e))) (map_to_list (s_th s)) = true ->
  forall c ch t, s_th s !! t <> Some (code G (TReadNext c ch)).
Proof.
  intros H c ch t E. rewrite forallb_forall in H. specialize (H (t, code G (TReadNext c ch))). cbn in H. discriminate H.
  apply elem_of_list_In, elem_of_map_to_list, E.
Qed.

Definition sameA : gmap string (gmap string handler) := {["chat" := {["news" := ((fun _ _ => Ret None) : handler)]}]}.
Definition sameG : cfg := {|
  g_client := fun c => Nat.eqb c 2; g_namespaces := fun _ => sameA; g_connid := fun c => "id-1"; g_uuid := "u"; g_ptr := fun c => "0x1";
  g_known := knownErrors0; g_exch := None; g_sync := false; g_firealways := false; g_onconnect := None; g_ondisconnect := None;
  g_do := fun _ _ => Ret tt; g_user := fun k => ask_and_tell (match k with O => "time" | _ => "weather" end) |}.
(** The handshake of connection 1; the goroutine that waits for broadcasts for it (2) has not begun. *)
Definition same_handshake : list cmd := [Go 0; Act1 (Env (EGo (TUpgrade 1))); Go 1; Act1 Start; Act1 Start; Go 0; Go 3; Go 1; Act1 (Env (EDeliver 1 TextMessage "M")); Go 3].
Definition sameR : list cmd := same_handshake ++ [Act1 (Env (EDeliver 1 TextMessage "$1;chat;;_OnNamespaceConnect;0;0;")); Go 3;
  Act1 (Env (EGo (TUser 0))); Go 4; Act1 (Env (EGo (TUser 1))); Go 5;
  Act1 (Env (EDeliver 1 TextMessage "0;chat;;time;0;0;noon")); Go 3; Go 5; Go 4;
  Act1 (Env (EDeliver 1 TextMessage "0;chat;;weather;0;0;rain")); Go 3; Go 5; Go 4].
Definition sameS : sys := play sameG sameR (init sameG).
Definition waits_in_select (s : sys) (t : tid) : bool := match s_th s !! t with Some (Do (OSelect _ _) _) => true | _ => false end.
Definition twoR : list cmd := same_handshake ++ [Act1 (Env (EDeliver 1 TextMessage "$1;chat;;_OnNamespaceConnect;0;0;")); Go 3; Act1 (Env (EGo (TUser 0))); Go 4].
Definition twoS : sys := play sameG twoR (init sameG).
(*@prop C76, a whole run.  Two goroutines ask, one about the time and the other about the weather, at the same reading of the clock.  The other
    side answers both questions, with the tokens they came with: the goroutine that asked about the weather is told the time, and the one
    that asked about the time waits for ever: nothing is left to read, nobody is registered for a reply any more, and no continuation
    of the run, whatever messages it delivers, lets the goroutine go on. @*)
Lemma l_C76_refuted : exists G s, user_app (fun _ => True) G /\ g_user G 0 = ask_and_tell "time" /\ g_user G 1 = ask_and_tell "weather" /\
  reachable G s /\ s_crash s = None /\
  c_out (conn_of (s_w s) 1) = [(TextMessage, "Aid-1"); (TextMessage, "$1;;;;;;"); (TextMessage, "0;chat;;time;0;0;"); (TextMessage, "0;chat;;weather;0;0;");
    (TextMessage, ";chat;;told about weather;0;0;noon")] /\
  map snd (c_got (conn_of (s_w s) 1)) = ["M"; "$1;chat;;_OnNamespaceConnect;0;0;"; "0;chat;;time;0;0;noon"; "0;chat;;weather;0;0;rain"] /\
  c_in (conn_of (s_w s) 1) = [] /\ map_to_list (c_waiting (conn_of (s_w s) 1)) = [] /\
  (exists t ch, at_op s t (OSelect ch None) /\ stuck G s t).
Proof.
  exists sameG, sameS.
  assert (HA : user_app (fun _ => True) sameG).
  { constructor; try discriminate; try (intros; exact Logic.I).
    - intros c ns evs ev h n m' Ha Hb. change (sameA !! ns = Some evs) in Ha. unfold sameA in Ha. apply lookup_singleton_Some in Ha as [<- <-].
      apply lookup_singleton_Some in Hb as [<- <-]. cbn. auto.
    - intros k. cbn. split; [exact Logic.I|]. intros r. cbn. auto. }
  assert (Hr : reachable sameG sameS) by apply play_reachable.
  split; [exact HA|].
  split; [reflexivity|]. split; [reflexivity|]. split; [exact Hr|]. do 5 (split; [vm_compute; reflexivity|]).
  assert (Ha : at_op sameS 4 (OSelect 2 None)) by at_op_tac.
  exists 4, 2. split; [exact Ha|].
  apply (l_C25_refuted sameG sameS 4 2 HA Hr); [idle_tac|exact Ha|..].
  - apply Nat.ltb_lt. vm_compute. reflexivity.
  - vm_compute. reflexivity.
  - intros c tok. apply nobody_waits. vm_compute. reflexivity.
  - intros tok. replace (s_waiting _) with (∅ : gmap string chid) by (vm_compute; reflexivity). rewrite lookup_empty. discriminate.
  - intros c. replace (w_spawn _) with (@nil tcode) by (vm_compute; reflexivity). apply not_elem_of_nil.
  - intros c t'. apply no_next. vm_compute. reflexivity.
Qed.
Definition samePure : app := {["chat" := {["news" := fun _ => None]}]}.
Lemma same_setting : setting sameG 1 samePure.
Proof.
  constructor.
  - change (g_namespaces sameG 1) with sameA. unfold sameA, samePure, lift. rewrite map_fmap_singleton. f_equal. rewrite map_fmap_singleton. reflexivity.
  - intros ns evs key f m e H1 H2 H3. unfold samePure in H1. apply lookup_singleton_Some in H1 as [<- <-]. apply lookup_singleton_Some in H2 as [<- <-]. discriminate H3.
  - vm_compute. reflexivity.
Qed.
(*@exl C76.  The hypotheses of the theorem about the replaced Ask hold in a reachable state, when the goroutine that asked about the time waits
    and the one that asks about the weather starts; and those of the theorem about Asks apart hold in that state one tick of the clock later. @*)
Lemma x_C76_example : let w := s_w twoS in let w' := w <| w_now := 1%Z |> in let m := question_about "weather" in
  reachable sameG twoS /\ setting sameG 1 samePure /\ quiet sameG w 1 /\ c_inside (conn_of w 1) = false /\ m_err m = None /\
  may_send (role_of sameG 1 w) (cs_rooms (view w 1)) (set_wait (genWait (g_client sameG 1) (w_now w)) m) = true /\
  (exists ch, c_waiting (conn_of w 1) !! genWait (g_client sameG 1) (w_now w) = Some ch /\ ch < w_next w) /\
  quiet sameG w' 1 /\ may_send (role_of sameG 1 w') (cs_rooms (view w' 1)) (set_wait (genWait (g_client sameG 1) (w_now w')) m) = true /\
  (forall now ch, c_waiting (conn_of w' 1) !! genWait (g_client sameG 1) now = Some ch -> now <> w_now w').
Proof.
  intros w w' m. split; [apply play_reachable|]. split; [exact same_setting|]. split; [apply quietb_ok; vm_compute; reflexivity|].
  do 3 (split; [vm_compute; reflexivity|]). split.
  { assert (E : match c_waiting (conn_of w 1) !! genWait (g_client sameG 1) (w_now w) with Some ch => Nat.ltb ch (w_next w) | None => false end = true) by (vm_compute; reflexivity).
    revert E. destruct (c_waiting (conn_of w 1) !! genWait (g_client sameG 1) (w_now w)) as [ch|]; intros E; [|discriminate E]. exists ch. split; [reflexivity|]. apply Nat.ltb_lt, E. }
  split; [apply quietb_ok; vm_compute; reflexivity|]. split; [vm_compute; reflexivity|].
  intros now ch H Hn. rewrite Hn in H. assert (E : bool_decide (c_waiting (conn_of w' 1) !! genWait (g_client sameG 1) (w_now w') = None) = true) by (vm_compute; reflexivity).
  apply bool_decide_eq_true in E. rewrite E in H. discriminate H.
Qed.
