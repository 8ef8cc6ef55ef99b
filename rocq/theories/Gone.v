(** * Gone.v : the server gives up a connection, and runs OnDisconnect for it,
    only when the connection is closed (C67), in every interleaving. *)
From Coq Require Import ZArith.
From stdpp Require Import gmap strings list relations.
From RecordUpdate Require Import RecordUpdate.
From Verif Require Import Go Errors Message World Lang Code Sem Logic Spec_App Frame End.

Section gone.
Context (G : cfg) (c : cid).
(** Ghost state: whether the goroutine knows that [c] is closed. *)
Definition grule (l : bool) (o : op) : (res o -> bool -> Prop) -> Prop :=
  match o as o return (res o -> bool -> Prop) -> Prop with
  | OCasClosed c' => fun P => forall r, P r (if Nat.eqb c' c then true else l)
  | OSrvSelect => fun P => forall r, P r (match r with SDisconnect c' => if Nat.eqb c' c then true else l | _ => l end)
  | OSpawn (TDisconnect c') => fun P => (c' = c -> l = true) /\ P tt l
  | OSDiscSend c' => fun P => (c' = c -> l = true) /\ P tt l
  | OSDel c' | OCloseCh c' | OSockClose c' => fun P => (c' = c -> l = true) /\ P tt l
  | OLog (LOnDisconnect c') => fun P => (c' = c -> l = true) /\ P tt l
  | OLog (LSrv (SDisconnect c')) => fun P => (c' = c -> l = true) /\ P tt l
  | _ => fun P => forall r, P r l
  end.
Notation imp := End.imp.
Notation knows := (fun (l : bool) (c' : cid) => c' = c -> l = true).
Definition GS : lspec := {|
  ls_L := bool; ls_rule := grule; ls_cpre := fun _ _ => True; ls_cpost := fun l _ _ l' => imp l l';
  ls_crash := fun _ => True; ls_start := fun x l => match x with TDisconnect c' => c' = c -> l = true | _ => True end; ls_fin := fun _ => True |}.
Lemma gmono : rule_mono GS.
Proof.
  intros l o P P' H. destruct o; cbn; auto; try match goal with x : tcode |- _ => destruct x | x : event |- _ => destruct x end; cbn; auto;
    try match goal with x : srvmsg |- _ => destruct x end; cbn; auto; intros [? ?]; auto.
Qed.
#[local] Hint Resolve imp_refl imp_if : core.
Context (A : user_app (fun _ => True) G).
Notation any := (fun _ _ => True).
Notation free := (fun _ => True).
Lemma grules : @rules G GS (fun _ => True) imp any any any any any any any any knows any (fun _ _ _ _ => True) (fun _ _ => True).
Proof.
  constructor; cbn; unfold stable; auto using gmono; try (intros; eauto using imp_trans; fail).
  - intros o l P Hp H. destruct o; cbn in *; try discriminate; auto; match goal with x : tcode |- _ => destruct x | x : event |- _ => destruct x end; try discriminate; cbn; auto.
  - intros c0 s l P H r. apply H; [auto|]. destruct r; auto.
  - intros o n l P Ho _ H. destruct o; try discriminate Ho; cbn; auto.
  - intros c0 l P H r. apply H; [auto|]. intros -> ->. rewrite Nat.eqb_refl. reflexivity.
Qed.
Notation kp := (@kp GS imp _).
Notation kpp P := (@kpp GS imp _ P).
Definition neutral (o : op) : bool :=
  match o with OSpawn (TDisconnect _) | OSDiscSend _ | OSDel _ | OCloseCh _ | OSockClose _ | OLog (LOnDisconnect _) | OLog (LSrv _) => false | _ => true end.
Lemma g_free o : neutral o = true -> kp (opr o).
Proof.
  intros H l. destruct o; try discriminate; cbn; try (intros; auto; fail); [| |].
  - intros r. destruct r; auto.
  - destruct code; try discriminate; cbn; auto.
  - destruct e; try discriminate; cbn; auto.
Qed.
Ltac kf := repeat first
  [ apply (kp_ret grules) | apply (kp_crash grules) | match goal with |- @Frame.kp _ _ _ (opr ?o) => exact (g_free o eq_refl) end | assumption
  | match goal with H : forall _, _ |- _ => apply H; fail end
  | match goal with |- @Frame.kp _ _ _ (Do _ _) => apply (kp_do grules); [reflexivity|intros] end
  | apply (kp_for_all grules); intros | apply (kp_bind grules); [|intros]
  | match goal with |- @Frame.kp _ _ _ ?p => match p with context [match ?x with _ => _ end] => destruct x eqn:? end end ].
Lemma g_gates : @gates G GS imp any free.
Proof.
  constructor; intros.
  - unfold wait. kf.
  - unfold unwait. kf.
  - unfold proc_get. kf.
  - apply (kpp_kp grules). unfold proc_Done. kf.
  - unfold proc_Wait. kf.
  - apply (kq_any grules); [auto|]. unfold proc_Start. kf.
Qed.
Lemma g_ask c' x m nx : kp (ask G c' x m nx).
Proof. pose proof (Write_kp grules g_gates) as HW. unfold ask. kf. Qed.
Lemma g_send ch m : kp (send ch m).
Proof. unfold send. kf. Qed.
Lemma g_reply c' m : kpp (fun _ => True) (handle_event G c' m) -> kpp (fun _ => True) (handle_reply_or_event G c' m).
Proof.
  intros H. assert (H' : kp (handle_event G c' m)) by (intros l; apply H; exact Logic.I). pose proof g_send. apply (kpp_kp grules). unfold handle_reply_or_event. kf.
Qed.
Lemma g_message c' m : (forall m', kpp (fun _ => True) (handle_event G c' m')) -> kpp (fun _ => True) (handle_reply_or_event G c' m) ->
  (forall n m', True -> kpp (fun _ => True /\ True /\ True) (fireEvent G n m')) -> kpp (fun _ => True) (handleMessage G c' m).
Proof.
  intros He Hr Hf. assert (He' : forall m', kp (handle_event G c' m')) by (intros m' l; apply He; exact Logic.I).
  assert (Hr' : kp (handle_reply_or_event G c' m)) by (intros l; apply Hr; exact Logic.I).
  assert (Hf' : forall n m', kp (fireEvent G n m')) by (intros n m' l; apply Hf; auto).
  pose proof (Namespace_kp grules g_gates) as HN. pose proof g_send as HS.
  apply (kpp_kp grules). unfold handleMessage. destruct (m_isInvalid m); [kf|]. pose proof (exch_call_kp grules g_gates). kf.
Qed.
Lemma g_ack c' typ b : kpp (fun _ => True) (handleQueue G c') -> (forall s bin, kp (write G c' s bin)) -> True -> kp (wait c') -> (forall e, kp (unwait c' e)) ->
  kpp (fun _ => True) (handleACK G c' typ b).
Proof.
  intros H1 H2 Hc H3 H4 l0 _. revert l0. assert (H1' : kp (handleQueue G c')) by (intros l; apply H1; exact Logic.I).
  refine (_ : kp (handleACK G c' typ b)). unfold handleACK. kf.
Qed.
Lemma g_any {X} (p : prog X) l (Q : X -> bool -> Prop) : kp p -> (forall r l', Q r l') -> ok (S := GS) l p Q.
Proof. intros H HQ. eapply (ok_mono GS gmono); [|apply H]. intros r l' _. auto. Qed.
Lemma g_waitm c' l : True -> (forall msgs, kp (publishMessages G c' msgs)) -> ok (S := GS) l (waitMessages G c') (fun r l' => if r : bool then True else True).
Proof. intros _ H. apply g_any; [unfold waitMessages, publish; kf|]. intros [|]; auto. Qed.
Lemma g_broadcast msgs : kp (broadcast msgs).
Proof. unfold broadcast. kf. Qed.
Lemma g_srvask x m : (forall e msgs, kp (Broadcast G e msgs)) -> kp (ServerAsk G x m).
Proof. intros HB. unfold ServerAsk. kf. Qed.
Lemma g_seq {X Y} l (p : prog X) (f : X -> prog Y) (Q : Y -> bool -> Prop) : kp p -> (forall r l', imp l l' -> ok (S := GS) l' (f r) Q) -> ok (S := GS) l (bind p f) Q.
Proof. intros Hp Hf. eapply (ok_seq GS gmono); [apply Hp|]. intros r l' H. apply Hf, H. Qed.
Lemma g_newconn c' : kp (newConn G c').
Proof. unfold newConn. kf. Qed.
Lemma g_upgrade c' l : (forall e, kp (unwait c' e)) -> (forall f, g_onconnect G = Some f -> kp (f c')) -> ok (S := GS) l (Upgrade G c') (fun _ l' => imp l l').
Proof.
  intros H1 H2. revert l. refine (_ : kp (Upgrade G c')). pose proof (g_newconn c'). unfold Upgrade. destruct (g_onconnect G) as [f|] eqn:E; [pose proof (H2 f eq_refl)|]; kf.
Qed.
Lemma g_dial c' l : kp (sendClientACK G c') -> ok (S := GS) l (Dial G c') (fun _ l' => imp l l').
Proof. intros H1. revert l. refine (_ : kp (Dial G c')). pose proof (g_newconn c'). unfold Dial. kf. Qed.
Lemma g_next c' ch : kp (read_next G c' ch).
Proof. pose proof g_send. unfold read_next. kf. Qed.
Lemma g_kpp {X} (P : bool -> Prop) (p : prog X) : kp p -> kpp P p.
Proof. apply (kpp_kp grules). Qed.
Lemma knows_stable c' : @stable GS imp (fun l => knows l c').
Proof. intros l l' H H' E. apply H, H', E. Qed.
Lemma g_log o c' : (o = OLog (LOnDisconnect c') \/ o = OSDel c' \/ o = OLog (LSrv (SDisconnect c'))) -> kpp (fun l => knows l c') (opr o).
Proof. intros [->|[->| ->]] l Hl; cbn; auto. Qed.
Lemma g_server l : True -> (forall c' msgs, kp (publishMessages G c' msgs)) ->
  (forall c', exists f, Close G c' = bind (opr (OCasClosed c')) f /\ forall r : bool, @Frame.kpp GS imp _ (fun l => r = true -> knows l c') (f r)) -> (forall k c', kp (g_do G k c')) ->
  (forall x, kp (exch_call G x)) -> (forall f c', g_ondisconnect G = Some f -> kp (f c')) -> ok (S := GS) l (server_step G) (fun _ l' => True).
Proof.
  intros _ H1 _ H2' H3 H4. pose proof (Close_kp grules g_gates) as HC.
  unfold server_step, publish, act_call. eapply (ok_seq GS gmono l (opr OSrvSelect) _ (fun x l' => match x with SDisconnect c' => knows l' c' | _ => True end)).
  { cbn. intros [c'|c'|msgs|a]; auto. intros ->. rewrite Nat.eqb_refl. reflexivity. }
  clear l. intros x l Hk. eapply (ok_seq GS gmono l (opr (OLog (LSrv x))) _ (fun _ l' => match x with SDisconnect c' => knows l' c' | _ => True end)).
  { destruct x; cbn; auto. }
  clear l Hk. intros _ l Hk. destruct x as [c'|c'|msgs|a].
  - apply g_any; [kf|auto].
  - revert l Hk. refine (_ : forall l, knows l c' -> _). intros l Hk. eapply (ok_seq GS gmono l (opr (OSMem c')) _ (fun _ l' => knows l' c')); [intros r; exact Hk|]. clear l Hk. intros known l Hk.
    destruct known; cbn [negb]; [|exact Logic.I].
    eapply (ok_mono GS gmono); [intros; exact Logic.I|]. revert l Hk.
    refine (_ : kpp (fun l => knows l c') _). pose proof (knows_stable c') as Hst.
    apply (kpp_bind grules); [exact Hst|apply g_log; auto|]. intros _. apply (kpp_bind grules); [exact Hst|apply g_kpp; kf|]. intros _.
    destruct (g_ondisconnect G) as [f|] eqn:E; [|apply g_kpp; kf]. pose proof (fun c => H4 f c eq_refl) as H5.
    apply (kpp_bind grules); [exact Hst| |intros; apply g_kpp; kf].
    apply (kpp_bind grules); [exact Hst|apply g_kpp; kf|]. intros [|]; [apply g_kpp; kf|].
    apply (kpp_bind grules); [exact Hst|apply g_log; auto|]. intros _. apply g_kpp. kf.
  - apply g_any; [kf|auto].
  - apply g_any; [kf|auto].
Qed.
Lemma gone_code x l : ls_start GS x l -> ok (S := GS) l (code G x) after.
Proof.
  apply (code_kp grules g_gates); auto using g_ask, g_reply, g_message, g_ack, g_waitm, g_broadcast, g_srvask, g_server; try (intros; exact Logic.I).
  - cbn. auto.
  - intros c' l0 Hc Hu Hf. apply g_upgrade; auto.
  - intros c' l0 Hc Hd. apply g_dial; auto.
  - intros c' ch l0 _. apply g_next.
Qed.

(** ** The invariant.  [X]: the claim that [c] was known to the server at some time. *)
Context (X : Prop).
Record GInv (w : world) (Ls : gmap tid bool) : Prop := MkG {
  gv_know : forall (t : tid), Ls !! t = Some true -> gone c w;
  gv_spawn : TDisconnect c ∈ w_spawn w -> gone c w;
  gv_disc : c ∈ s_disc (w_srv w) -> gone c w;
  gv_log : LOnDisconnect c ∈ w_log w -> gone c w;
  gv_srv : LSrv (SDisconnect c) ∈ w_log w -> gone c w;
  gv_ch : c_closeCh (conn_of w c) = true -> gone c w;
  gv_sock : c_sockclosed (conn_of w c) = true -> gone c w;
  gv_mem : X -> gone c w \/ c ∈ s_conns (w_srv w) }.
(** What an operation adds. *)
Record adds (w w' : world) : Prop := Adds {
  ad_gone : gone c w -> gone c w';
  ad_spawn : TDisconnect c ∈ w_spawn w' -> TDisconnect c ∈ w_spawn w \/ gone c w;
  ad_disc : c ∈ s_disc (w_srv w') -> c ∈ s_disc (w_srv w) \/ gone c w;
  ad_log : LOnDisconnect c ∈ w_log w' -> LOnDisconnect c ∈ w_log w \/ gone c w;
  ad_srv : LSrv (SDisconnect c) ∈ w_log w' -> LSrv (SDisconnect c) ∈ w_log w \/ gone c w;
  ad_ch : c_closeCh (conn_of w' c) = true -> c_closeCh (conn_of w c) = true \/ gone c w;
  ad_sock : c_sockclosed (conn_of w' c) = true -> c_sockclosed (conn_of w c) = true \/ gone c w;
  ad_mem : c ∈ s_conns (w_srv w) -> c ∈ s_conns (w_srv w') \/ gone c w }.
Lemma ginv_adds w w' Ls Ls' : GInv w Ls -> adds w w' -> (forall t : tid, Ls' !! t = Some true -> Ls !! t = Some true \/ gone c w') -> GInv w' Ls'.
Proof.
  intros [I1 I2 I3 I4 I5 I7 I8 I6] [A1 A2 A3 A4 A5 A7 A8 A6] Hl. constructor.
  - intros t H. destruct (Hl t H); eauto.
  - intros H. destruct (A2 H); eauto.
  - intros H. destruct (A3 H); eauto.
  - intros H. destruct (A4 H); eauto.
  - intros H. destruct (A5 H); eauto.
  - intros H. destruct (A7 H); eauto.
  - intros H. destruct (A8 H); eauto.
  - intros x. destruct (I6 x) as [H|H]; [auto|]. destruct (A6 H); auto.
Qed.
Definition special (o : op) : bool :=
  match o with OSpawn _ | OSDiscSend _ | OSDel _ | OLog _ | OCasClosed _ | OSrvSelect | OCloseCh _ | OSockClose _ => true | _ => false end.
Definition shut_of (k : conn) : bool * bool := (c_closeCh k, c_sockclosed k).
Definition shut (w : world) : bool * bool := (c_closeCh (conn_of w c), c_sockclosed (conn_of w c)).
Lemma adds_same w w' : (gone c w -> gone c w') -> (shut w' = shut w \/ shut w' = (false, false)) -> w_spawn w' = w_spawn w -> s_disc (w_srv w') = s_disc (w_srv w) -> s_conns (w_srv w) ⊆ s_conns (w_srv w') ->
  (w_log w' = w_log w \/ exists e, w_log w' = e :: w_log w /\ e <> LOnDisconnect c /\ e <> LSrv (SDisconnect c)) -> adds w w'.
Proof.
  intros H1 H0 H2 H3 H4 H5. constructor; auto; rewrite ?H2, ?H3; auto.
  - destruct H5 as [->|(e & -> & H5 & _)]; [auto|]. intros H. apply elem_of_cons in H as [H|H]; [congruence|auto].
  - destruct H5 as [->|(e & -> & _ & H5)]; [auto|]. intros H. apply elem_of_cons in H as [H|H]; [congruence|auto].
  - unfold shut in H0. destruct H0 as [H0|H0]; injection H0 as -> _; [auto|discriminate].
  - unfold shut in H0. destruct H0 as [H0|H0]; injection H0 as _ ->; [auto|discriminate].
Qed.
Lemma shut_upd c0 f w1 w : (forall k, shut_of (f k) = shut_of k) -> w_conns w1 = w_conns w -> shut (upd_conn c0 f w1) = shut w.
Proof.
  intros H E. unfold shut, shut_of in *. unfold conn_of, upd_conn in *. cbn. rewrite E. destruct (decide (c0 = c)) as [->|Hne]; [rewrite lookup_insert; cbn; rewrite H; unfold conn_of; rewrite E; reflexivity|rewrite lookup_insert_ne by exact Hne; reflexivity].
Qed.
Lemma shut_op t w o w' r : ostep t w o = Goes w' r -> special o = false -> shut w' = shut w \/ shut w' = (false, false).
Proof.
  intros H Hs. destruct o; try discriminate Hs; cbn [ostep] in H;
    repeat match goal with
    | H : match ?x with _ => _ end = Goes _ _ |- _ => destruct x eqn:?; try discriminate H
    end; try discriminate H; injection H as <- <-;
    first [left; reflexivity | left; apply shut_upd; [intros ?; first [reflexivity|match goal with |- context [match ?x with _ => _ end] => destruct x; reflexivity end]|reflexivity] | idtac].
  all: unfold shut, conn_of; cbn; destruct (decide (c0 = c)) as [->|Hne]; [right; rewrite lookup_insert; reflexivity|left; rewrite lookup_insert_ne by exact Hne; reflexivity].
Qed.
Lemma quiet_adds t w o w' r : ostep t w o = Goes w' r -> special o = false -> adds w w'.
Proof.
  intros H Hs. pose proof (gone_op c t w o w' r H) as Hg. pose proof (shut_op t w o w' r H Hs) as He. destruct o; try discriminate Hs; cbn [ostep] in H;
    repeat match goal with
    | H : match ?x with _ => _ end = Goes _ _ |- _ => destruct x eqn:?; try discriminate H
    end; try discriminate H; injection H as <- <-; (apply adds_same; [exact Hg|exact He|reflexivity|reflexivity| |first [left; reflexivity | right; eexists; split; [reflexivity|split; discriminate]]]);
    try reflexivity. cbn. apply union_subseteq_r.
Qed.
Lemma env_adds w e : adds w (env_step e w).
Proof.
  pose proof (gone_env c w e) as Hg. apply adds_same; [exact Hg|left| | | |left; apply log_env];
    destruct e; cbn [env_step]; repeat match goal with |- context [match ?x with _ => _ end] => destruct x eqn:? end; first [reflexivity|apply shut_upd; [intros; reflexivity|reflexivity]].
Qed.
Lemma pick_in {B} w (l : list B) x : pick w l = Some x -> x ∈ l.
Proof. intros H. apply elem_of_list_In. eapply nth_error_In, H. Qed.
Lemma gone_respects : respects GS G GInv.
Proof.
  constructor.
  - intros t w Ls l o P HI Ht HP. destruct (ostep t w o) as [w' r| |why] eqn:E; auto; [|exact Logic.I].
    assert (Hk : l = true -> gone c w) by (intros ->; eapply (gv_know _ _ HI), Ht).
    assert (Hl : exists l', P r l' /\ (l' = true -> gone c w') /\ adds w w').
    { pose proof (gone_op c t w o w' r E) as Hg. destruct (special o) eqn:Es.
      - destruct o; try discriminate Es; cbn [ostep] in E.
        + (* OCasClosed *) cbn in HP. eexists. split; [apply HP|]. split.
          * destruct (Nat.eqb_spec c0 c) as [->|]; [intros _|auto]. destruct (c_closed (conn_of w c)) eqn:Ec; injection E as <- <-; [exact Ec|].
            unfold gone, conn_of, upd_conn. cbn. rewrite lookup_insert. reflexivity.
          * destruct (c_closed (conn_of w c0)); injection E as <- <-; (apply adds_same; [exact Hg|left; first [reflexivity|apply shut_upd; [intros; reflexivity|reflexivity]]|reflexivity..|left; reflexivity]).
        + (* OCloseCh *) cbn in HP. destruct HP as [HP1 HP]. destruct (c_closeCh (conn_of w c0)); [discriminate E|]. injection E as <- <-. exists l. split; [exact HP|]. split; [auto|].
          constructor; auto; destruct (decide (c0 = c)) as [->|Hne]; try (right; apply Hk, HP1; reflexivity); unfold conn_of, upd_conn; cbn; rewrite lookup_insert_ne by exact Hne; auto.
        + (* OSockClose *) cbn in HP. destruct HP as [HP1 HP]. injection E as <- <-. exists l. split; [exact HP|]. split; [auto|].
          constructor; auto; destruct (decide (c0 = c)) as [->|Hne]; try (right; apply Hk, HP1; reflexivity); unfold conn_of, upd_conn; cbn; rewrite lookup_insert_ne by exact Hne; auto.
        + (* OSDiscSend *) cbn in HP. destruct HP as [HP1 HP]. injection E as <- <-. exists l. split; [exact HP|]. split; [auto|]. constructor; auto. cbn. intros H.
          apply elem_of_app in H as [H|H]; [auto|]. apply elem_of_list_singleton in H as ->. auto.
        + (* OSrvSelect *) destruct (pick w (srv_ready (w_srv w))) as [x|] eqn:Ex; [|discriminate E]. injection E as <- <-. cbn in HP. eexists. split; [apply HP|].
          apply pick_in in Ex. assert (Hd : x = SDisconnect c -> c ∈ s_disc (w_srv w)).
          { intros ->. unfold srv_ready in Ex. repeat (apply elem_of_app in Ex as [Ex|Ex]);
              [destruct (s_connbuf (w_srv w))|destruct (s_disc (w_srv w))|destruct (s_bcast (w_srv w))|destruct (s_acts (w_srv w))]; try (apply elem_of_nil in Ex; destruct Ex); apply elem_of_list_singleton in Ex; try discriminate Ex.
            injection Ex as ->. constructor. }
          split; [|constructor; auto].
          * destruct x as [c'|c'|msgs|a]; try (intros H; apply Hg, Hk, H). destruct (Nat.eqb_spec c' c) as [->|]; [|intros H; apply Hg, Hk, H]. intros _. apply Hg, (gv_disc _ _ HI), Hd. reflexivity.
          * intros H. left. destruct x; cbn in H; try exact H. destruct (s_disc (w_srv w)); [exact H|]. constructor. exact H.
          * intros H. left. destruct x; exact H.
        + (* OSDel *) cbn in HP. destruct HP as [HP1 HP]. injection E as <- <-. exists l. split; [exact HP|]. split; [auto|]. constructor; auto. cbn. intros H.
          destruct (decide (c0 = c)) as [->|Hne]; [right; auto|left]. apply elem_of_difference. split; [exact H|]. intros Hc. apply elem_of_singleton in Hc. congruence.
        + (* OSpawn *) injection E as <- <-. assert (Hc : (code = TDisconnect c -> l = true) /\ P tt l) by (destruct code; cbn in HP; try (split; [discriminate|apply HP]; fail); destruct HP as [HP1 HP]; split; [intros [= ->]; auto|exact HP]).
          destruct Hc as [HP1 HP']. exists l. split; [exact HP'|]. split; [auto|]. constructor; auto. cbn. intros H. apply elem_of_app in H as [H|H]; [auto|]. apply elem_of_list_singleton in H. right. apply Hk, HP1. congruence.
        + (* OLog *) injection E as <- <-. assert (Hc : (e = LOnDisconnect c -> l = true) /\ (e = LSrv (SDisconnect c) -> l = true) /\ P tt l).
          { destruct e; cbn in HP; try (repeat split; [discriminate|discriminate|apply HP]; fail).
            - destruct HP as [HP1 HP]. repeat split; [intros [= ->]; auto|discriminate|exact HP].
            - match goal with x : srvmsg |- _ => destruct x end; try (repeat split; [discriminate|discriminate|apply HP]; fail). destruct HP as [HP1 HP]. repeat split; [discriminate|intros [= ->]; auto|exact HP]. }
          destruct Hc as (HP1 & HP2 & HP'). exists l. split; [exact HP'|]. split; [auto|]. constructor; auto; cbn; intros H; (apply elem_of_cons in H as [H|H]; [right; apply Hk|auto]); auto.
      - exists l. split; [destruct o; try discriminate Es; apply HP|]. split; [auto|]. eapply quiet_adds; eassumption. }
    destruct Hl as (l' & HP' & H1 & H2). exists l'. split; [|exact HP']. eapply ginv_adds; [exact HI|exact H2|].
    intros t' H. apply lookup_insert_Some in H as [[_ ->]|[_ H]]; auto.
  - intros t w Ls l a HI Ht _ Ha. exists l. rewrite insert_id by exact Ht. split; [exact HI|].
    apply (impl_kp grules g_gates); auto using g_ask, g_reply, g_message, g_ack, g_waitm, g_broadcast, g_srvask; try (intros; exact Logic.I).
    destruct a; cbn; auto; destruct n; auto.
  - intros x l Hs. apply gone_code, Hs.
  - intros t w Ls l HI Ht _. eapply ginv_adds; [exact HI|apply adds_same; auto|]. intros t' H. apply lookup_delete_Some in H as [_ H]. auto.
  - intros t w Ls x rest HI Hsp Ht. exists (c_closed (conn_of w c)). split.
    + destruct x; cbn; auto. intros ->. apply (gv_spawn _ _ HI). rewrite Hsp. constructor.
    + eapply ginv_adds; [exact HI| |].
      * constructor; auto. rewrite Hsp. cbn. intros H. left. constructor. exact H.
      * intros t' H. apply lookup_insert_Some in H as [[_ H]|[_ H]]; auto.
  - intros t w Ls x HI Hs Ht. exists (c_closed (conn_of w c)). split.
    + destruct x; cbn; auto. discriminate Hs.
    + eapply ginv_adds; [exact HI|apply adds_same; auto|]. intros t' H. apply lookup_insert_Some in H as [[_ H]|[_ H]]; auto.
  - intros w Ls e HI _. eapply ginv_adds; [exact HI|apply env_adds|]. auto.
Qed.
End gone.

Lemma gone_start c : exists l, ls_start (GS c) TServer l /\ GInv c False world0 {[0 := l]}.
Proof.
  exists false. split; [exact Logic.I|]. constructor; try (intros H; apply elem_of_nil in H as []); [|discriminate|discriminate|intros []].
  intros t H. apply lookup_singleton_Some in H as [_ H]. discriminate.
Qed.
Lemma gone_reachable G c s : user_app (fun _ => True) G -> reachable G s -> holds (GS c) (GInv c False) s.
Proof. intros HA Hr. exact (reachable_holds (GS c) (gmono c) G _ (gone_respects G c HA False) s (gone_start c) Hr). Qed.
Lemma gone_stays G c s s' : user_app (fun _ => True) G -> reachable G s -> steps G s s' -> c ∈ s_conns (w_srv (s_w s)) ->
  c ∈ s_conns (w_srv (s_w s')) \/ c_closed (conn_of (s_w s') c) = true.
Proof.
  intros HA Hr Hst Hc. destruct (gone_reachable G c s HA Hr) as (H0 & Ls & HI & H1 & H2 & H3).
  assert (Hh : holds (GS c) (GInv c True) s).
  { split; [exact H0|]. exists Ls. split; [|auto]. destruct HI as [I1 I2 I3 I4 I5 I6 I7 _]. constructor; auto. }
  destruct (steps_holds (GS c) (gmono c) G _ (gone_respects G c HA True) s s' Hh Hst) as (_ & Ls' & HI' & _).
  destruct (gv_mem _ _ _ _ HI' Logic.I); auto.
Qed.

(** ** The goroutine that delivers broadcasts stops only when the connection is closed. *)
Section deliver.
Context (G : cfg) (c : cid) (t0 : tid).
(** Ghost state of a goroutine: whether it delivers to [c], whether it knows that [c] is closed or its channel is. *)
Notation lab := (bool * bool)%type.
Definition drule (l : lab) (o : op) : (res o -> lab -> Prop) -> Prop :=
  match o as o return (res o -> lab -> Prop) -> Prop with
  | OIsClosed c' => fun P => forall r : bool, P r (if Nat.eqb c' c && r then (l.1, true) else l)
  | OBSelect _ c' => fun P => forall r : bool, P r (if Nat.eqb c' c && negb r then (l.1, true) else l)
  | _ => fun P => forall r, P r l
  end.
Definition dstart (x : tcode) (l : lab) : Prop :=
  match x with TWaitMessages c' => c' = c \/ l.1 = false | _ => l.1 = false end.
Definition SDl : lspec := {|
  ls_L := lab; ls_rule := drule; ls_cpre := fun _ _ => True; ls_cpost := fun l _ _ l' => more l l';
  ls_crash := fun _ => True; ls_start := dstart; ls_fin := fun l => l.1 = true -> l.2 = true |}.
Lemma dmono : rule_mono SDl.
Proof. intros l o P P' H. destruct o; cbn; auto. Qed.
Lemma d_rule_any o l (P : res o -> lab -> Prop) : (forall r l', more l l' -> P r l') -> drule l o P.
Proof.
  intros H. destruct o; cbn; intros; apply H; try apply more_refl; match goal with |- context [if ?b then _ else _] => destruct b end; first [apply more_refl|split; auto].
Qed.
Lemma d_any {X} (p : prog X) l : ok (S := SDl) l p (fun _ l' => more l l').
Proof.
  revert l. induction p as [x|o k IH|a k IH|why]; intros l; cbn [ok]; [apply more_refl| | |exact Logic.I].
  - apply d_rule_any. intros r l' H. eapply (ok_mono SDl dmono); [|apply IH]. intros r' l'' H'. exact (more_trans _ _ _ H H').
  - split; [exact Logic.I|]. intros r l' H. eapply (ok_mono SDl dmono); [|apply IH]. intros r' l'' H'. exact (more_trans _ _ _ H H').
Qed.
Lemma d_anyQ {X Y} (p : prog X) (f : X -> prog Y) l Q : (forall r l', more l l' -> ok (S := SDl) l' (f r) Q) -> ok (S := SDl) l (bind p f) Q.
Proof. intros H. eapply (ok_seq SDl dmono); [apply d_any|]. exact H. Qed.
Lemma d_plain {X} (p : prog X) l : l.1 = false -> ok (S := SDl) l (bind p (fun _ => Ret None)) after.
Proof. intros E. apply d_anyQ. intros r l' [H _]. cbn. congruence. Qed.
Lemma d_publish msgs l : ok (S := SDl) l (publishMessages G c msgs) (fun r l' => more l l' /\ (r = false -> l'.2 = true)).
Proof.
  revert l. induction msgs as [|m msgs IH]; intros l; cbn [publishMessages].
  - cbn. split; [apply more_refl|discriminate].
  - apply d_anyQ. intros id l1 H1.
    assert (Hret : ok (S := SDl) l1 (Ret true) (fun r l' => more l l' /\ (r = false -> l'.2 = true))) by (cbn; split; [exact H1|discriminate]).
    assert (Hgo : forall l', more l l' -> ok (S := SDl) l' (publishMessages G c msgs) (fun r l' => more l l' /\ (r = false -> l'.2 = true))).
    { intros l' H. eapply (ok_mono SDl dmono); [|apply IH]. intros r l'' [H' H'']. split; [exact (more_trans _ _ _ H H')|exact H'']. }
    destruct (m_from m =? id)%string; [exact Hret|]. destruct (negb (is_empty (m_to m)) && negb (m_to m =? id)%string); [exact Hret|].
    apply d_anyQ. intros ok l2 H2. pose proof (more_trans _ _ _ H1 H2) as H12. destruct ok; [apply Hgo, H12|]. cbn [bind opr Logic.ok ls_rule SDl drule]. rewrite Nat.eqb_refl. intros [|]; cbn [andb].
    + cbn. split; [|auto]. split; [apply H12|auto].
    + apply Hgo, H12.
Qed.
Lemma d_wait l : ok (S := SDl) l (waitMessages G c) (fun r l' => more l l' /\ (r = false -> l'.2 = true)).
Proof.
  unfold waitMessages. apply d_anyQ. intros _ l1 H1. apply d_anyQ. intros g l2 H2. apply d_anyQ. intros _ l3 H3.
  pose proof (more_trans _ _ _ (more_trans _ _ _ H1 H2) H3) as H. clear H1 H2 H3 l1 l2.
  eapply (ok_seq SDl dmono _ (opr (OBSelect g c)) _ (fun r l' => more l l' /\ (r = false -> l'.2 = true))).
  { cbn. rewrite Nat.eqb_refl. intros [|]; cbn; [split; [exact H|discriminate]|]. split; [split; [apply H|auto]|auto]. }
  clear l3 H. intros [|] l3 [H Hk].
  - apply d_anyQ. intros msgs l4 H4. apply d_anyQ. intros _ l5 H5. pose proof (more_trans _ _ _ (more_trans _ _ _ H H4) H5) as H6. clear H Hk H4 H5 l3 l4.
    unfold publish. eapply (ok_seq SDl dmono _ _ _ (fun r l' => more l l' /\ (r = false -> l'.2 = true))).
    + apply d_anyQ. intros _ l6 H7. eapply (ok_mono SDl dmono); [|apply d_publish]. intros r l' [H8 H9]. split; [|exact H9]. exact (more_trans _ _ _ H6 (more_trans _ _ _ H7 H8)).
    + intros r l7 [H8 H9]. apply d_anyQ. intros _ l8 H10. cbn. split; [exact (more_trans _ _ _ H8 H10)|]. intros Hr. apply H10, H9, Hr.
  - apply d_anyQ. intros _ l4 H4. apply d_anyQ. intros _ l5 H5. cbn. split; [exact (more_trans _ _ _ (more_trans _ _ _ H H4) H5)|]. intros _. apply H5, H4, Hk. reflexivity.
Qed.
Lemma d_code x l : dstart x l -> ok (S := SDl) l (code G x) after.
Proof.
  destruct x as [k|c'|c'|c' ch|c'| | |c'|c'|c']; cbn [dstart code]; intros Hs; try (apply d_plain; exact Hs).
  - apply d_anyQ. intros r l' [H _]. destruct r; cbn; congruence.
  - apply d_anyQ. intros go l' [H _]. destruct go; [cbn; congruence|]. apply d_plain. congruence.
  - apply d_anyQ. intros r l' [H _]. cbn. congruence.
  - apply d_anyQ. intros r l' [H _]. cbn. congruence.
  - destruct Hs as [->|Hs].
    + eapply (ok_seq SDl dmono); [apply d_wait|]. intros r l' [H H']. destruct r; cbn; auto.
    + apply d_anyQ. intros r l' [H _]. destruct r; cbn; [right|]; congruence.
Qed.
Definition over (w : world) : Prop := gone c w \/ c_closeCh (conn_of w c) = true.
Record DInv (w : world) (Ls : gmap tid lab) : Prop := MkD {
  dv_know : forall (t : tid) l, Ls !! t = Some l -> l.2 = true -> over w;
  dv_me : over w \/ exists l, Ls !! t0 = Some l /\ l.1 = true }.
Lemma ch_op t w o w' r : ostep t w o = Goes w' r -> c_closeCh (conn_of w c) = true -> c_closeCh (conn_of w' c) = true.
Proof.
  intros H Hg.
  assert (Hu : forall c0 f w1, conn_of w1 c = conn_of w c -> (c0 = c -> c_closeCh (f (conn_of w c)) = true) -> c_closeCh (conn_of (upd_conn c0 f w1) c) = true).
  { intros c0 f w1 E Hf. destruct (decide (c0 = c)) as [->|Hne]; unfold conn_of at 1; cbn; [rewrite lookup_insert; cbn; rewrite E; auto|rewrite lookup_insert_ne by exact Hne; fold (conn_of w1 c); rewrite E; exact Hg]. }
  destruct o; cbn [ostep] in H;
    repeat match goal with
    | H : match ?x with _ => _ end = Goes _ _ |- _ => destruct x eqn:?; try discriminate H
    end; try discriminate H; injection H as <- <-; try exact Hg;
    first [apply Hu; [reflexivity|intros _; cbn; first [exact Hg|reflexivity|match goal with |- context [match ?x with _ => _ end] => destruct x; exact Hg end]] | idtac].
  all: match goal with H : w_conns _ !! ?x = None |- _ => unfold conn_of in *; cbn; destruct (decide (x = c)) as [->|Hne]; [rewrite H in Hg; discriminate Hg|rewrite lookup_insert_ne by exact Hne; exact Hg] end.
Qed.
Lemma ch_env w e : c_closeCh (conn_of w c) = true -> c_closeCh (conn_of (env_step e w) c) = true.
Proof.
  intros Hg.
  destruct e; cbn [env_step]; repeat match goal with |- context [match ?x with _ => _ end] => destruct x eqn:? end; try exact Hg.
  all: unfold conn_of, upd_conn in *; cbn; match goal with |- context [<[?x := _]> _ !! c] => destruct (decide (x = c)) as [->|Hne]; [rewrite lookup_insert; exact Hg|rewrite lookup_insert_ne by exact Hne; exact Hg] end.
Qed.
Lemma d_respects : respects SDl G DInv.
Proof.
  constructor.
  - intros t w Ls l o P [I1 I2] Ht HP. destruct (ostep t w o) as [w' r| |why] eqn:E; auto; [|exact Logic.I].
    assert (Hg : over w -> over w') by (intros [H|H]; [left; eapply gone_op; eassumption|right; eapply ch_op; eassumption]).
    assert (Hl : exists l', P r l' /\ l'.1 = l.1 /\ (l'.2 = true -> over w')).
    { pose proof (I1 _ _ Ht) as Hk. destruct o; try (exists l; split; [apply HP|split; auto]; fail); cbn in HP, E.
      - injection E as <- <-. eexists. split; [apply HP|]. destruct (Nat.eqb_spec c0 c) as [->|]; cbn; [|auto]. destruct (c_closed (conn_of w c)) eqn:Ec; cbn; auto. split; [reflexivity|]. intros _. left. exact Ec.
      - eexists. split; [apply HP|]. destruct (Nat.eqb_spec c0 c) as [->|]; cbn; [|auto]. destruct r; cbn; [auto|]. split; [reflexivity|]. intros _. apply Hg. right.
        destruct (c_closeCh (conn_of w c)); [reflexivity|]. rewrite app_nil_r in E. destruct (bool_decide _); cbn in E.
        + unfold pick in E. cbn in E. discriminate E.
        + unfold pick in E. cbn in E. destruct (seed w); discriminate E. }
    destruct Hl as (l' & HP' & E1 & E2). exists l'. split; [|exact HP']. constructor.
    + intros t1 l1 H. apply lookup_insert_Some in H as [[<- <-]|[_ H]]; eauto.
    + destruct I2 as [H|(l1 & H & H')]; [auto|right]. destruct (decide (t = t0)) as [->|Hne]; [pose proof (eq_trans (eq_sym H) Ht) as X; injection X as ->; exists l'; split; [apply lookup_insert|rewrite E1; exact H']|rewrite lookup_insert_ne by exact Hne; eauto].
  - intros t w Ls l a HI Ht _ _. exists l. rewrite insert_id by exact Ht. split; [exact HI|apply d_any].
  - intros x l Hs. apply d_code, Hs.
  - intros t w Ls l [I1 I2] Ht Hf. constructor; [intros t1 l1 H; apply lookup_delete_Some in H as [_ H]; eauto|].
    destruct I2 as [H|(l1 & H & H')]; [auto|]. destruct (decide (t = t0)) as [->|Hne]; [left; pose proof (eq_trans (eq_sym H) Ht) as X; injection X as ->; exact (I1 _ _ Ht (Hf H'))|right; rewrite lookup_delete_ne by exact Hne; eauto].
  - intros t w Ls x rest [I1 I2] Hsp Ht. exists (false, false). split; [destruct x; cbn; auto|]. constructor.
    + intros t1 l1 H. apply lookup_insert_Some in H as [[<- <-]|[_ H]]; [discriminate|eauto].
    + destruct I2 as [H|(l1 & H & H')]; [auto|right]. destruct (decide (t = t0)) as [->|Hne]; [pose proof (eq_trans (eq_sym H) Ht) as X; discriminate X|rewrite lookup_insert_ne by exact Hne; eauto].
  - intros t w Ls x [I1 I2] Hs Ht. exists (false, false). split; [destruct x; cbn; auto|]. constructor.
    + intros t1 l1 H. apply lookup_insert_Some in H as [[<- <-]|[_ H]]; [discriminate|eauto].
    + destruct I2 as [H|(l1 & H & H')]; [auto|right]. destruct (decide (t = t0)) as [->|Hne]; [pose proof (eq_trans (eq_sym H) Ht) as X; discriminate X|rewrite lookup_insert_ne by exact Hne; eauto].
  - intros w Ls e [I1 I2] _. assert (Hg : over w -> over (env_step e w)) by (intros [H|H]; [left; apply gone_env, H|right; apply ch_env, H]).
    constructor; [eauto|]. destruct I2; auto.
Qed.
End deliver.
Lemma deliverer_ends G c t s s' : user_app (fun _ => True) G -> reachable G s -> s_th s !! t = Some (code G (TWaitMessages c)) ->
  (forall t' : tid, s_next s <= t' -> s_th s !! t' = None) -> steps G s s' -> s_th s' !! t = None -> c_closed (conn_of (s_w s') c) = true.
Proof.
  intros HA Hr Ht Hn Hst He.
  assert (Hh : holds (SDl c) (DInv c t) s).
  { split; [intros; exact Logic.I|]. exists (<[t := (true, false)]> ((fun _ => (false, false)) <$> s_th s)). split; [|split; [exact Hn|split]].
    - constructor; [|right; exists (true, false); split; [apply lookup_insert|reflexivity]].
      intros t' l H. apply lookup_insert_Some in H as [[_ <-]|[_ H]]; [discriminate|]. apply lookup_fmap_Some in H as (p & <- & _). discriminate.
    - intros t' H. apply lookup_insert_None. split; [rewrite lookup_fmap, H; reflexivity|]. intros <-. congruence.
    - intros t' p H. destruct (decide (t = t')) as [<-|Hne].
      + exists (true, false). split; [apply lookup_insert|]. rewrite Ht in H; apply (inj Some) in H as <-.
        exact (d_code G c (TWaitMessages c) (true, false) (or_introl eq_refl)).
      + exists (false, false). split; [rewrite lookup_insert_ne, lookup_fmap, H by exact Hne; reflexivity|]. eapply (ok_mono (SDl c) (dmono c)); [|apply d_any].
        intros [x|] l' [H1 _]; cbn in *; [destruct x; cbn; auto|congruence]. }
  assert (Hr' : reachable G s') by (eapply rtc_transitive; eassumption).
  destruct (gone_reachable G c s' HA Hr') as (_ & Ls0 & HI0 & _).
  destruct (steps_holds (SDl c) (dmono c) G (DInv c t) (d_respects G c t) s s' Hh Hst) as (_ & Ls & [_ [[Hg|Hg]|(l & H & _)]] & _ & H2 & _); [exact Hg|exact (gv_ch _ _ _ _ HI0 Hg)|].
  pose proof (eq_trans (eq_sym (H2 _ He)) H) as X. discriminate X.
Qed.
