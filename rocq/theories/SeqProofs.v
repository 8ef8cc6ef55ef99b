(** * SeqProofs.v : one goroutine at a time, callbacks that only return an
    error.  The code of a connection refines the machine of Spec_Conn.v. *)
From Coq Require Import ZArith.
From stdpp Require Import gmap strings list relations.
From RecordUpdate Require Import RecordUpdate.
From Verif Require Import Go Errors Message World Lang Code Sem ExecProofs Spec_Conn Spec_View.

Lemma rw_eta l : rw_writer l = None -> rw_readers l = [] -> l = rw0.
Proof. destruct l; cbn; intros -> ->; reflexivity. Qed.

Section quiet_fields.
Context (G : cfg) (w : world) (c : cid) (Q : quiet G w c).
Lemma q_made : w_conns w !! c = Some (conn_of w c). Proof. apply Q. Qed.
Lemma q_open : c_closed (conn_of w c) = false. Proof. apply Q. Qed.
Lemma q_sock : c_sockclosed (conn_of w c) = false. Proof. apply Q. Qed.
Lemma q_wfail : c_wfail (conn_of w c) = None. Proof. apply Q. Qed.
Lemma q_ready : g_client G c = false -> w_ready (c_wait (conn_of w c)) = true. Proof. apply Q. Qed.
Lemma q_nsmu : c_nsmu (conn_of w c) = rw0. Proof. apply Q. Qed.
Lemma q_ns : forall name n, c_nss (conn_of w c) !! name = Some n ->
         n_conn n = c /\ n_name n = name /\
         exists o, w_nss w !! n_id n = Some o /\ o_ref o = n /\ o_mu o = rw0.
Proof. apply Q. Qed.
Lemma q_fresh : forall id o, w_nss w !! id = Some o -> id < w_next w. Proof. apply Q. Qed.
End quiet_fields.

Lemma idle_ext c w w' : c_procs (conn_of w' c) = c_procs (conn_of w c) -> w_procs w' = w_procs w ->
  w_next w <= w_next w' -> idle w c -> idle w' c.
Proof.
  intros E1 E2 E3 H name p Hp. rewrite E1 in Hp. destruct (H _ _ Hp) as [H1 H2].
  unfold proc_of in *. rewrite E2. split; [lia|exact H2].
Qed.

Lemma only_refl c w : only c w w.
Proof. split; auto. Qed.
Lemma only_trans c w1 w2 w3 : only c w1 w2 -> only c w2 w3 -> only c w1 w3.
Proof.
  intros H1 H2. split.
  - intros c' Hc. rewrite (y_conns _ _ _ H2 _ Hc). apply (y_conns _ _ _ H1), Hc.
  - intros c' Hc. destruct (y_log _ _ _ H2 _ Hc) as [-> ->]. apply (y_log _ _ _ H1), Hc.
  - intros id o E Ho. apply (y_nss _ _ _ H2); [apply (y_nss _ _ _ H1)|]; assumption.
  - rewrite (y_srv _ _ _ H2). apply (y_srv _ _ _ H1).
  - rewrite (y_chans _ _ _ H2). apply (y_chans _ _ _ H1).
  - rewrite (y_spawn _ _ _ H2). apply (y_spawn _ _ _ H1).
  - rewrite (y_id _ _ _ H2). apply (y_id _ _ _ H1).
  - rewrite (y_waiting _ _ _ H2). apply (y_waiting _ _ _ H1).
  - rewrite (y_acked _ _ _ H2). apply (y_acked _ _ _ H1).
  - rewrite (y_closeCh _ _ _ H2). apply (y_closeCh _ _ _ H1).
  - rewrite (y_inside _ _ _ H2). apply (y_inside _ _ _ H1).
  - rewrite (y_ctxs _ _ _ H2). apply (y_ctxs _ _ _ H1).
  - rewrite (y_now _ _ _ H2). apply (y_now _ _ _ H1).
  - intros p Hp. rewrite (y_procs _ _ _ H2); [apply (y_procs _ _ _ H1), Hp|]. pose proof (y_next _ _ _ H1). lia.
  - intros name p Hp. apply (y_cprocs _ _ _ H2) in Hp as [Hp|Hp]; [apply (y_cprocs _ _ _ H1), Hp|].
    right. pose proof (y_next _ _ _ H1). lia.
  - intros name p Hp. apply (y_cprocs' _ _ _ H2), (y_cprocs' _ _ _ H1), Hp.
  - pose proof (y_next _ _ _ H1). pose proof (y_next _ _ _ H2). lia.
  - intros Hi. apply (y_idle _ _ _ H2), (y_idle _ _ _ H1), Hi.
Qed.
Lemma only_others c w w' : only c w w' -> others c w w'.
Proof. intros []. split; auto. Qed.
Lemma others_refl c w : others c w w.
Proof. split; auto. Qed.
Lemma others_trans c w1 w2 w3 : others c w1 w2 -> others c w2 w3 -> others c w1 w3.
Proof.
  intros H1 H2. pose proof (z_next _ _ _ H1) as N1. pose proof (z_next _ _ _ H2) as N2. split.
  - intros c' Hc. rewrite (z_conns _ _ _ H2 _ Hc). apply (z_conns _ _ _ H1), Hc.
  - intros c' Hc. destruct (z_log _ _ _ H2 _ Hc) as [-> ->]. apply (z_log _ _ _ H1), Hc.
  - intros id o E Ho. apply (z_nss _ _ _ H2); [apply (z_nss _ _ _ H1)|]; assumption.
  - intros p Hp Hn. rewrite (z_procs _ _ _ H2); [apply (z_procs _ _ _ H1); assumption|lia|].
    intros name E. destruct (z_cprocs _ _ _ H1 _ _ E) as [E'|E']; [apply (Hn _ E')|lia].
  - intros name p Hp. apply (z_cprocs _ _ _ H2) in Hp as [Hp|Hp]; [apply (z_cprocs _ _ _ H1), Hp|right; lia].
  - rewrite (z_srv _ _ _ H2). apply (z_srv _ _ _ H1).
  - rewrite (z_now _ _ _ H2). apply (z_now _ _ _ H1).
  - rewrite (z_ctxs _ _ _ H2). apply (z_ctxs _ _ _ H1).
  - rewrite (z_spawn _ _ _ H2). apply (z_spawn _ _ _ H1).
  - rewrite (z_id _ _ _ H2). apply (z_id _ _ _ H1).
  - lia.
Qed.
Lemma y_conn c w w' : only c w w' -> forall c', c' <> c -> conn_of w' c' = conn_of w c'.
Proof. intros O c' Hc. unfold conn_of. rewrite (y_conns _ _ _ O _ Hc). reflexivity. Qed.
Lemma upd_conn_ne c f w c' : c' <> c -> w_conns (upd_conn c f w) !! c' = w_conns w !! c'.
Proof. intros H. cbn. apply lookup_insert_ne. congruence. Qed.

Section seq.
Context (G : cfg) (c : cid) (A : app).
Hypothesis Hlift : g_namespaces G c = lift A.
(** The errors of the application have a text (a CloseError wraps an error). *)
Hypothesis Htext : forall ns evs key f m e, A !! ns = Some evs -> evs !! key = Some f -> f m = Some e ->
  exists text, err_text e = Ok text.

Notation nmap := (gmap string nsref).

(** World [w] shows state [s] with NSConn values [nm]. *)
Record at_ (w : world) (s : cstate) (nm : nmap) : Prop := At {
  a_quiet : quiet G w c;
  a_view : view w c = s;
  a_nm : c_nss (conn_of w c) = nm }.

Definition runs {B} (t : tid) (p : prog B) (w : world) (b : B) (s' : cstate) (nm' : nmap) : Prop :=
  exists w', exec t p w = XDone w' b /\ at_ w' s' nm' /\ only c w w'.

Lemma runs_bind {B C} t (p : prog B) (f : B -> prog C) w a b s1 nm1 s2 nm2 :
  runs t p w a s1 nm1 ->
  (forall w1, at_ w1 s1 nm1 -> only c w w1 -> runs t (f a) w1 b s2 nm2) ->
  runs t (bind p f) w b s2 nm2.
Proof.
  intros (w1 & E & H1 & O1) H.
  destruct (H w1 H1 O1) as (w2 & E2 & H2 & O2).
  exists w2. split; [|split; [exact H2|eapply only_trans; eassumption]].
  rewrite (exec_bind_done _ _ _ _ _ _ E). exact E2.
Qed.

Lemma runs_ret {B} t (b : B) w s nm : at_ w s nm -> runs t (Ret b) w b s nm.
Proof. intros H. exists w. split; [reflexivity|split; [exact H|apply only_refl]]. Qed.

Lemma at_rooms w s nm name : at_ w s nm ->
  cs_rooms s !! name = (fun n => o_rooms (ns_of w n)) <$> (nm !! name).
Proof. intros [? <- <-]. cbn. rewrite lookup_fmap. reflexivity. Qed.

Lemma at_ns w s nm name n : at_ w s nm -> nm !! name = Some n ->
  n_conn n = c /\ n_name n = name /\ w_nss w !! n_id n = Some (ns_of w n) /\ o_ref (ns_of w n) = n /\
  o_mu (ns_of w n) = rw0 /\ cs_rooms s !! name = Some (o_rooms (ns_of w n)).
Proof.
  intros H E. rewrite (at_rooms _ _ _ _ H), E.
  destruct H as [Q _ <-]. destruct (q_ns _ _ _ Q _ _ E) as (? & ? & o & E1 & ? & ?).
  unfold ns_of. rewrite E1. cbn. repeat split; auto. rewrite E1. reflexivity.
Qed.

(** *** Callbacks *)
Definition fire_world (n : nsref) (m : message) (w : world) : world :=
  match callback A (n_name n) (m_event m) with
  | Some (key, _) => w <| w_log ::= cons (LFire n key m) |>
  | None => w
  end.

Definition lift_events (evs : gmap string (message -> option gerr)) : events :=
  (fun f : message -> option gerr => (fun (_ : nsref) m => Ret (f m)) : handler) <$> evs.
Lemma lift_some ns evs : A !! ns = Some evs -> g_namespaces G c !! ns = Some (lift_events evs).
Proof. intros H. rewrite Hlift. unfold lift. rewrite lookup_fmap, H. reflexivity. Qed.
Lemma lift_none ns : A !! ns = None -> g_namespaces G c !! ns = None.
Proof. intros H. rewrite Hlift. unfold lift. rewrite lookup_fmap, H. reflexivity. Qed.

Lemma fireEvent_exec t n m w : n_conn n = c ->
  exec t (fireEvent G n m) w = XDone (fire_world n m w) (answer A (n_name n) m).
Proof.
  intros Hc. unfold fireEvent, ns_events, fire_world, answer, callback. rewrite Hc.
  destruct (A !! n_name n) as [evs|] eqn:E.
  - rewrite (lift_some _ _ E). unfold from_option, id. unfold lift_events. rewrite !lookup_fmap.
    destruct (evs !! m_event m) as [f|]; [reflexivity|].
    destruct (evs !! OnAnyEvent) as [f|]; reflexivity.
  - rewrite (lift_none _ E). unfold from_option, id. rewrite !lookup_empty. reflexivity.
Qed.

Lemma answer_text ns m e : answer A ns m = Some e -> exists text, err_text e = Ok text.
Proof.
  unfold answer, callback. destruct (A !! ns) as [evs|] eqn:E; [|discriminate].
  destruct (evs !! m_event m) as [f|] eqn:F; [intros; eapply Htext; eauto|].
  destruct (evs !! OnAnyEvent) as [f|] eqn:F'; [intros; eapply Htext; eauto|discriminate].
Qed.

Lemma fire_world_eqs n m w :
  w_conns (fire_world n m w) = w_conns w /\ w_nss (fire_world n m w) = w_nss w /\
  w_procs (fire_world n m w) = w_procs w /\ w_srv (fire_world n m w) = w_srv w /\
  w_chans (fire_world n m w) = w_chans w /\ w_spawn (fire_world n m w) = w_spawn w /\
  w_next (fire_world n m w) = w_next w /\ w_seeds (fire_world n m w) = w_seeds w.
Proof. unfold fire_world. destruct (callback _ _ _) as [[? ?]|]; cbn; auto 10. Qed.

Lemma fire_world_conn n m w c' : conn_of (fire_world n m w) c' = conn_of w c'.
Proof. unfold conn_of. destruct (fire_world_eqs n m w) as (-> & _). reflexivity. Qed.
Lemma fire_world_ns n m w n' : ns_of (fire_world n m w) n' = ns_of w n'.
Proof. unfold ns_of. destruct (fire_world_eqs n m w) as (_ & -> & _). reflexivity. Qed.

Lemma fired_fire n m w : n_conn n = c ->
  fired_of c (w_log (fire_world n m w)) = cs_fired (fire A (n_name n) m (view w c)).
Proof.
  intros Hc. unfold fire_world, fire. destruct (callback _ _ _) as [[key f]|]; [|reflexivity].
  cbn. rewrite Hc, Nat.eqb_refl. reflexivity.
Qed.
Lemma subs_fire n m w : subs_of c (w_log (fire_world n m w)) = subs_of c (w_log w).
Proof. unfold fire_world. destruct (callback _ _ _) as [[key f]|]; reflexivity. Qed.

Lemma view_fire n m w : n_conn n = c ->
  view (fire_world n m w) c = fire A (n_name n) m (view w c).
Proof.
  intros Hc. unfold view at 1. rewrite fired_fire, subs_fire, fire_world_conn by exact Hc.
  assert (E : (fun n0 => o_rooms (ns_of (fire_world n m w) n0)) <$> c_nss (conn_of w c)
            = (fun n0 => o_rooms (ns_of w n0)) <$> c_nss (conn_of w c)).
  { apply map_fmap_ext. intros. cbn. rewrite fire_world_ns. reflexivity. }
  rewrite E. unfold fire. destruct (callback _ _ _) as [[key f]|]; reflexivity.
Qed.

Lemma quiet_fire n m w : quiet G w c -> quiet G (fire_world n m w) c.
Proof.
  destruct (fire_world_eqs n m w) as (E1 & E2 & E3 & E4 & E5 & E6 & E7 & E8).
  intros [H1 H2]. unfold quiet. rewrite fire_world_conn, E1, E2, E7. auto.
Qed.

Lemma only_fire n m w : n_conn n = c -> only c w (fire_world n m w).
Proof.
  intros Hn.
  destruct (fire_world_eqs n m w) as (E1 & E2 & E3 & E4 & E5 & E6 & E7 & E8).
  split; intros; rewrite ?fire_world_conn, ?E1, ?E2, ?E7; auto.
  - unfold fire_world. destruct (callback _ _ _) as [[? ?]|]; [|auto]. cbn. rewrite Hn.
    apply Nat.eqb_neq in H. rewrite Nat.eqb_sym, H. auto.
  - unfold fire_world. destruct (callback _ _ _) as [[? ?]|]; reflexivity.
  - unfold fire_world. destruct (callback _ _ _) as [[? ?]|]; reflexivity.
  - unfold proc_of. rewrite E3. reflexivity.
  - rewrite fire_world_conn in H. auto.
  - eapply idle_ext; [| | |eassumption]; rewrite ?fire_world_conn, ?E7; auto.
Qed.

Lemma at_fire n m w s nm : at_ w s nm -> n_conn n = c -> at_ (fire_world n m w) (fire A (n_name n) m s) nm.
Proof.
  intros [Q <- <-] Hc. split; [apply quiet_fire, Q|apply view_fire, Hc|rewrite fire_world_conn; reflexivity].
Qed.

Lemma fireEvent_runs t n m w s nm : at_ w s nm -> n_conn n = c ->
  runs t (fireEvent G n m) w (answer A (n_name n) m) (fire A (n_name n) m s) nm.
Proof.
  intros H Hc. exists (fire_world n m w). split; [apply fireEvent_exec, Hc|].
  split; [apply at_fire; auto|apply only_fire, Hc].
Qed.

(** *** Reading the membership *)
Lemma upd_conn_id w f : w_conns w !! c = Some (conn_of w c) -> f (conn_of w c) = conn_of w c -> upd_conn c f w = w.
Proof.
  intros H1 H2. unfold upd_conn. rewrite H2. destruct w; cbn in *. unfold set; cbn. f_equal. apply insert_id, H1.
Qed.
Lemma upd_conn_twice w f g : upd_conn c g (upd_conn c f w) = upd_conn c (fun k => g (f k)) w.
Proof.
  unfold upd_conn at 1. rewrite conn_upd_eq. unfold upd_conn. destruct w; unfold set; cbn. f_equal. apply insert_insert.
Qed.
Lemma upd_ns_id w n f : w_nss w !! n_id n = Some (ns_of w n) -> f (ns_of w n) = ns_of w n -> upd_ns n f w = w.
Proof.
  intros H1 H2. unfold upd_ns. rewrite H2. destruct w; cbn in *. unfold set; cbn. f_equal. apply insert_id, H1.
Qed.
Lemma upd_ns_twice w n f g : upd_ns n g (upd_ns n f w) = upd_ns n (fun k => g (f k)) w.
Proof.
  unfold upd_ns at 1. rewrite ns_upd_eq. unfold upd_ns. destruct w; unfold set; cbn. f_equal. apply insert_insert.
Qed.
Lemma upd_conn_ext w f g : f (conn_of w c) = g (conn_of w c) -> upd_conn c f w = upd_conn c g w.
Proof. unfold upd_conn. intros ->. reflexivity. Qed.
Lemma upd_ns_ext w n f g : f (ns_of w n) = g (ns_of w n) -> upd_ns n f w = upd_ns n g w.
Proof. unfold upd_ns. intros ->. reflexivity. Qed.

Lemma conn_eta k : Conn (c_id k) (c_acked k) (c_inside k) (c_closed k) (c_closeCh k) (c_wait k) (c_nss k) (c_nsmu k)
  (c_procs k) (c_waiting k) (c_qtext k) (c_qbin k) (c_store k) (c_in k) (c_inend k) (c_out k) (c_wfail k) (c_sockclosed k) (c_got k) = k.
Proof. destruct k; reflexivity. Qed.

Lemma Namespace_exec t w name : quiet G w c ->
  exec t (Namespace c name) w = XDone w (c_nss (conn_of w c) !! name).
Proof.
  intros Q. unfold Namespace.
  rewrite (exec_opb t (ONsRLock c) _ _ _ tt) by (cbn [ostep]; rewrite (q_nsmu _ _ _ Q); reflexivity).
  rewrite (exec_opb t (OGetNs c name) _ _ _ _ eq_refl). rewrite conn_upd_eq.
  rewrite (exec_opb t (ONsRUnlock c) _ _ w tt); [reflexivity|].
  cbn [ostep]. rewrite conn_upd_eq. cbn. rewrite (q_nsmu _ _ _ Q). cbn. rewrite Nat.eqb_refl. cbn.
  f_equal. rewrite upd_conn_twice. apply upd_conn_id; [apply Q|].
  pose proof (q_nsmu _ _ _ Q) as Hmu. destruct (conn_of w c); cbn in *. unfold set; cbn. subst.
  cbn. rewrite Nat.eqb_refl. reflexivity.
Qed.

Lemma hasRoom_exec {B} t w n r (f : bool -> prog B) : 
  w_nss w !! n_id n = Some (ns_of w n) -> o_mu (ns_of w n) = rw0 ->
  exec t (bind (opr (ORoomRLock n)) (fun _ => bind (opr (OHasRoom n r)) (fun ok => bind (opr (ORoomRUnlock n)) (fun _ => f ok)))) w
  = exec t (f (bool_decide (r ∈ o_rooms (ns_of w n)))) w.
Proof.
  intros Hn Hmu.
  rewrite (exec_opb t (ORoomRLock n) _ _ _ tt) by (cbn [ostep]; rewrite Hmu; reflexivity).
  rewrite (exec_opb t (OHasRoom n r) _ _ _ _ eq_refl). rewrite ns_upd_eq. cbn [o_rooms].
  rewrite (exec_opb t (ORoomRUnlock n) _ _ w tt); [reflexivity|].
  cbn [ostep]. rewrite ns_upd_eq. cbn. rewrite Hmu. cbn. rewrite Nat.eqb_refl. cbn.
  f_equal. rewrite upd_ns_twice. apply upd_ns_id; [exact Hn|].
  destruct (ns_of w n); cbn in *. unfold set; cbn. subst. cbn. rewrite Nat.eqb_refl. reflexivity.
Qed.

(** *** Sending *)
Definition send_world (f : mtype * string) (w : world) : world :=
  upd_conn c (fun k => k <| c_out ::= fun l => l ++ [f] |>) w.

Lemma send_conn f w : conn_of (send_world f w) c = conn_of w c <| c_out ::= fun l => l ++ [f] |>.
Proof. apply conn_upd_eq. Qed.

Lemma only_send f w : only c w (send_world f w).
Proof.
  split; rewrite ?send_conn; auto. 1: intros c' H; apply upd_conn_ne, H.
  apply idle_ext; rewrite ?send_conn; auto.
Qed.

Lemma view_send f w : view (send_world f w) c = push f (view w c).
Proof. unfold view. rewrite send_conn. reflexivity. Qed.

Lemma quiet_send f w : quiet G w c -> quiet G (send_world f w) c.
Proof.
  intros [H1 []]. unfold quiet. rewrite send_conn. split; [apply lookup_insert|].
  split; cbn; auto.
Qed.

Lemma at_send f w s nm : at_ w s nm -> at_ (send_world f w) (push f s) nm.
Proof.
  intros [Q <- <-]. split; [apply quiet_send, Q|apply view_send|rewrite send_conn; reflexivity].
Qed.

Lemma write_exec t w b bin : quiet G w c ->
  exec t (write G c b bin) w = XDone (send_world (if bin then BinaryMessage else TextMessage, b) w) true.
Proof.
  intros Q. unfold write.
  rewrite (exec_opb t (OSockWrite c (if bin then BinaryMessage else TextMessage) b) _ _
             (send_world (if bin then BinaryMessage else TextMessage, b) w) None); [reflexivity|].
  cbn [ostep]. rewrite (q_sock _ _ _ Q), (q_wfail _ _ _ Q). reflexivity.
Qed.

Lemma write_runs t w b bin s nm : at_ w s nm ->
  runs t (write G c b bin) w true (push (if bin then BinaryMessage else TextMessage, b) s) nm.
Proof.
  intros H. eexists. split; [apply write_exec, H|]. split; [apply at_send, H|apply only_send].
Qed.

Lemma writeEmptyReply_runs t w m s nm : at_ w s nm ->
  runs t (writeEmptyReply G c (m_wait m)) w true (ok_reply m s) nm.
Proof. apply write_runs. Qed.

Lemma unwait_exec t w e : w_ready (c_wait (conn_of w c)) = true -> exec t (unwait c e) w = XDone w tt.
Proof.
  intros H. unfold unwait. rewrite (exec_opb t (OWReady c) _ _ w true); [reflexivity|].
  cbn [ostep]. rewrite H. reflexivity.
Qed.

Lemma Is_exec t w x : exec t (Is G c x) w = 
  XDone w (negb (is_empty x) && String.eqb (r_self (role_of G c w)) x).
Proof.
  unfold Is, role_of, IsClient. cbn [r_self]. destruct (is_empty x); [reflexivity|].
  destruct (g_client G c); reflexivity.
Qed.

Lemma canWrite_exec t w s nm m : at_ w s nm ->
  exec t (canWrite G c m) w = XDone w (may_send (role_of G c w) (cs_rooms s) m).
Proof.
  intros H. unfold canWrite.
  rewrite (exec_opb t (OIsClosed c) _ _ _ _ eq_refl), (q_open _ _ _ (a_quiet _ _ _ H)).
  rewrite (exec_bind_done _ _ _ _ w tt).
  2:{ unfold IsClient. destruct (g_client G c) eqn:E; [reflexivity|].
      apply unwait_exec. apply (q_ready _ _ _ (a_quiet _ _ _ H)), E. }
  unfold may_send.
  assert (HA : forall B (f : bool -> prog B),
    exec t (bind (if isConnect m || isDisconnect m then Ret true else
    bind (if m_locked m then Ret tt else opr (ONsRLock c)) (fun _ =>
    bind (opr (OGetNs c (m_namespace m))) (fun ns =>
    bind (if m_locked m then Ret tt else opr (ONsRUnlock c)) (fun _ =>
    match ns with
    | None => Ret false
    | Some n =>
        if negb (is_empty (m_room m)) && negb (isRoomJoin m) && negb (isRoomLeft m) then
          bind (if m_locked m then Ret tt else opr (ORoomRLock n)) (fun _ =>
          bind (opr (OHasRoom n (m_room m))) (fun ok =>
          bind (if m_locked m then Ret tt else opr (ORoomRUnlock n)) (fun _ =>
          Ret ok)))
        else Ret true
    end)))) f) w = exec t (f (isConnect m || isDisconnect m ||
   match cs_rooms s !! m_namespace m with
   | None => false
   | Some rs => is_empty (m_room m) || isRoomJoin m || isRoomLeft m || bool_decide (m_room m ∈ rs)
   end)) w).
  2:{ rewrite HA. clear HA. destruct (_ || match _ with Some _ => _ | None => _ end); cbn [negb andb]; [|reflexivity].
      rewrite (exec_bind_done _ _ _ _ _ _ (Is_exec _ _ _)). cbn [exec]. f_equal.
      destruct (is_empty _); [reflexivity|]. cbn. destruct (String.eqb _ _); reflexivity. }
  intros B f. destruct (isConnect m || isDisconnect m) eqn:E0; [reflexivity|].
  cbn [orb].
  transitivity (exec t (bind (bind (Namespace c (m_namespace m)) (fun ns =>
    match ns with
    | None => Ret false
    | Some n =>
        if negb (is_empty (m_room m)) && negb (isRoomJoin m) && negb (isRoomLeft m) then
          bind (if m_locked m then Ret tt else opr (ORoomRLock n)) (fun _ =>
          bind (opr (OHasRoom n (m_room m))) (fun ok =>
          bind (if m_locked m then Ret tt else opr (ORoomRUnlock n)) (fun _ =>
          Ret ok)))
        else Ret true
    end)) f) w).
  { destruct (m_locked m); [|reflexivity].
    rewrite (bind_assoc_exec _ _ _ _ _ _ _ (Namespace_exec _ _ _ (a_quiet _ _ _ H))). reflexivity. }
  rewrite (bind_assoc_exec _ _ _ _ _ _ _ (Namespace_exec _ _ _ (a_quiet _ _ _ H))).
  rewrite (a_nm _ _ _ H).
  destruct (nm !! m_namespace m) as [n|] eqn:En.
  - destruct (at_ns _ _ _ _ _ H En) as (Hc & Hname & Hn & Href & Hmu & Hrooms). rewrite Hrooms.
    destruct (is_empty (m_room m)); [reflexivity|].
    destruct (isRoomJoin m); [reflexivity|].
    destruct (isRoomLeft m); [reflexivity|]. cbn [negb andb orb].
    destruct (m_locked m).
    + reflexivity.
    + cbv match. rewrite exec_bind. rewrite (hasRoom_exec _ _ _ _ (fun ok => Ret ok)) by assumption. reflexivity.
  - rewrite (at_rooms _ _ _ _ H), En. reflexivity.
Qed.

Lemma role_only w w' : only c w w' -> role_of G c w' = role_of G c w.
Proof. intros H. unfold role_of. rewrite (y_id _ _ _ H). reflexivity. Qed.

Definition printable (m : message) : Prop :=
  match m_err m with None => True | Some e => exists text, err_text e = Ok text end.

Lemma serialize_printable m : printable m -> exists b, serializeMessage (set_fromExplicit "" m) = Ok b.
Proof.
  unfold printable, serializeMessage. intros H. cbn [m_isNative m_wait m_body m_fromExplicit m_namespace m_room m_event m_err m_isNoOp set_fromExplicit is_empty negb].
  destruct (m_isNative m && is_empty (m_wait m)); [eauto|].
  unfold serializeOutput. destruct (m_err m) as [e|]; [|eauto].
  destruct (is_reply e); [eauto|]. destruct H as [text ->]. eauto.
Qed.

Lemma Write_runs t w s nm m : at_ w s nm -> printable m ->
  runs t (Write G c m) w (may_send (role_of G c w) (cs_rooms s) m) (try_send (role_of G c w) m s) nm.
Proof.
  intros H Hp. unfold Write, try_send.
  destruct (serialize_printable m Hp) as [b Hb].
  eapply runs_bind.
  { exists w. split; [eapply canWrite_exec; exact H|]. split; [exact H|apply only_refl]. }
  intros w1 H1 O1. destruct (may_send _ _ m); cbn [negb].
  - rewrite Hb. unfold wire_of. rewrite Hb. apply write_runs, H1.
  - apply runs_ret, H1.
Qed.

Lemma Write_err_runs {B} t w s nm m e (b : B) : at_ w s nm -> (exists text, err_text e = Ok text) ->
  runs t (bind (Write G c (set_err (Some e) m)) (fun _ => Ret b)) w b (err_reply (role_of G c w) m e s) nm.
Proof.
  intros H He. eapply runs_bind; [apply Write_runs; [exact H|exact He]|].
  intros w1 H1 O1. apply runs_ret, H1.
Qed.

(** *** Changing the membership *)

(** A NSConn that was just allocated and is not registered yet. *)
Definition newborn (w : world) (n : nsref) : Prop :=
  n_conn n = c /\ w_nss w !! n_id n = Some (nsobj0 n) /\
  forall name n', c_nss (conn_of w c) !! name = Some n' -> n_id n' <> n_id n.

Lemma newNs_runs t w s nm name : at_ w s nm ->
  exists n w', exec t (opr (ONewNs c name)) w = XDone w' n /\ at_ w' s nm /\ only c w w' /\ newborn w' n /\ n_name n = name.
Proof.
  intros H. pose proof (a_quiet _ _ _ H) as [Hm Q].
  set (n := NsRef c name (w_next w)).
  exists n, (w <| w_nss ::= <[w_next w := nsobj0 n]> |> <| w_next ::= S |>).
  assert (Hne : forall id o, w_nss w !! id = Some o -> w_next w <> id).
  { intros id o E. specialize (q_fresh_ _ _ _ _ _ Q _ _ E). lia. }
  assert (Hns : forall name' n', nm !! name' = Some n' -> w_next w <> n_id n').
  { intros name' n' E. destruct (at_ns _ _ _ _ _ H E) as (_ & _ & E1 & _). eauto. }
  split; [reflexivity|]. split; [split|split; [|split]].
  - split; [exact Hm|]. cbn. destruct Q. split; cbn; auto.
    + intros name' n' E. destruct (q_ns_ _ _ E) as (? & ? & o & E1 & ?). split; [auto|split; [auto|]].
      exists o. rewrite lookup_insert_ne by eauto. auto.
    + intros id o. destruct (decide (w_next w = id)) as [<-|Hd]; [lia|]. rewrite lookup_insert_ne by auto.
      intros E. specialize (q_fresh_ _ _ E). lia.
  - rewrite <- (a_view _ _ _ H). unfold view. cbn. f_equal. apply map_fmap_ext. intros name' n' E.
    unfold ns_of. cbn. rewrite lookup_insert_ne; [reflexivity|]. rewrite <- (a_nm _ _ _ H) in Hns. eauto.
  - apply (a_nm _ _ _ H).
  - split; auto.
    + intros id o E _. cbn. rewrite lookup_insert_ne by eauto. exact E.
    + cbn. lia.
    + apply idle_ext; auto. cbn. lia.
  - split; [reflexivity|]. split; [cbn; apply lookup_insert|].
    intros name' n' E. cbn in E. change (c_nss (conn_of w c) !! name' = Some n') in E.
    rewrite (a_nm _ _ _ H) in E. intros Heq. apply (Hns _ _ E). symmetry. exact Heq.
  - reflexivity.
Qed.

Lemma newborn_ext w w' n : newborn w n -> w_nss w' = w_nss w -> c_nss (conn_of w' c) = c_nss (conn_of w c) -> newborn w' n.
Proof. intros (H1 & H2 & H3) E1 E2. split; [exact H1|]. rewrite E1, E2. auto. Qed.

Definition setns_world (name : string) (n : nsref) (w : world) : world :=
  upd_conn c (fun k => k <| c_nss ::= <[name := n]> |>) w.
Definition delns_world (name : string) (w : world) : world :=
  upd_conn c (fun k => k <| c_nss ::= delete name |>) w.

Lemma locked_upd_exec {B} t w (o : op) (f : conn -> conn) (p : prog B) :
  c_nsmu (conn_of w c) = rw0 ->
  (exists H : res o = unit, forall w, ostep t w o = Goes (upd_conn c f w) (eq_rect_r (fun T => T) tt H)) ->
  (forall k l, f (k <| c_nsmu := l |>) <| c_nsmu := rw0 |> = f k <| c_nsmu := rw0 |>) ->
  (forall k, c_nsmu (f k) = c_nsmu k) ->
  exec t (bind (opr (ONsLock c)) (fun _ => bind (opr o) (fun _ => bind (opr (ONsUnlock c)) (fun _ => p)))) w
  = exec t p (upd_conn c (fun k => f k <| c_nsmu := rw0 |>) w).
Proof.
  intros Hmu [Hu Ho] Hf1 Hf2.
  rewrite (exec_opb t (ONsLock c) _ _ _ tt) by (cbn [ostep]; rewrite Hmu; reflexivity).
  rewrite (exec_opb t o _ _ _ _ (Ho _)).
  rewrite (exec_opb t (ONsUnlock c) _ _ (upd_conn c (fun k => f k <| c_nsmu := rw0 |>) w) tt); [reflexivity|].
  cbn [ostep]. rewrite !conn_upd_eq. rewrite Hf2. cbn. rewrite Nat.eqb_refl. f_equal.
  rewrite !upd_conn_twice. apply upd_conn_ext. apply Hf1.
Qed.

Lemma setNs_exec {B} t w name n (p : prog B) : quiet G w c ->
  exec t (bind (opr (ONsLock c)) (fun _ => bind (opr (OSetNs c name n)) (fun _ => bind (opr (ONsUnlock c)) (fun _ => p)))) w
  = exec t p (setns_world name n w).
Proof.
  intros Q. rewrite (locked_upd_exec t w (OSetNs c name n) (fun k => k <| c_nss ::= <[name := n]> |>)).
  - f_equal. apply upd_conn_ext. pose proof (q_nsmu _ _ _ Q). destruct (conn_of w c); cbn in *. unfold set; cbn. subst. reflexivity.
  - apply Q.
  - exists eq_refl. reflexivity.
  - intros [] l; reflexivity.
  - intros []; reflexivity.
Qed.

Lemma delNs_exec {B} t w name (p : prog B) : quiet G w c ->
  exec t (bind (opr (ONsLock c)) (fun _ => bind (opr (ODelNs c name)) (fun _ => bind (opr (ONsUnlock c)) (fun _ => p)))) w
  = exec t p (delns_world name w).
Proof.
  intros Q. rewrite (locked_upd_exec t w (ODelNs c name) (fun k => k <| c_nss ::= delete name |>)).
  - f_equal. apply upd_conn_ext. pose proof (q_nsmu _ _ _ Q). destruct (conn_of w c); cbn in *. unfold set; cbn. subst. reflexivity.
  - apply Q.
  - exists eq_refl. reflexivity.
  - intros [] l; reflexivity.
  - intros []; reflexivity.
Qed.

Lemma at_setns w s nm name n : at_ w s nm -> newborn w n -> n_name n = name ->
  at_ (setns_world name n w) (s <| cs_rooms ::= <[name := ∅]> |>) (<[name := n]> nm).
Proof.
  intros H (Hc & Hn & Hne) Hname. pose proof (a_quiet _ _ _ H) as [Hm Q].
  unfold setns_world. split.
  - split; [rewrite conn_upd_eq; apply lookup_insert|]. rewrite conn_upd_eq. destruct Q. split; cbn; auto.
    intros name' n'. destruct (decide (name = name')) as [<-|Hd].
    + rewrite lookup_insert. intros [= <-]. split; [exact Hc|]. split; [exact Hname|]. exists (nsobj0 n). auto.
    + rewrite lookup_insert_ne by exact Hd. apply q_ns_.
  - rewrite <- (a_view _ _ _ H). unfold view. rewrite conn_upd_eq. cbn. unfold set; cbn. f_equal.
    rewrite fmap_insert. f_equal. unfold ns_of. cbn. rewrite Hn. reflexivity.
  - rewrite conn_upd_eq. cbn. rewrite (a_nm _ _ _ H). reflexivity.
Qed.

Lemma only_setns w name n : only c w (setns_world name n w).
Proof.
  split; unfold setns_world; rewrite ?conn_upd_eq; auto. 1: intros c' Hc; apply upd_conn_ne, Hc.
  apply idle_ext; rewrite ?conn_upd_eq; auto.
Qed.

Lemma at_delns w s nm name : at_ w s nm ->
  at_ (delns_world name w) (s <| cs_rooms ::= delete name |>) (delete name nm).
Proof.
  intros H. pose proof (a_quiet _ _ _ H) as [Hm Q].
  unfold delns_world. split.
  - split; [rewrite conn_upd_eq; apply lookup_insert|]. rewrite conn_upd_eq. destruct Q. split; cbn; auto.
    intros name' n' E. apply lookup_delete_Some in E as [_ E]. apply (q_ns_ _ _ E).
  - rewrite <- (a_view _ _ _ H). unfold view. rewrite conn_upd_eq. cbn. unfold set; cbn. f_equal.
    apply fmap_delete.
  - rewrite conn_upd_eq. cbn. rewrite (a_nm _ _ _ H). reflexivity.
Qed.

Lemma only_delns w name : only c w (delns_world name w).
Proof.
  split; unfold delns_world; rewrite ?conn_upd_eq; auto. 1: intros c' Hc; apply upd_conn_ne, Hc.
  apply idle_ext; rewrite ?conn_upd_eq; auto.
Qed.

(** *** Rooms *)
Definition rooms_world (n : nsref) (f : gset string -> gset string) (w : world) : world :=
  upd_ns n (fun k => k <| o_rooms ::= f |>) w.

Lemma at_unique w s nm name name' n n' : at_ w s nm -> nm !! name = Some n -> nm !! name' = Some n' ->
  n_id n = n_id n' -> name = name'.
Proof.
  intros H E E' Hid. destruct (at_ns _ _ _ _ _ H E) as (_ & <- & E1 & H1 & _).
  destruct (at_ns _ _ _ _ _ H E') as (_ & <- & E2 & H2 & _).
  rewrite Hid, E2 in E1. injection E1 as E1. rewrite E1 in H2. congruence.
Qed.

Lemma only_rooms w n f s nm : at_ w s nm -> nm !! n_name n = Some n -> only c w (rooms_world n f w).
Proof.
  intros H E. destruct (at_ns _ _ _ _ _ H E) as (Hc & _ & E1 & H1 & _).
  split; auto. intros id o Eo Ho. unfold rooms_world, upd_ns. cbn.
  destruct (decide (n_id n = id)) as [<-|Hd]; [|rewrite lookup_insert_ne by exact Hd; exact Eo].
  rewrite E1 in Eo. injection Eo as <-. rewrite H1 in Ho. congruence.
Qed.

Lemma at_rooms_world w s nm n f : at_ w s nm -> nm !! n_name n = Some n ->
  at_ (rooms_world n f w) (s <| cs_rooms ::= alter f (n_name n) |>) nm.
Proof.
  intros H E. pose proof (a_quiet _ _ _ H) as [Hm Q].
  destruct (at_ns _ _ _ _ _ H E) as (Hc & _ & E1 & H1 & H2 & H3).
  split.
  - split; [exact Hm|]. destruct Q. split; cbn; auto.
    + intros name' n' E'. destruct (q_ns_ _ _ E') as (? & ? & o & Eo & ? & ?). split; [auto|split; [auto|]].
      destruct (decide (n_id n = n_id n')) as [Hd|Hd].
      * rewrite Hd, lookup_insert. eexists. split; [reflexivity|]. cbn. rewrite H1. split; [|exact H2].
        rewrite <- Hd, E1 in Eo. injection Eo as <-. congruence.
      * rewrite lookup_insert_ne by exact Hd. eauto.
    + intros id o. destruct (decide (n_id n = id)) as [<-|Hd]; [intros _; eapply q_fresh_; exact E1|].
      rewrite lookup_insert_ne by exact Hd. apply q_fresh_.
  - rewrite <- (a_view _ _ _ H). unfold view, set; cbn. f_equal.
    apply map_eq. intros name'. change (conn_of (rooms_world n f w) c) with (conn_of w c).
    rewrite (a_nm _ _ _ H). rewrite lookup_fmap.
    destruct (decide (n_name n = name')) as [<-|Hd].
    + rewrite lookup_alter, lookup_fmap, E. cbn. unfold rooms_world. rewrite ns_upd_eq. reflexivity.
    + rewrite lookup_alter_ne by exact Hd. rewrite lookup_fmap.
      destruct (nm !! name') as [n'|] eqn:E'; [|reflexivity]. cbn. f_equal. unfold rooms_world. rewrite ns_upd_ne; [reflexivity|].
      intros Hid. apply Hd. eapply at_unique; eauto.
  - apply (a_nm _ _ _ H).
Qed.

Lemma locked_room_exec {B} t w n (o : op) (f : nsobj -> nsobj) (p : prog B) :
  o_mu (ns_of w n) = rw0 ->
  (exists H : res o = unit, forall w, ostep t w o = Goes (upd_ns n f w) (eq_rect_r (fun T => T) tt H)) ->
  (forall k l, f (k <| o_mu := l |>) <| o_mu := rw0 |> = f k <| o_mu := rw0 |>) ->
  (forall k, o_mu (f k) = o_mu k) ->
  exec t (bind (opr (ORoomLock n)) (fun _ => bind (opr o) (fun _ => bind (opr (ORoomUnlock n)) (fun _ => p)))) w
  = exec t p (upd_ns n f w).
Proof.
  intros Hmu [Hu Ho] Hf1 Hf2.
  rewrite (exec_opb t (ORoomLock n) _ _ _ tt) by (cbn [ostep]; rewrite Hmu; reflexivity).
  rewrite (exec_opb t o _ _ _ _ (Ho _)).
  rewrite (exec_opb t (ORoomUnlock n) _ _ (upd_ns n f w) tt); [reflexivity|].
  cbn [ostep]. rewrite !ns_upd_eq. rewrite Hf2. cbn. rewrite Nat.eqb_refl. f_equal.
  rewrite !upd_ns_twice. apply upd_ns_ext. rewrite Hf1.
  pose proof (Hf2 (ns_of w n)) as E. rewrite Hmu in E.
  destruct (f (ns_of w n)) as [a b d]; cbn in *. unfold set; cbn. rewrite E. reflexivity.
Qed.

Lemma addRoom_exec {B} t w n r (p : prog B) : o_mu (ns_of w n) = rw0 ->
  exec t (bind (opr (ORoomLock n)) (fun _ => bind (opr (OAddRoom n r)) (fun _ => bind (opr (ORoomUnlock n)) (fun _ => p)))) w
  = exec t p (rooms_world n (fun s => {[r]} ∪ s) w).
Proof.
  intros Hmu. rewrite (locked_room_exec t w n (OAddRoom n r) (fun k => k <| o_rooms ::= fun s => {[r]} ∪ s |>)); auto.
  exists eq_refl. reflexivity.
Qed.

Lemma delRoom_exec {B} t w n r (p : prog B) : o_mu (ns_of w n) = rw0 ->
  exec t (bind (opr (ORoomLock n)) (fun _ => bind (opr (ODelRoom n r)) (fun _ => bind (opr (ORoomUnlock n)) (fun _ => p)))) w
  = exec t p (rooms_world n (fun s => s ∖ {[r]}) w).
Proof.
  intros Hmu. rewrite (locked_room_exec t w n (ODelRoom n r) (fun k => k <| o_rooms ::= fun s => s ∖ {[r]} |>)); auto.
  exists eq_refl. reflexivity.
Qed.

Lemma at_pop w s nm : at_ w s nm -> at_ (pop_seed w) s nm.
Proof. intros [[H1 H2] <- <-]. split; [split|reflexivity|reflexivity]; assumption. Qed.
Lemma only_pop w : only c w (pop_seed w).
Proof. split; auto. Qed.

Definition leave_msg (n : nsref) (local : bool) (r : string) : message :=
  set_room r (set_isLocal local (set_isForced true (set_namespace (n_name n) no_message))).

Fixpoint leave_world (n : nsref) (local : bool) (order : list string) (w : world) : world :=
  match order with
  | [] => w
  | r :: rest =>
      leave_world n local rest
        (fire_world n (set_event OnRoomLeft (leave_msg n local r))
          (rooms_world n (fun s => s ∖ {[r]})
             (fire_world n (set_event OnRoomLeave (leave_msg n local r)) w)))
  end.

Lemma leave_loop_exec t n local order w : n_conn n = c ->
  exec t (for_all order (fun room =>
    bind (fireEvent G n (set_event OnRoomLeave (leave_msg n local room))) (fun _ =>
    bind (opr (ODelRoom n room)) (fun _ =>
    bind (fireEvent G n (set_event OnRoomLeft (leave_msg n local room))) (fun _ => Ret tt))))) w
  = XDone (leave_world n local order w) tt.
Proof.
  intros Hc. revert w; induction order as [|r order IH]; intros w; [reflexivity|].
  cbn [for_all leave_world].
  rewrite (bind_assoc_exec _ _ _ _ _ _ _ (fireEvent_exec t n _ w Hc)).
  rewrite (bind_assoc_exec _ _ _ _ _ _ _ (exec_op t (ODelRoom n r) _ _ tt eq_refl)).
  rewrite (bind_assoc_exec _ _ _ _ _ _ _ (fireEvent_exec t n _ _ Hc)).
  rewrite (exec_bind_done _ (Ret tt) _ _ _ tt eq_refl). apply IH.
Qed.

Definition mu_world (n : nsref) (l : rwlock) (w : world) : world := upd_ns n (fun k => k <| o_mu := l |>) w.

Lemma fire_mu n m n' l w : fire_world n m (mu_world n' l w) = mu_world n' l (fire_world n m w).
Proof. unfold fire_world. destruct (callback _ _ _) as [[? ?]|]; reflexivity. Qed.
Lemma rooms_mu n f l w : rooms_world n f (mu_world n l w) = mu_world n l (rooms_world n f w).
Proof. unfold rooms_world, mu_world. rewrite !upd_ns_twice. apply upd_ns_ext. reflexivity. Qed.
Lemma leave_mu n local order l w : leave_world n local order (mu_world n l w) = mu_world n l (leave_world n local order w).
Proof.
  revert w; induction order as [|r order IH]; intros w; [reflexivity|]. cbn [leave_world].
  rewrite fire_mu, rooms_mu, fire_mu. apply IH.
Qed.

Lemma at_leave n local order w s nm : at_ w s nm -> nm !! n_name n = Some n ->
  at_ (leave_world n local order w) (leave_rooms A (n_name n) local order s) nm /\ only c w (leave_world n local order w).
Proof.
  intros H E. revert w s H; induction order as [|r order IH]; intros w s H; [split; [exact H|apply only_refl]|].
  assert (Hc : n_conn n = c) by (eapply at_ns; eassumption).
  cbn [leave_world leave_rooms].
  pose proof (at_fire n (set_event OnRoomLeave (leave_msg n local r)) _ _ _ H Hc) as H1.
  pose proof (only_fire n (set_event OnRoomLeave (leave_msg n local r)) w Hc) as O1.
  pose proof (at_rooms_world _ _ _ n (fun s => s ∖ {[r]}) H1 E) as H2.
  pose proof (only_rooms _ n (fun s => s ∖ {[r]}) _ _ H1 E) as O2.
  pose proof (at_fire n (set_event OnRoomLeft (leave_msg n local r)) _ _ _ H2 Hc) as H3.
  pose proof (only_fire n (set_event OnRoomLeft (leave_msg n local r)) (rooms_world n (fun s => s ∖ {[r]}) (fire_world n (set_event OnRoomLeave (leave_msg n local r)) w)) Hc) as O3.
  destruct (IH _ _ H3) as [H4 O4]. split; [exact H4|].
  eapply only_trans; [exact O1|]. eapply only_trans; [exact O2|]. eapply only_trans; [exact O3|exact O4].
Qed.

Lemma forceLeaveAll_runs t w s nm n local : at_ w s nm -> nm !! n_name n = Some n ->
  exists order rs, cs_rooms s !! n_name n = Some rs /\ Permutation order (elements rs) /\
    runs t (forceLeaveAll G n local) w tt (leave_rooms A (n_name n) local order s) nm.
Proof.
  intros H E. destruct (at_ns _ _ _ _ _ H E) as (Hc & _ & E1 & H1 & H2 & H3).
  exists (permute (seed w) (elements (o_rooms (ns_of w n)))), (o_rooms (ns_of w n)).
  split; [exact H3|]. split; [apply permute_perm|].
  set (order := permute _ _).
  destruct (at_leave n local order (pop_seed w) s nm (at_pop _ _ _ H) E) as [H4 O4].
  exists (leave_world n local order (pop_seed w)). split; [|split; [exact H4|eapply only_trans; [apply only_pop|exact O4]]].
  unfold forceLeaveAll.
  rewrite (exec_opb t (ORoomLock n) _ _ (mu_world n (RW (Some t) []) w) tt) by (cbn [ostep]; rewrite H2; reflexivity).
  rewrite (exec_opb t (ORoomRange n) _ _ (mu_world n (RW (Some t) []) (pop_seed w)) order).
  2:{ cbn [ostep]. unfold mu_world at 3. rewrite ns_upd_eq. reflexivity. }
  rewrite (exec_bind_done _ _ _ _ _ _ (leave_loop_exec t n local order _ Hc)).
  rewrite leave_mu.
  cbn [opr exec ostep]. unfold mu_world at 1. rewrite ns_upd_eq. cbn. rewrite Nat.eqb_refl. f_equal.
  unfold mu_world. rewrite upd_ns_twice.
  destruct (at_ns _ _ _ _ _ H4 E) as (_ & _ & E1' & H1' & H2' & H3').
  apply upd_ns_id; [exact E1'|]. destruct (ns_of (leave_world n local order (pop_seed w)) n) as [a b d]; cbn in *. unfold set; cbn. subst. reflexivity.
Qed.

(** *** Processes *)
Definition proc_world (name : string) (w : world) : world :=
  upd_conn c (fun k => k <| c_procs ::= <[name := w_next w]> |>)
     (w <| w_procs ::= <[w_next w := proc0]> |> <| w_next ::= S |>).

Lemma at_proc w s nm name : at_ w s nm -> c_procs (conn_of w c) !! name = None -> at_ (proc_world name w) s nm /\ only c w (proc_world name w).
Proof.
  intros H Hno. pose proof (a_quiet _ _ _ H) as [Hm Q]. unfold proc_world. split; [split|].
  - split; [rewrite conn_upd_eq; apply lookup_insert|]. rewrite conn_upd_eq. destruct Q. split; cbn; auto.
    intros id o E. specialize (q_fresh_ _ _ E). lia.
  - rewrite <- (a_view _ _ _ H). unfold view. rewrite conn_upd_eq. reflexivity.
  - rewrite conn_upd_eq. apply (a_nm _ _ _ H).
  - split; rewrite ?conn_upd_eq; auto.
    + intros c' Hd. rewrite upd_conn_ne by exact Hd. reflexivity.
    + intros p Hp. unfold proc_of. cbn. rewrite lookup_insert_ne by lia. reflexivity.
    + intros name' p. cbn. destruct (decide (name = name')) as [<-|Hd].
      * rewrite lookup_insert. intros [= <-]. right. lia.
      * rewrite lookup_insert_ne by exact Hd. auto.
    + intros name' p Hp. cbn. rewrite lookup_insert_ne; [exact Hp|]. intros ->. congruence.
    + cbn. lia.
    + intros Hi name' p. rewrite conn_upd_eq. cbn. destruct (decide (name = name')) as [<-|Hd].
      * rewrite lookup_insert. intros [= <-]. unfold proc_of. cbn. rewrite lookup_insert. cbn. auto.
      * rewrite lookup_insert_ne by exact Hd. intros E. destruct (Hi _ _ E) as [Hlt Hp]. split; [lia|].
        unfold proc_of. cbn. rewrite lookup_insert_ne by lia. exact Hp.
Qed.

Lemma proc_get_Wait_runs t w s nm name : at_ w s nm -> idle w c ->
  runs t (bind (proc_get c name) proc_Wait) w tt s nm.
Proof.
  intros H Hidle.
  destruct (c_procs (conn_of w c) !! name) as [p|] eqn:E.
  - exists w. split; [|split; [exact H|apply only_refl]].
    unfold proc_get. rewrite exec_bind. rewrite (exec_opb t (OProcGet c name) _ _ _ _ eq_refl). rewrite E. cbn [exec xbind].
    destruct (Hidle _ _ E) as [_ Hp].
    unfold proc_Wait. rewrite (exec_opb t (OProcIsDone p) _ _ _ _ eq_refl).
    destruct (p_done (proc_of w p)) eqn:Ed; [reflexivity|].
    destruct Hp as [Hp|Hp]; [discriminate|].
    rewrite (exec_opb t (OProcWait p) _ _ w None); [reflexivity|]. cbn [ostep]. rewrite Hp. reflexivity.
  - destruct (at_proc _ _ _ name H E) as [H1 O1].
    exists (proc_world name w). split; [|split; assumption].
    unfold proc_get. rewrite exec_bind. rewrite (exec_opb t (OProcGet c name) _ _ _ _ eq_refl). rewrite E. cbv match.
    change (exec t (opr (OProcNew c name)) w) with (@XDone pid (proc_world name w) (w_next w)). cbn [xbind].
    assert (Ep : proc_of (proc_world name w) (w_next w) = proc0).
    { unfold proc_of, proc_world. cbn. rewrite lookup_insert. reflexivity. }
    unfold proc_Wait. rewrite (exec_opb t (OProcIsDone (w_next w)) _ _ _ _ eq_refl). rewrite Ep. change (p_done proc0) with false. cbv match.
    rewrite (exec_opb t (OProcWait (w_next w)) _ _ (proc_world name w) None); [reflexivity|]. cbn [ostep]. rewrite Ep. reflexivity.
Qed.

Lemma bind_assoc_runs {B C D} t (p : prog B) (f : B -> prog C) (g : C -> prog D) w b s nm :
  runs t (bind (bind p f) g) w b s nm -> runs t (bind p (fun x => bind (f x) g)) w b s nm.
Proof.
  intros (w' & E & H). exists w'. split; [|exact H]. revert E. rewrite !exec_bind.
  destruct (exec t p w); cbn [xbind]; try discriminate. rewrite exec_bind. auto.
Qed.

Lemma tryNamespace_runs t w s nm m : at_ w s nm -> idle w c ->
  isConnect m = false -> isDisconnect m = false ->
  runs t (tryNamespace G c m) w (nm !! m_namespace m) s nm.
Proof.
  intros H Hidle Hc Hd. unfold tryNamespace. apply bind_assoc_runs.
  eapply runs_bind; [apply proc_get_Wait_runs; eassumption|]. intros w1 H1 O1.
  eapply runs_bind.
  { exists w1. split; [apply Namespace_exec, H1|]. split; [exact H1|apply only_refl]. }
  intros w2 H2 O2. rewrite (a_nm _ _ _ H1).
  destruct (nm !! m_namespace m) as [n|] eqn:E; [apply runs_ret, H2|].
  assert (Hno : may_send (role_of G c w2) (cs_rooms s) (set_err (Some EBadNamespace) m) = false).
  { unfold may_send. change (isConnect (set_err (Some EBadNamespace) m)) with (isConnect m).
    change (isDisconnect (set_err (Some EBadNamespace) m)) with (isDisconnect m). rewrite Hc, Hd.
    change (m_namespace (set_err (Some EBadNamespace) m)) with (m_namespace m).
    rewrite (at_rooms _ _ _ _ H2), E. reflexivity. }
  eapply runs_bind.
  - pose proof (Write_runs t w2 s nm (set_err (Some EBadNamespace) m) H2) as HW.
    unfold try_send in HW. rewrite Hno in HW. apply HW. unfold printable; cbn. eauto.
  - intros w3 H3 O3. apply runs_ret, H3.
Qed.

(** *** StackExchange subscriptions *)
Lemma exch_runs t w s nm sub ns : at_ w s nm ->
  runs t (if IsClient G c then Ret tt else exch_call G (if sub : bool then XSubscribe c ns else XUnsubscribe c ns)) w tt
    (if sub then subscribed (role_of G c w) ns s else unsubscribed (role_of G c w) ns s) nm.
Proof.
  intros H. pose proof (a_quiet _ _ _ H) as [Hm Q].
  unfold subscribed, unsubscribed, role_of, IsClient, exch_call, usesStackExchange. cbn [r_client r_exch].
  destruct (g_client G c); cbn [negb andb]; [destruct sub; apply runs_ret, H|].
  destruct (g_exch G); [|destruct sub; apply runs_ret, H].
  eexists. split; [reflexivity|]. split; [split|].
  - split; [exact Hm|exact Q].
  - rewrite <- (a_view _ _ _ H). unfold view, set. cbn. destruct sub; cbn; rewrite Nat.eqb_refl; reflexivity.
  - apply (a_nm _ _ _ H).
  - split; auto. intros c' Hc. destruct sub; cbn; apply Nat.eqb_neq in Hc; rewrite Nat.eqb_sym, Hc; auto.
Qed.

Lemma runs_s {B} t (p : prog B) w b s s' nm : s = s' -> runs t p w b s nm -> runs t p w b s' nm.
Proof. intros ->. auto. Qed.

Lemma notifyConnected_runs t w s nm n m : at_ w s nm -> n_conn n = c ->
  runs t (notifyNamespaceConnected G c n m) w tt
    (subscribed (role_of G c w) (n_name n) (fire A (n_name n) (set_event OnNamespaceConnected m) s)) nm.
Proof.
  intros H Hc. unfold notifyNamespaceConnected. eapply runs_bind; [apply fireEvent_runs; eassumption|].
  intros w1 H1 O1. rewrite <- (role_only _ _ O1). apply (exch_runs t w1 _ nm true (n_name n) H1).
Qed.

(** *** Requests *)
Lemma runs_exec {B} t (p q : prog B) w w1 b s nm :
  exec t p w = exec t q w1 -> only c w w1 -> runs t q w1 b s nm -> runs t p w b s nm.
Proof.
  intros E O (w' & E' & H & O'). exists w'. split; [congruence|]. split; [exact H|eapply only_trans; eassumption].
Qed.

Lemma runs_only {B} t (p : prog B) w b s nm (P : Prop) : (forall w', only c w w' -> P) -> runs t p w b s nm -> P.
Proof. intros HP (w' & _ & _ & O). eauto. Qed.

Lemma replyConnect_runs t w s nm m : at_ w s nm -> 
  exists nm', runs t (replyConnect G c m) w tt (if is_request m then on_connect (role_of G c w) A m s else s) nm'.
Proof.
  intros H. unfold replyConnect, is_request. destruct (is_empty (m_wait m)); cbn [orb negb andb]; [exists nm; apply runs_ret, H|].
  destruct (m_isNoOp m); cbn [orb negb andb]; [exists nm; apply runs_ret, H|].
  unfold on_connect. rewrite (at_rooms _ _ _ _ H).
  assert (Hns : runs t (Namespace c (m_namespace m)) w (nm !! m_namespace m) s nm).
  { exists w. rewrite <- (a_nm _ _ _ H). split; [apply Namespace_exec, H|].
    split; [rewrite (a_nm _ _ _ H); exact H|apply only_refl]. }
  destruct (nm !! m_namespace m) as [n0|] eqn:E0; cbn [fmap option_fmap option_map].
  - exists nm. eapply runs_bind; [exact Hns|]. intros w1 H1 O1.
    eapply runs_bind; [apply writeEmptyReply_runs, H1|]. intros w2 H2 O2. apply runs_ret, H2.
  - destruct (A !! m_namespace m) as [evs|] eqn:EA.
    2:{ exists nm. eapply runs_bind; [exact Hns|]. intros w1 H1 O1. rewrite (lift_none _ EA).
        rewrite <- (role_only _ _ O1). apply Write_err_runs; [exact H1|cbn; eauto]. }
    destruct Hns as (w1 & E1 & H1 & O1).
    destruct (newNs_runs t _ _ _ (m_namespace m) H1) as (n & w2 & E2 & H2 & O2 & Hnew & Hname).
    assert (Hc : n_conn n = c) by apply Hnew.
    pose proof (at_fire n m _ _ _ H2 Hc) as H3. pose proof (only_fire n m w2 Hc) as O3.
    assert (O13 : only c w (fire_world n m w2)).
    { eapply only_trans; [exact O1|]. eapply only_trans; [exact O2|exact O3]. }
    rewrite Hname in H3.
    assert (Hpre : forall (nm' : nmap) s',
      runs t (match answer A (m_namespace m) m with
          | Some e => bind (Write G c (set_err (Some e) m)) (fun _ => Ret tt)
          | None =>
              bind (opr (ONsLock c)) (fun _ => bind (opr (OSetNs c (m_namespace m) n)) (fun _ => bind (opr (ONsUnlock c)) (fun _ =>
              bind (writeEmptyReply G c (m_wait m)) (fun _ => notifyNamespaceConnected G c n m))))
          end) (fire_world n m w2) tt s' nm' ->
      runs t (bind (Namespace c (m_namespace m)) (fun cur => match cur with
        | Some _ => bind (writeEmptyReply G c (m_wait m)) (fun _ => Ret tt)
        | None =>
          match g_namespaces G c !! m_namespace m with
          | None => bind (Write G c (set_err (Some EBadNamespace) m)) (fun _ => Ret tt)
          | Some _ =>
            bind (opr (ONewNs c (m_namespace m))) (fun n => bind (fireEvent G n m) (fun err =>
            match err with
            | Some e => bind (Write G c (set_err (Some e) m)) (fun _ => Ret tt)
            | None =>
              bind (opr (ONsLock c)) (fun _ => bind (opr (OSetNs c (m_namespace m) n)) (fun _ => bind (opr (ONsUnlock c)) (fun _ =>
              bind (writeEmptyReply G c (m_wait m)) (fun _ => notifyNamespaceConnected G c n m))))
            end))
          end
        end)) w tt s' nm').
    { intros nm' s' HR. eapply runs_exec; [|exact O13|exact HR].
      rewrite (exec_bind_done _ _ _ _ _ _ E1). rewrite (lift_some _ _ EA).
      rewrite (exec_bind_done _ _ _ _ _ _ E2).
      rewrite (exec_bind_done _ _ _ _ _ _ (fireEvent_exec t n m w2 Hc)). rewrite Hname. reflexivity. }
    destruct (answer A (m_namespace m) m) as [e|] eqn:Ea.
    + exists nm. apply Hpre. rewrite <- (role_only _ _ O13). apply Write_err_runs; [exact H3|eapply answer_text; exact Ea].
    + exists (<[m_namespace m := n]> nm). apply Hpre.
      assert (Hnew' : newborn (fire_world n m w2) n).
      { eapply newborn_ext; [exact Hnew|apply fire_world_eqs|rewrite fire_world_conn; reflexivity]. }
      pose proof (at_setns _ _ _ _ _ H3 Hnew' Hname) as H4.
      pose proof (only_setns (fire_world n m w2) (m_namespace m) n) as O4.
      eapply runs_exec; [apply setNs_exec, H3|exact O4|].
      eapply runs_bind; [apply writeEmptyReply_runs, H4|]. intros w5 H5 O5.
      assert (Hrole : role_of G c w = role_of G c w5).
      { rewrite (role_only _ _ O5), (role_only _ _ O4), (role_only _ _ O13). reflexivity. }
      rewrite Hrole. pose proof (notifyConnected_runs t w5 _ _ n m H5 Hc) as HR. rewrite Hname in HR. exact HR.
Qed.

Lemma replyDisconnect_runs t w s nm m : at_ w s nm ->
  exists order nm', (forall rs, cs_rooms s !! m_namespace m = Some rs -> Permutation order (elements rs)) /\
    runs t (replyDisconnect G c m) w tt (if is_request m then on_disconnect (role_of G c w) A order m s else s) nm'.
Proof.
  intros H. unfold replyDisconnect, is_request.
  assert (Hdummy : forall q : prog unit, runs t q w tt s nm -> exists order nm', (forall rs, cs_rooms s !! m_namespace m = Some rs -> Permutation order (elements rs)) /\
    runs t q w tt s nm').
  { intros q Hq. exists (match cs_rooms s !! m_namespace m with Some rs => elements rs | None => [] end), nm. split; [|exact Hq].
    intros rs ->. reflexivity. }
  destruct (is_empty (m_wait m)); cbn [orb negb andb]; [apply Hdummy, runs_ret, H|].
  destruct (m_isNoOp m); cbn [orb negb andb]; [apply Hdummy, runs_ret, H|]. clear Hdummy.
  unfold on_disconnect.
  assert (Hns : runs t (Namespace c (m_namespace m)) w (nm !! m_namespace m) s nm).
  { exists w. rewrite <- (a_nm _ _ _ H). split; [apply Namespace_exec, H|].
    split; [rewrite (a_nm _ _ _ H); exact H|apply only_refl]. }
  destruct (nm !! m_namespace m) as [n|] eqn:E0; cbn [fmap option_fmap option_map].
  2:{ exists [], nm. rewrite (at_rooms _ _ _ _ H), E0. split; [discriminate|].
      eapply runs_bind; [exact Hns|]. intros w1 H1 O1.
      eapply runs_bind; [apply writeEmptyReply_runs, H1|]. intros w2 H2 O2. apply runs_ret, H2. }
  destruct (at_ns _ _ _ _ _ H E0) as (Hc & Hname & _ & _ & _ & Hrooms).
  rewrite Hrooms.
  assert (Hcl : r_client (role_of G c w) = IsClient G c) by reflexivity. rewrite Hcl.
  destruct Hns as (w1 & E1 & H1 & O1).
  destruct (IsClient G c) eqn:Hclient.
  - destruct (forceLeaveAll_runs t w1 s nm n false H1) as (order & rs & Hrs & Hperm & w2 & E2 & H2 & O2); [rewrite Hname; exact E0|].
    exists order, (delete (m_namespace m) nm). split.
    { intros rs' [= <-]. rewrite Hname, Hrooms in Hrs. injection Hrs as <-. exact Hperm. }
    rewrite Hname in H2.
    assert (O12 : only c w w2) by (eapply only_trans; eassumption).
    eapply runs_exec; [|exact O12|].
    { rewrite (exec_bind_done _ _ _ _ _ _ E1). cbv match. rewrite (exec_bind_done _ _ _ _ _ _ E2). reflexivity. }
    pose proof (at_delns _ _ _ (m_namespace m) H2) as H3. pose proof (only_delns w2 (m_namespace m)) as O3.
    eapply runs_exec; [apply delNs_exec, H2|exact O3|].
    eapply runs_bind; [apply writeEmptyReply_runs, H3|]. intros w4 H4 O4.
    eapply runs_bind; [apply fireEvent_runs; [exact H4|exact Hc]|]. rewrite Hname. intros w5 H5 O5. apply runs_ret, H5.
  - pose proof (at_fire n m _ _ _ H1 Hc) as H2. pose proof (only_fire n m w1 Hc) as O2. rewrite Hname in H2.
    assert (O12 : only c w (fire_world n m w1)) by (eapply only_trans; eassumption).
    destruct (answer A (m_namespace m) m) as [e|] eqn:Ea.
    + exists (elements (o_rooms (ns_of w n))), nm. split; [intros rs [= <-]; reflexivity|].
      eapply runs_exec; [|exact O12|].
      { rewrite (exec_bind_done _ _ _ _ _ _ E1). cbv match.
        rewrite (exec_bind_done _ _ _ _ _ _ (fireEvent_exec t n m w1 Hc)). rewrite Hname, Ea. reflexivity. }
      rewrite <- (role_only _ _ O12). apply Write_err_runs; [exact H2|eapply answer_text; exact Ea].
    + destruct (forceLeaveAll_runs t _ _ nm n false H2) as (order & rs & Hrs & Hperm & w3 & E3 & H3 & O3); [rewrite Hname; exact E0|].
      exists order, (delete (m_namespace m) nm). split.
      { intros rs' [= <-]. assert (Hf : cs_rooms (fire A (m_namespace m) m s) = cs_rooms s).
        { unfold fire. destruct (callback _ _ _) as [[? ?]|]; reflexivity. }
        rewrite Hf, Hname, Hrooms in Hrs. injection Hrs as <-. exact Hperm. }
      rewrite Hname in H3.
      assert (O13 : only c w w3) by (eapply only_trans; eassumption).
      eapply runs_exec; [|exact O13|].
      { rewrite (exec_bind_done _ _ _ _ _ _ E1). cbv match.
        rewrite (exec_bind_done _ _ _ _ _ _ (fireEvent_exec t n m w1 Hc)). rewrite Hname, Ea.
        rewrite (exec_bind_done _ _ _ _ _ _ E3). reflexivity. }
      pose proof (at_delns _ _ _ (m_namespace m) H3) as H4. pose proof (only_delns w3 (m_namespace m)) as O4.
      eapply runs_exec; [apply delNs_exec, H3|exact O4|].
      eapply runs_bind.
      { unfold notifyNamespaceDisconnect. apply (exch_runs t _ _ _ false (m_namespace m) H4). }
      rewrite (role_only _ _ O4), (role_only _ _ O13).
      intros w5 H5 O5. eapply runs_bind; [apply writeEmptyReply_runs, H5|]. intros w6 H6 O6. apply runs_ret, H6.
Qed.

Lemma replyRoomJoin_runs t w s nm n m : at_ w s nm -> nm !! m_namespace m = Some n ->
  runs t (replyRoomJoin G n m) w tt (if is_request m then on_join (role_of G c w) A m s else s) nm.
Proof.
  intros H E. unfold replyRoomJoin, is_request. destruct (is_empty (m_wait m)); cbn [orb negb andb]; [apply runs_ret, H|].
  destruct (m_isNoOp m); cbn [orb negb andb]; [apply runs_ret, H|].
  destruct (at_ns _ _ _ _ _ H E) as (Hc & Hname & Hn & Href & Hmu & Hrooms).
  unfold on_join. rewrite Hrooms, Hc.
  eapply runs_exec; [apply hasRoom_exec; assumption|apply only_refl|].
  destruct (bool_decide (m_room m ∈ o_rooms (ns_of w n))); [|].
  - eapply runs_bind; [apply writeEmptyReply_runs, H|]. intros w1 H1 O1. apply runs_ret, H1.
  - eapply runs_bind; [apply fireEvent_runs; eassumption|]. rewrite Hname. intros w1 H1 O1.
    destruct (answer A (m_namespace m) m) as [e|] eqn:Ea.
    + rewrite <- (role_only _ _ O1). apply Write_err_runs; [exact H1|eapply answer_text; exact Ea].
    + assert (E' : nm !! n_name n = Some n) by (rewrite Hname; exact E).
      destruct (at_ns _ _ _ _ _ H1 E) as (_ & _ & _ & _ & Hmu1 & _).
      pose proof (at_rooms_world _ _ _ n (fun s => {[m_room m]} ∪ s) H1 E') as H2.
      pose proof (only_rooms _ n (fun s => {[m_room m]} ∪ s) _ _ H1 E') as O2. rewrite Hname in H2.
      eapply runs_exec; [apply addRoom_exec, Hmu1|exact O2|].
      eapply runs_bind; [apply fireEvent_runs; eassumption|]. rewrite Hname. intros w3 H3 O3.
      eapply runs_bind; [apply writeEmptyReply_runs, H3|]. intros w4 H4 O4. apply runs_ret, H4.
Qed.

Lemma replyRoomLeave_runs t w s nm n m : at_ w s nm -> nm !! m_namespace m = Some n ->
  runs t (replyRoomLeave G n m) w tt (if is_request m then on_leave (role_of G c w) A m s else s) nm.
Proof.
  intros H E. unfold replyRoomLeave, is_request. destruct (is_empty (m_wait m)); cbn [orb negb andb]; [apply runs_ret, H|].
  destruct (m_isNoOp m); cbn [orb negb andb]; [apply runs_ret, H|].
  destruct (at_ns _ _ _ _ _ H E) as (Hc & Hname & Hn & Href & Hmu & Hrooms).
  unfold on_leave. rewrite Hrooms, Hc.
  assert (HR : runs t (Room n (m_room m)) w (if bool_decide (m_room m ∈ o_rooms (ns_of w n)) then Some (n, m_room m) else None) s nm).
  { unfold Room. eapply runs_exec; [apply hasRoom_exec; assumption|apply only_refl|]. apply runs_ret, H. }
  assert (E' : nm !! n_name n = Some n) by (rewrite Hname; exact E).
  destruct (bool_decide (m_room m ∈ o_rooms (ns_of w n))); cbn [negb].
  2:{ eapply runs_bind; [exact HR|]. intros w1 H1 O1. eapply runs_bind; [apply writeEmptyReply_runs, H1|]. intros w2 H2 O2. apply runs_ret, H2. }
  assert (Hcl : r_client (role_of G c w) = IsClient G c) by reflexivity. rewrite Hcl.
  eapply runs_bind; [exact HR|]. intros w1 H1 O1. cbv match.
  destruct (IsClient G c) eqn:Hclient.
  - eapply runs_bind; [apply fireEvent_runs; eassumption|]. rewrite Hname. intros w2 H2 O2.
    destruct (at_ns _ _ _ _ _ H2 E) as (_ & _ & _ & _ & Hmu2 & _).
    pose proof (at_rooms_world _ _ _ n (fun s => s ∖ {[m_room m]}) H2 E') as H3.
    pose proof (only_rooms _ n (fun s => s ∖ {[m_room m]}) _ _ H2 E') as O3. rewrite Hname in H3.
    eapply runs_exec; [apply delRoom_exec, Hmu2|exact O3|].
    eapply runs_bind; [apply writeEmptyReply_runs, H3|]. intros w4 H4 O4.
    eapply runs_bind; [apply fireEvent_runs; eassumption|]. rewrite Hname. intros w5 H5 O5. apply runs_ret, H5.
  - eapply runs_bind; [apply fireEvent_runs; eassumption|]. rewrite Hname. intros w2 H2 O2.
    destruct (answer A (m_namespace m) m) as [e|] eqn:Ea.
    + rewrite <- (role_only _ _ O1), <- (role_only _ _ O2). apply Write_err_runs; [exact H2|eapply answer_text; exact Ea].
    + destruct (at_ns _ _ _ _ _ H2 E) as (_ & _ & _ & _ & Hmu2 & _).
      pose proof (at_rooms_world _ _ _ n (fun s => s ∖ {[m_room m]}) H2 E') as H3.
      pose proof (only_rooms _ n (fun s => s ∖ {[m_room m]}) _ _ H2 E') as O3. rewrite Hname in H3.
      eapply runs_exec; [apply delRoom_exec, Hmu2|exact O3|].
      eapply runs_bind; [apply fireEvent_runs; eassumption|]. rewrite Hname. intros w4 H4 O4.
      eapply runs_bind; [apply writeEmptyReply_runs, H4|]. intros w5 H5 O5. apply runs_ret, H5.
Qed.

Lemma handle_event_runs t w s nm m : at_ w s nm -> idle w c -> m_isInvalid m = false ->
  exists order nm',
    (forall rs, cs_rooms s !! m_namespace m = Some rs -> Permutation order (elements rs)) /\
    runs t (handle_event G c m) w (snd (handle (role_of G c w) A order m s)) (fst (handle (role_of G c w) A order m s)) nm'.
Proof.
  intros H Hidle Hval. unfold handle_event, handle. rewrite Hval.
  assert (Hdummy : forall (q : prog (option gerr)) r s' nm', runs t q w r s' nm' -> exists order nm', (forall rs, cs_rooms s !! m_namespace m = Some rs -> Permutation order (elements rs)) /\
    runs t q w r s' nm').
  { intros q r s' nm' Hq. exists (match cs_rooms s !! m_namespace m with Some rs => elements rs | None => [] end), nm'. split; [|exact Hq].
    intros rs ->. reflexivity. }
  destruct (String.eqb (m_event m) OnNamespaceConnect) eqn:E1.
  { destruct (replyConnect_runs t w s nm m H) as [nm' HR]. eapply Hdummy. cbn [fst snd].
    eapply runs_bind; [exact HR|]. intros w1 H1 O1. apply runs_ret, H1. }
  destruct (String.eqb (m_event m) OnNamespaceDisconnect) eqn:E2.
  { destruct (replyDisconnect_runs t w s nm m H) as (order & nm' & Hp & HR). exists order, nm'. split; [exact Hp|]. cbn [fst snd].
    eapply runs_bind; [exact HR|]. intros w1 H1 O1. apply runs_ret, H1. }
  assert (Hcon : isConnect m = false) by exact E1.
  assert (Hdis : isDisconnect m = false) by exact E2.
  pose proof (tryNamespace_runs t w s nm m H Hidle Hcon Hdis) as HT.
  destruct (String.eqb (m_event m) OnRoomJoin) eqn:E3.
  { eapply Hdummy. cbn [fst snd]. eapply runs_bind; [exact HT|]. intros w1 H1 O1.
    destruct (nm !! m_namespace m) as [n|] eqn:En.
    - eapply runs_bind; [apply replyRoomJoin_runs; eassumption|]. rewrite (role_only _ _ O1). intros w2 H2 O2. apply runs_ret, H2.
    - eapply runs_s; [|apply runs_ret, H1]. unfold on_join. rewrite (at_rooms _ _ _ _ H1), En. destruct (is_request m); reflexivity. }
  destruct (String.eqb (m_event m) OnRoomLeave) eqn:E4.
  { eapply Hdummy. cbn [fst snd]. eapply runs_bind; [exact HT|]. intros w1 H1 O1.
    destruct (nm !! m_namespace m) as [n|] eqn:En.
    - eapply runs_bind; [apply replyRoomLeave_runs; eassumption|]. rewrite (role_only _ _ O1). intros w2 H2 O2. apply runs_ret, H2.
    - eapply runs_s; [|apply runs_ret, H1]. unfold on_leave. rewrite (at_rooms _ _ _ _ H1), En. destruct (is_request m); reflexivity. }
  eapply Hdummy. eapply runs_bind; [exact HT|]. intros w1 H1 O1.
  rewrite (at_rooms _ _ _ _ H). destruct (nm !! m_namespace m) as [n|] eqn:En; cbn [fmap option_fmap option_map]; cbv beta match; [|apply runs_ret, H1].
  destruct (at_ns _ _ _ _ _ H1 En) as (Hc & Hname & _).
  eapply runs_bind; [apply fireEvent_runs; eassumption|]. rewrite Hname. intros w2 H2 O2.
  destruct (answer A (m_namespace m) (set_isLocal false m)) as [e|] eqn:Ea; cbn [fst snd]; [|apply runs_ret, H2].
  rewrite <- (role_only _ _ O1), <- (role_only _ _ O2). apply Write_err_runs; [exact H2|eapply answer_text; exact Ea].
Qed.

End seq.
