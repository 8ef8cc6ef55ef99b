(** * Inert.v : goroutines that are blocked for ever.

    A discipline says which operations the other goroutines may do ([d_may]),
    what these return ([d_ret]) and what holds of the world ([d_inv]).  If the
    world keeps some goroutines blocked and all other code follows the
    discipline, these goroutines stay blocked in every continuation. *)
From Coq Require Import ZArith.
From stdpp Require Import gmap strings list relations.
From RecordUpdate Require Import RecordUpdate.
From Verif Require Import Go Errors Message World Lang Code Sem Logic Spec_App Frame.

Record disc : Type := Disc {
  d_may : op -> Prop;
  d_ret : forall o, res o -> Prop;
  d_start : tcode -> Prop;
  d_call : api -> Prop;
  d_inv : world -> Prop }.

Section inert.
Context (G : cfg) (D : disc).

Definition DS : lspec := {|
  ls_L := unit;
  ls_rule := fun _ o P => d_may D o /\ forall r, d_ret D o r -> P r tt;
  ls_cpre := fun _ a => d_call D a; ls_cpost := fun _ _ _ _ => True;
  ls_crash := fun _ => True; ls_start := fun c _ => d_start D c; ls_fin := fun _ => True |}.
Lemma ds_mono : rule_mono DS.
Proof. intros l o P P' H [H1 H2]. split; [exact H1|]. intros r Hr. apply H, H2, Hr. Qed.

(** The blocked goroutines. *)
Context (T : gmap tid (prog (option tcode))).
Record disciplined : Prop := {
  do_op : forall t w o, d_inv D w -> d_may D o -> T !! t = None ->
    match ostep t w o with Goes w' r => d_inv D w' /\ d_ret D o r | _ => True end;
  do_call : forall a, d_call D a -> ok (S := DS) tt (impl G a) (fun _ _ => True);
  do_code : forall c, d_start D c -> ok (S := DS) tt (code G c) after;
  do_spawn : forall w c rest, d_inv D w -> w_spawn w = c :: rest -> d_start D c /\ d_inv D (w <| w_spawn := rest |>);
  do_go : forall c, startable G c = true -> d_start D c;
  do_env : forall w e, d_inv D w -> d_inv D (env_step e w);
  do_stuck : forall t p w, T !! t = Some p -> d_inv D w -> tstep G t w p = TBlocked }.

Definition inert (s : sys) : Prop :=
  d_inv D (s_w s) /\
  (forall t : tid, s_next s <= t -> s_th s !! t = None) /\
  (forall (t : tid) p, T !! t = Some p -> s_th s !! t = Some p) /\
  forall (t : tid) p, s_th s !! t = Some p -> T !! t = None -> ok (S := DS) tt p after.

Context (H : disciplined).
Lemma inert_spawn c s : d_start D c -> inert s -> inert (spawn G c s).
Proof.
  intros Hc (Hi & Hn & Ht & Ho). split; [exact Hi|]. cbn. split; [|split].
  - intros t Hle. rewrite lookup_insert_ne by lia. apply Hn. lia.
  - intros t p Hp. rewrite lookup_insert_ne; [apply Ht, Hp|]. intros <-. specialize (Ht _ _ Hp). rewrite Hn in Ht by lia. discriminate.
  - intros t p Hp Hf. apply lookup_insert_Some in Hp as [[<- <-]|[_ Hp]]; [apply (do_code H), Hc|eapply Ho; eassumption].
Qed.
Lemma inert_step a s s' : inert s -> step G a s = Some s' -> inert s'.
Proof.
  intros (Hi & Hn & Ht & Ho). unfold step. destruct (s_crash s) eqn:Ec; [discriminate|]. destruct a as [t| |e].
  - destruct (s_th s !! t) as [p|] eqn:Ep; [|discriminate]. destruct (T !! t) as [q|] eqn:ET.
    { specialize (Ht _ _ ET). rewrite Ep in Ht. injection Ht as ->. rewrite (do_stuck H _ _ _ ET Hi). discriminate. }
    assert (Hnext : forall w' p', d_inv D w' -> ok (S := DS) tt p' after -> inert (Sys w' (<[t := p']> (s_th s)) (s_next s) None)).
    { intros w' p' Hi' Hp'. split; [exact Hi'|]. cbn. split; [|split].
      - intros t' Hle. rewrite lookup_insert_ne; [apply Hn, Hle|]. intros <-. rewrite Hn in Ep by exact Hle. discriminate.
      - intros t' q Hq. rewrite lookup_insert_ne; [apply Ht, Hq|]. intros <-. congruence.
      - intros t' q Hq Hf. apply lookup_insert_Some in Hq as [[<- <-]|[_ Hq]]; [exact Hp'|]. exact (Ho _ _ Hq Hf). }
    pose proof (Ho _ _ Ep ET) as Hp. destruct p as [r|o k|b k|why]; cbn [tstep].
    + cbn [ok] in Hp. destruct r as [c|]; intros [= <-].
      * apply Hnext; [exact Hi|apply (do_code H), Hp].
      * split; [exact Hi|]. cbn. split; [|split].
        -- intros t' Hle. apply lookup_delete_None. right. apply Hn, Hle.
        -- intros t' q Hq. rewrite lookup_delete_ne; [apply Ht, Hq|]. intros <-. congruence.
        -- intros t' q Hq Hf. apply lookup_delete_Some in Hq as [_ Hq]. exact (Ho _ _ Hq Hf).
    + cbn [ok] in Hp. destruct Hp as [Hm Hk]. pose proof (do_op H t _ _ Hi Hm ET) as Hop.
      destruct (ostep t (s_w s) o) as [w' r| |why]; [|discriminate|]; intros [= <-].
      * destruct Hop as [Hi' Hr]. apply Hnext; [exact Hi'|exact (Hk r Hr)].
      * split; [exact Hi|]. cbn. auto.
    + cbn [ok] in Hp. destruct Hp as [Hc Hk]. destruct (valid_api (s_w s) b); [|discriminate]. intros [= <-].
      apply Hnext; [exact Hi|]. eapply (ok_seq DS ds_mono); [apply (do_call H), Hc|]. intros r l' _. destruct l'. apply Hk. exact I.
    + intros [= <-]. split; [exact Hi|]. cbn. auto.
  - destruct (w_spawn (s_w s)) as [|c rest] eqn:Esp; [discriminate|]. intros [= <-]. destruct (do_spawn H _ _ _ Hi Esp) as [Hc Hi'].
    apply inert_spawn; [exact Hc|]. split; [exact Hi'|]. cbn. auto.
  - assert (Henv : forall s'', Some (Sys (env_step e (s_w s)) (s_th s) (s_next s) None) = Some s'' -> inert s'').
    { intros s'' [= <-]. split; [apply (do_env H), Hi|]. cbn. auto. }
    destruct e; try (destruct (env_ok _); [apply Henv|discriminate]).
    destruct (startable G code) eqn:Est; [|discriminate]. intros [= <-]. apply inert_spawn; [apply (do_go H), Est|]. split; [exact Hi|]. auto.
Qed.
Lemma inert_steps s s' : inert s -> steps G s s' -> inert s'.
Proof. intros Hi Hs. induction Hs as [|s1 s2 s3 [a Ha] _ IH]; [exact Hi|]. apply IH. eapply inert_step; eassumption. Qed.
End inert.

(** ** The library follows a discipline if the special functions do *)
Definition gate_op (o : op) : bool :=
  match o with OWReady _ | OWErr _ | OWSetErr _ _ | OWSetReady _ | OWCasLock _ | OWCasUnlock _ | OWClose _ | OWRecv _ => true | _ => false end.
Definition proc_op (o : op) : bool :=
  match o with OProcGet _ _ | OProcNew _ _ | OProcAdd _ | OProcDoneCas _ | OProcDone _ | OProcIsDone _ | OProcWait _ | OProcWoken _ _ => true | _ => false end.
Definition chan_op (o : op) : bool :=
  match o with
  | ONewChan _ | OWaitPut _ _ _ | OSWaitPut _ _ | OWaitGet _ _ | OSWaitGet _ | OChSend _ _ | OChSent _ _ | OSelect _ _
  | OSpawn (TReadNext _ _) => true
  | _ => false
  end.
(** Everything else. *)
Definition free_op (o : op) : bool := negb (gate_op o || proc_op o || chan_op o).

#[local] Arguments send : simpl never.
#[local] Arguments handle_event : simpl never.
#[local] Arguments handle_reply_or_event : simpl never.
Section follow.
Context (G : cfg) (D : disc) (rdc : cid -> Prop).
Notation SD := (DS D).
Notation RD := (fun _ _ : unit => True).
Notation any := (fun (_ : unit) _ => True).
Notation kp := (@kp SD RD _).
Notation kpp := (@kpp SD RD _).
Notation kq := (@kq SD RD _).
Context (Hfree0 : forall o, free_op o = true -> (forall n e m, o = OLog (LFire n e m) -> dispatched G n e m) -> d_may D o).
Context (Hread : forall c r, d_ret D (ORead c) r -> rdc c).
Context (A : user_app (d_call D) G).

Definition fires (o : op) : bool := match o with OLog (LFire _ _ _) => true | _ => false end.
Lemma Hfree o : free_op o && negb (fires o) = true -> d_may D o.
Proof using Hfree0. intros H. apply andb_true_iff in H as [H1 H2]. apply Hfree0; [exact H1|]. intros n e m ->. discriminate. Qed.
Lemma ds_rules : @rules G SD (d_call D) RD any any (fun _ c => rdc c) (fun _ c => rdc c) any (fun _ _ => True) any any any (fun _ _ => True) (fun _ _ _ _ => True) (fun _ _ => True).
Proof using Hfree0 Hread A.
  constructor; unfold stable; auto; try (intros; exact I); try (cbn; intros; split; [apply Hfree; reflexivity|]; intros; eauto; fail).
  - apply ds_mono.
  - intros o l P Hp H. split; [|intros r _; apply H; exact I]. apply Hfree.
    unfold free_op. destruct o; try reflexivity; try discriminate Hp; match goal with x : tcode |- _ => destruct x | x : event |- _ => destruct x end; try reflexivity; discriminate Hp.
  - cbn. intros c s l P H. split; [apply Hfree; reflexivity|]. intros r _. apply H; [exact I|destruct r; repeat split].
  - intros o n l P Ho _ H. destruct o; try discriminate Ho; (split; [apply Hfree; reflexivity|]; intros; apply H; exact I).
  - intros n e m l P Hd _ _ _ H. split; [apply Hfree0; [reflexivity|intros n' e' m' E; injection E as <- <- <-; exact Hd]|]. intros r _. apply H; exact I.
Qed.
Let U := ds_rules.
Lemma ds_opr o : d_may D o -> kp (opr o).
Proof. intros H l. cbn. split; [exact H|]. intros; exact I. Qed.
Ltac kf := repeat first
  [ apply (kp_ret U) | apply (kp_crash U) | match goal with |- @Frame.kp _ _ _ (opr ?o) => apply (ds_opr o) end; first [apply Hfree; reflexivity|match goal with Hg : forall o, _ = true -> d_may D o |- _ => apply Hg; reflexivity end] | assumption
  | match goal with H : forall _, _ |- _ => apply H; fail end
  | apply (kp_for_all U); intros | apply (kp_bind U); [|intros]
  | match goal with |- @Frame.kp _ _ _ ?p => match p with context [match ?x with _ => _ end] => destruct x eqn:? end end ].

Lemma ds_gate_w : (forall o, gate_op o = true -> d_may D o) -> forall c, kp (wait c).
Proof. intros Hg c. unfold wait. kf. Qed.
Lemma ds_gate_u : (forall o, gate_op o = true -> d_may D o) -> forall c e, kp (unwait c e).
Proof. intros Hg c e. unfold unwait. kf. Qed.
Lemma ds_proc_get : (forall o, proc_op o = true -> d_may D o) -> forall c s, kp (proc_get c s).
Proof. intros Hg c s. unfold proc_get. kf. Qed.
Lemma ds_proc_Done : (forall o, proc_op o = true -> d_may D o) -> forall p, kpp (fun _ => True) (proc_Done p).
Proof. intros Hg p. apply (kpp_kp U). unfold proc_Done. kf. Qed.
Lemma ds_proc_Wait : (forall o, proc_op o = true -> d_may D o) -> forall p, kp (proc_Wait p).
Proof. intros Hg p. unfold proc_Wait. kf. Qed.
Lemma ds_proc_Start : (forall o, proc_op o = true -> d_may D o) -> forall p, kq (fun _ => True) (proc_Start p) (fun _ _ => True).
Proof. intros Hg p. apply (kq_any U); [auto|]. unfold proc_Start. kf. Qed.

Context (V : @gates G SD RD any (fun _ => True)).
Definition send_ok : Prop := forall ch m, kp (send ch m).
Lemma ds_ask : (forall o, chan_op o = true -> d_may D o) -> forall c x m nx, kp (ask G c x m nx).
Proof using All. intros Hg c x m nx. pose proof (Write_kp U V) as HW. unfold ask. kf. Qed.
Lemma ds_send : (forall o, chan_op o = true -> d_may D o) -> forall ch m, kp (send ch m).
Proof using All. intros Hg ch m. unfold send. kf. Qed.
Lemma ds_srvask : (forall o, chan_op o = true -> d_may D o) -> forall x m, (forall e msgs, kp (Broadcast G e msgs)) -> kp (ServerAsk G x m).
Proof using All. intros Hg x m HB. unfold ServerAsk. kf. Qed.

Context (Hready : forall c, kp (opr (OWReady c))) (Herr : forall c, kp (opr (OWErr c))).
Context (Hgo : forall c, startable G c = true -> d_start D c).
Context (Hask : forall c x m nx, kp (ask G c x m nx)).
Context (Hsrvask : forall x m, (forall e msgs, kp (Broadcast G e msgs)) -> kp (ServerAsk G x m)).
Context (Hwget : forall c tok, rdc c -> d_may D (OWaitGet c tok)) (Hswget : forall tok, d_may D (OSWaitGet tok)).
Context (Hsend1 : forall c tok ch m, rdc c -> d_ret D (OWaitGet c tok) (Some ch) -> kp (send ch m)).
Context (Hsend2 : forall tok ch m, d_ret D (OSWaitGet tok) (Some ch) -> kp (send ch m)).
Context (Hnext : forall c ch m, d_start D (TReadNext c ch) -> kp (send ch m)).
Context (Hst1 : forall c, d_start D (TReader c) -> d_start D (TReaderLoop c)) (Hst2 : d_start D TServerLoop).
Context (Hcalls : forall c x ns t, d_call D (AConnectLoop c x ns t)) (Hcalls2 : forall c x ns cur, d_call D (AWaitConnect c x ns cur)).
Context (Hpay : forall c typ b, d_call D (AHandlePayload c typ b) -> rdc c).

Lemma ok_any {X} (p : prog X) : kp p -> ok (S := SD) tt p (fun _ _ => True).
Proof. intros H. apply H. Qed.
Lemma ds_reply c m : kpp (fun _ => rdc c) (handle_event G c m) -> kpp (fun _ => rdc c) (handle_reply_or_event G c m).
Proof using All.
  intros He l Hl. unfold handle_reply_or_event. cbn. split; [apply Hwget, Hl|]. intros [ch|] Hr.
  - apply (ok_seq SD (ds_mono D) tt _ _ (fun _ _ => True)); [apply (Hsend1 c (m_wait m) ch m Hl Hr)|]. intros; exact I.
  - apply (He tt Hl).
Qed.
Lemma ds_message c m : (forall m', kpp (fun _ => rdc c) (handle_event G c m')) -> kpp (fun _ => rdc c) (handle_reply_or_event G c m) ->
  (forall (n : nsref) m', True -> kpp (fun _ => True /\ True /\ rdc c) (fireEvent G n m')) -> kpp (fun _ => rdc c) (handleMessage G c m).
Proof using All.
  intros He Hr Hf l Hl. destruct l. unfold handleMessage. destruct (m_isInvalid m); [exact I|].
  assert (Hs : ok (S := SD) tt (bind (opr (OSWaitGet (m_wait m))) (fun w => match w with Some ch => bind (send ch m) (fun _ => Ret None) | None => handle_reply_or_event G c m end)) (fun _ _ => True)).
  { cbn. split; [apply Hswget|]. intros [ch|] Hr'.
    - apply (ok_seq SD (ds_mono D) tt _ _ (fun _ _ => True)); [apply (Hsend2 (m_wait m) ch m Hr')|]. intros; exact I.
    - apply (Hr tt Hl). }
  destruct (m_isNative m && onlyNative G c).
  - apply (ok_seq SD (ds_mono D) tt _ _ (fun _ _ => True)); [apply (Namespace_kp U V)|]. intros [n|] []; intros; [apply Hf; [exact I|repeat split; exact Hl]|exact I].
  - destruct (IsWait (IsClient G c) m); [|apply He, Hl]. destruct (IsClient G c); [apply Hr, Hl|].
    destruct (g_exch G) as [ex|]; [|exact Hs]. destruct (m_fromStackExchange m); [|exact Hs].
    cbn. split; [apply Hfree; reflexivity|]. intros; exact I.
Qed.
Lemma kpp_of {X} P (p : prog X) : kp p -> kpp P p.
Proof. intros H l _. apply H. Qed.
Lemma ds_ack c typ b : kpp (fun _ => rdc c) (handleQueue G c) -> (forall s bin, kp (write G c s bin)) -> kp (wait c) -> (forall e, kp (unwait c e)) ->
  kpp (fun _ => rdc c) (handleACK G c typ b).
Proof using All.
  intros H1 H2 H3 H4 l Hl. assert (Hq : kp (handleQueue G c)) by (intros l'; apply H1, Hl). assert (X : kp (handleACK G c typ b)) by (unfold handleACK; kf). apply X.
Qed.
Lemma ds_waitm c l : d_start D (TWaitMessages c) -> (forall msgs, kp (publishMessages G c msgs)) -> ok (S := SD) l (waitMessages G c) (fun r _ => if r : bool then d_start D (TWaitMessages c) else True).
Proof using All.
  intros Hs H. apply (ok_mono SD (ds_mono D) l (waitMessages G c) (fun _ _ => True)); [intros [|] ? _; [exact Hs|exact I]|]. revert l. change (kp (waitMessages G c)). unfold waitMessages, publish. kf. Qed.
Lemma ds_broadcast msgs : kp (broadcast msgs).
Proof using All. unfold broadcast. kf. Qed.
Lemma ds_server l : d_start D TServerLoop -> (forall c msgs, kp (publishMessages G c msgs)) -> (forall c, exists f, Close G c = bind (opr (OCasClosed c)) f /\ forall r : bool, @Frame.kpp SD RD _ (fun _ => r = true -> True) (f r)) -> (forall k c, kp (g_do G k c)) ->
  (forall x, kp (exch_call G x)) -> (forall f c, g_ondisconnect G = Some f -> kp (f c)) -> ok (S := SD) l (server_step G) (fun _ _ => d_start D TServerLoop).
Proof using All.
  intros _ H1 H2 H2' H3 H4. apply (ok_mono SD (ds_mono D) l (server_step G) (fun _ _ => True)); [intros; exact Hst2|]. revert l. change (kp (server_step G)).
  assert (HC : forall c, kp (Close G c)) by (intros c; destruct (H2 c) as (f & -> & Hf); assert (Hf' : forall r, kp (f r)) by (intros r l; apply (Hf r); auto); kf).
  unfold server_step, publish, act_call. apply (kp_bind U); [kf|]. intros x. apply (kp_bind U); [kf|]. intros _.
  destruct x; [kf| |kf|kf]. destruct (g_ondisconnect G) as [f|] eqn:E; [|kf]. pose proof (fun c => H4 f c eq_refl) as H5. kf.
Qed.
Lemma ds_upgrade c : (forall e, kp (unwait c e)) -> (forall f, g_onconnect G = Some f -> kp (f c)) -> kp (Upgrade G c).
Proof using All.
  intros H1 H2. unfold Upgrade, newConn. destruct (g_onconnect G) as [f|] eqn:E; [pose proof (H2 f eq_refl)|]; kf.
Qed.
Lemma ds_dial c : kp (sendClientACK G c) -> kp (Dial G c).
Proof using All. intros H. unfold Dial, newConn. kf. Qed.
Lemma ds_impl a : d_call D a -> ok (S := SD) tt (impl G a) (fun _ _ => True).
Proof using All.
  intros Ha. refine (impl_kp U V Hask Hcalls Hcalls2 ds_reply ds_message (fun c0 typ b q w _ => ds_ack c0 typ b q w) (fun _ _ _ => Logic.I) ds_waitm ds_broadcast Hsrvask a tt _).
  destruct a; cbn; auto; try (destruct n; exact I). eapply Hpay, Ha.
Qed.
Lemma ds_code c : d_start D c -> ok (S := SD) tt (code G c) after.
Proof using All.
  intros Hc. refine (code_kp U V Hask Hcalls Hcalls2 ds_reply ds_message (fun c0 typ b q w _ => ds_ack c0 typ b q w) (fun _ _ _ => Logic.I) ds_waitm ds_broadcast Hsrvask ds_server _ _ _ _ _ _ _ _ c tt Hc).
  - intros l1 _. apply (ok_mono SD (ds_mono D) l1 (opr OSClosedReset) (fun _ _ => True)); [intros; exact Hst2|]. apply (ds_opr OSClosedReset), Hfree. reflexivity.
  - intros c0 [] _ Hu Hf. apply ds_upgrade; auto.
  - intros c0 [] _ Hs. apply ds_dial; auto.
  - intros c0 ch [] Hs. unfold read_next. cbn. split; [apply Hfree; reflexivity|]. intros [e|[typ b]] _; apply (Hnext c0 ch _ Hs).
  - intros; exact I.
  - intros c0 l1 l2 Hs Ht. apply Hst1, Hs.
  - intros; exact I.
  - intros c0 l1 l2 Hs Ht. exact Hs.
Qed.
End follow.
