(** * Shelf.v : the store of a connection holds only what the application has
    put there, in every interleaving (C40). *)
From Coq Require Import ZArith.
From stdpp Require Import gmap strings list relations.
From RecordUpdate Require Import RecordUpdate.
From Verif Require Import Go Errors Message World Lang Code Sem Logic Spec_App Frame.

(** [v] may be under [k] in the store of [c]: the application may call Set with
    it, or it is an int and the application may count under that key. *)
Definition may_put (allowed : api -> Prop) (c : cid) (k : string) (v : sval) : Prop :=
  allowed (ASet c k v) \/ (exists z, v = SInt z /\ (allowed (AIncrement c k) \/ allowed (ADecrement c k))).

Section shelf.
Context (G : cfg) (allowed : api -> Prop).
Definition hrule (l : unit) (o : op) : (res o -> unit -> Prop) -> Prop :=
  match o as o return (res o -> unit -> Prop) -> Prop with
  | OStoreSet c k v => fun P => may_put allowed c k v /\ P tt l
  | _ => fun P => forall r, P r l
  end.
Definition HS : lspec := {|
  ls_L := unit; ls_rule := hrule; ls_cpre := fun _ a => allowed a; ls_cpost := fun _ _ _ _ => True;
  ls_crash := fun _ => True; ls_start := fun _ _ => True; ls_fin := fun _ => True |}.
Lemma hmono : rule_mono HS.
Proof. intros l o P P' H. destruct o; cbn; auto. intros [? ?]; auto. Qed.
Context (A : user_app allowed G).
Context (Hcalls : forall c x ns t, allowed (AConnectLoop c x ns t)) (Hcalls2 : forall c x ns cur, allowed (AWaitConnect c x ns cur)).
Notation any := (fun _ _ => True).
Notation RH := (fun _ _ : unit => True).
Lemma hrules : @rules G HS allowed RH any any any any any any any any any any (fun _ _ _ _ => True) (fun _ _ => True).
Proof.
  constructor; cbn; unfold stable; auto using hmono; try (intros; eauto; fail).
  - intros o l P Hp H. destruct o; cbn in *; try discriminate; auto.
  - intros c s l P H r. apply H; [auto|destruct r; repeat split].
  - intros o n l P Ho _ H. destruct o; try discriminate Ho; cbn; auto.
Qed.
Notation kp := (@kp HS RH _).
Definition hneutral (o : op) : bool := match o with OStoreSet _ _ _ => false | _ => true end.
Lemma h_free o : hneutral o = true -> kp (opr o).
Proof. intros H l. destruct o; try discriminate; cbn; auto. Qed.
Ltac kf := repeat first
  [ apply (kp_ret hrules) | apply (kp_crash hrules) | match goal with |- @Frame.kp _ _ _ (opr ?o) => exact (h_free o eq_refl) end | assumption
  | match goal with H : forall _, _ |- _ => apply H; fail end
  | apply (kp_for_all hrules); intros | apply (kp_bind hrules); [|intros]
  | match goal with |- @Frame.kp _ _ _ ?p => match p with context [match ?x with _ => _ end] => destruct x eqn:? end end ].
Lemma h_gates : @gates G HS RH (fun _ _ => True) (fun _ => True).
Proof.
  constructor; intros.
  - unfold wait. kf.
  - unfold unwait. kf.
  - unfold proc_get. kf.
  - apply (kpp_kp hrules). unfold proc_Done. kf.
  - unfold proc_Wait. kf.
  - apply (kq_any hrules); [auto|]. unfold proc_Start. kf.
Qed.
Lemma h_ask c x m nx : kp (ask G c x m nx).
Proof. pose proof (Write_kp hrules h_gates) as HW. unfold ask. kf. Qed.
Lemma h_send ch m : kp (send ch m).
Proof. unfold send. kf. Qed.
Notation kpp := (@kpp HS RH _ (fun _ => True)).
Lemma kpp_kp1 {X} (p : prog X) : kpp p <-> kp p.
Proof. split; [intros H l; apply H; exact Logic.I|intros H l _; apply H]. Qed.
Lemma h_reply c m : kpp (handle_event G c m) -> kpp (handle_reply_or_event G c m).
Proof. rewrite !kpp_kp1. intros H. pose proof h_send as HS. unfold handle_reply_or_event. kf. Qed.
Lemma h_message c m : (forall m', kpp (handle_event G c m')) -> kpp (handle_reply_or_event G c m) ->
  (forall (n : nsref) m', True -> @Frame.kpp HS RH _ (fun _ => True /\ True /\ True) (fireEvent G n m')) -> kpp (handleMessage G c m).
Proof.
  rewrite !kpp_kp1. intros He Hr Hf. assert (He' : forall m', kp (handle_event G c m')) by (intros; apply kpp_kp1, He).
  assert (Hf' : forall n m', kp (fireEvent G n m')) by (intros n m' l; apply Hf; auto). clear He Hf.
  pose proof h_send as HS. pose proof (Namespace_kp hrules h_gates) as HN. unfold handleMessage. kf.
Qed.
Lemma h_ack c typ b : kpp (handleQueue G c) -> (forall s bin, kp (write G c s bin)) -> kp (wait c) -> (forall e, kp (unwait c e)) ->
  kpp (handleACK G c typ b).
Proof. rewrite !kpp_kp1. intros H1 H2 H3 H4. unfold handleACK. kf. Qed.
Lemma h_any {X} (p : prog X) l (Q : X -> unit -> Prop) : kp p -> (forall r l', Q r l') -> ok (S := HS) l p Q.
Proof. intros H HQ. eapply (ok_mono HS hmono); [|apply H]. intros r l' _. auto. Qed.
Lemma h_waitm c l : True -> (forall msgs, kp (publishMessages G c msgs)) -> ok (S := HS) l (waitMessages G c) (fun r l' => if r : bool then True else True).
Proof. intros _ H. apply h_any; [unfold waitMessages, publish; kf|]. intros [|]; auto. Qed.
Lemma h_broadcast msgs : kp (broadcast msgs).
Proof. unfold broadcast. kf. Qed.
Lemma h_srvask x m : (forall e msgs, kp (Broadcast G e msgs)) -> kp (ServerAsk G x m).
Proof. intros HB. unfold ServerAsk. kf. Qed.
Lemma h_newconn c : kp (newConn G c).
Proof. unfold newConn. kf. Qed.
Lemma h_upgrade c l : (forall e, kp (unwait c e)) -> (forall f, g_onconnect G = Some f -> kp (f c)) -> ok (S := HS) l (Upgrade G c) (fun _ l' => True).
Proof.
  intros H1 H2. revert l. refine (_ : kp (Upgrade G c)). pose proof (h_newconn c). unfold Upgrade. destruct (g_onconnect G) as [f|] eqn:E; [pose proof (H2 f eq_refl)|]; kf.
Qed.
Lemma h_dial c l : kp (sendClientACK G c) -> ok (S := HS) l (Dial G c) (fun _ l' => True).
Proof. intros H1. revert l. refine (_ : kp (Dial G c)). pose proof (h_newconn c). unfold Dial. kf. Qed.
Lemma h_next c ch : kp (read_next G c ch).
Proof. pose proof h_send. unfold read_next. kf. Qed.
Lemma h_server l : True -> (forall c msgs, kp (publishMessages G c msgs)) ->
  (forall c, exists f, Close G c = bind (opr (OCasClosed c)) f /\ forall r : bool, @Frame.kpp HS RH _ (fun _ => r = true -> True) (f r)) -> (forall k c, kp (g_do G k c)) ->
  (forall x, kp (exch_call G x)) -> (forall f c, g_ondisconnect G = Some f -> kp (f c)) -> ok (S := HS) l (server_step G) (fun _ l' => True).
Proof.
  intros _ HP _ HD HX HO. pose proof (Close_kp hrules h_gates) as HC. apply h_any; [|auto]. unfold server_step, publish, act_call.
  destruct (g_ondisconnect G) as [f|] eqn:E; [pose proof (fun c => HO f c eq_refl) as H5|]; kf.
Qed.
Lemma shelf_code x l : ls_start HS x l -> ok (S := HS) l (code G x) after.
Proof.
  apply (code_kp hrules h_gates); auto using h_ask, h_reply, h_message, h_ack, h_waitm, h_broadcast, h_srvask, h_server; try (intros; exact Logic.I).
  - cbn. auto.
  - intros c' l0 Hc Hu Hf. apply h_upgrade; auto.
  - intros c' l0 Hc Hd. apply h_dial; auto.
  - intros c' ch l0 _. apply h_next.
Qed.

Definition HInv (w : world) (Ls : gmap tid unit) : Prop := forall c k v, c_store (conn_of w c) !! k = Some v -> may_put allowed c k v.
Lemma store_upd c0 f w1 w c k v : (forall x, c_store (f x) = c_store x) -> w_conns w1 = w_conns w -> c_store (conn_of (upd_conn c0 f w1) c) !! k = Some v -> c_store (conn_of w c) !! k = Some v.
Proof.
  intros H E. unfold conn_of, upd_conn. cbn. rewrite E. destruct (decide (c0 = c)) as [->|Hne]; [rewrite lookup_insert; cbn; rewrite H; unfold conn_of; rewrite E; auto|rewrite lookup_insert_ne by exact Hne; auto].
Qed.
Lemma store_op t w o w' r c k v : hneutral o = true -> ostep t w o = Goes w' r -> c_store (conn_of w' c) !! k = Some v -> c_store (conn_of w c) !! k = Some v.
Proof.
  intros Hn H. destruct o; try discriminate Hn; cbn [ostep] in H; cbv zeta in H;
    repeat match goal with H : match ?x with _ => _ end = Goes _ _ |- _ => destruct x eqn:?; try discriminate H end; try discriminate H; injection H as <- <-;
    first [exact (fun H => H) | apply store_upd; [intros ?; first [reflexivity|match goal with |- context [match ?x with _ => _ end] => destruct x; reflexivity end]|reflexivity] | idtac].
  all: unfold conn_of; cbn; destruct (decide (c0 = c)) as [->|Hne]; [rewrite lookup_insert; cbn; rewrite ?lookup_empty; discriminate|rewrite lookup_insert_ne by exact Hne; auto].
Qed.
Lemma store_env w e c k v : c_store (conn_of (env_step e w) c) !! k = Some v -> c_store (conn_of w c) !! k = Some v.
Proof.
  destruct e; cbn [env_step]; repeat match goal with |- context [match ?x with _ => _ end] => destruct x eqn:? end; first [exact (fun H => H)|apply store_upd; [intros; reflexivity|reflexivity]].
Qed.
Lemma shelf_respects : respects HS G HInv.
Proof.
  constructor.
  - intros t w Ls l o P HI Ht HP. destruct (ostep t w o) as [w' r| |why] eqn:E; auto; [|exact Logic.I]. exists tt. destruct (hneutral o) eqn:En.
    + split; [intros c k v Hv; eapply HI, store_op; eassumption|]. destruct o; try discriminate En; destruct l; apply HP.
    + destruct o; try discriminate En. cbn in HP, E. injection E as <- <-. destruct HP as [Hp HP]. split; [|destruct l; exact HP].
      intros c' k' v' Hv. unfold conn_of, upd_conn in Hv. cbn in Hv. destruct (decide (c = c')) as [<-|Hne].
      * rewrite lookup_insert in Hv. cbn in Hv. apply lookup_insert_Some in Hv as [[<- <-]|[_ Hv]]; [exact Hp|]. apply HI, Hv.
      * rewrite lookup_insert_ne in Hv by exact Hne. apply HI, Hv.
  - intros t w Ls l a HI Ht Hv Ha. exists l. split; [exact HI|].
    apply (impl_kp hrules h_gates); auto using h_ask, h_reply, h_message, h_ack, h_waitm, h_broadcast, h_srvask; try (intros; exact Logic.I).
    destruct a; cbn; auto; destruct n; auto.
  - intros x l Hs. apply shelf_code, Hs.
  - intros t w Ls l HI Ht _. exact HI.
  - intros t w Ls x rest HI Hsp Ht. exists tt. split; [exact Logic.I|exact HI].
  - intros t w Ls x HI Hs Ht. exists tt. split; [exact Logic.I|exact HI].
  - intros w Ls e HI _ c k v Hv. eapply HI, store_env, Hv.
Qed.
Lemma shelf_reachable s : reachable G s -> holds HS HInv s.
Proof.
  intros Hr. refine (reachable_holds HS hmono G _ shelf_respects s _ Hr). exists tt. split; [exact Logic.I|]. intros c k v H. cbn in H. unfold conn_of in H. cbn in H. rewrite ?lookup_empty in H. cbn in H. rewrite ?lookup_empty in H. discriminate.
Qed.
End shelf.
