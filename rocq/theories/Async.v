(** * Async.v : an invariant of the asynchronous broadcaster and the
    goroutines that wait for it.

    The ghost state of a goroutine says how far it is in serving a connection
    ([a_wt]), which connection it has made but not yet given a goroutine
    ([a_up]), and which broadcasts it is in the middle of ([a_st]). *)
From Coq Require Import ZArith.
From stdpp Require Import gmap strings list relations.
From RecordUpdate Require Import RecordUpdate.
From Verif Require Import Go Errors Message World Lang Code Sem Logic Spec_App Frame Spec_Async.

Inductive wphase : Type :=
| Fresh | Waiting (g : nat) | Woken (g : nat) | Holding (g : nat) (msgs : list message) | Over.
Inductive btok : Type := BSet (i : nat) | BOld (g : nat).
Record alab : Type := AL { a_wt : option (cid * wphase); a_up : option cid; a_st : list btok }.
Definition al0 : alab := AL None None [].

Section async.
Context (G : cfg) (base : option (cid * list (nat * nat) * nat)).

Definition arule (l : alab) (o : op) : (res o -> alab -> Prop) -> Prop :=
  match o as o return (res o -> alab -> Prop) -> Prop with
  | OBAwaiter => fun P => exists c, a_wt l = Some (c, Fresh) /\ forall g, P g (AL (Some (c, Waiting g)) (a_up l) (a_st l))
  | OBSelect g c => fun P => a_wt l = Some (c, Waiting g) /\ P true (AL (Some (c, Woken g)) (a_up l) (a_st l)) /\ P false (AL (Some (c, Over)) (a_up l) (a_st l))
  | OBGet => fun P => exists c g, a_wt l = Some (c, Woken g) /\ forall ms, P ms (AL (Some (c, Holding g ms)) (a_up l) (a_st l))
  | OLog (LBatch c ms) => fun P => exists g, a_wt l = Some (c, Holding g ms) /\ P tt (AL (Some (c, Fresh)) (a_up l) (a_st l))
  | OLog (LBcast _) => fun P => False
  | OBSet ms => fun P => forall i, P tt (AL (a_wt l) (a_up l) (BSet i :: a_st l))
  | OBSwap => fun P => exists i st, a_st l = BSet i :: st /\ forall g, P g (AL (a_wt l) (a_up l) (BOld g :: st))
  | OBClose g => fun P => exists st, a_st l = BOld g :: st /\ P tt (AL (a_wt l) (a_up l) st)
  | ONewConn c _ _ => fun P => a_up l = None /\ a_wt l = None /\ (P tt (AL (a_wt l) (Some c) (a_st l)) \/ P tt l)
  | OSpawn (TWaitMessages c) => fun P => a_up l = Some c /\ P tt (AL (a_wt l) None (a_st l))
  | OSrvSelect => fun P => forall x, (forall msgs, x <> SBroadcast msgs) -> P x l
  | OBcSend _ => fun P => False
  | _ => fun P => forall r, P r l
  end.

Definition astart (t : tcode) (l : alab) : Prop :=
  match t with TWaitMessages c => l = AL (Some (c, Fresh)) None [] | _ => l = al0 end.

Definition AS : lspec := {|
  ls_L := alab; ls_rule := arule; ls_cpre := fun _ _ => True; ls_cpost := fun l a r l' => l = l';
  ls_crash := fun _ => True; ls_start := astart; ls_fin := fun l => True |}.

Lemma amono : rule_mono AS.
Proof.
  intros l o P P' H. destruct o; try match goal with x : tcode |- _ => destruct x | x : event |- _ => destruct x end; cbn in *; intros HP;
    repeat match goal with H : _ /\ _ |- _ => destruct H | H : ex _ |- _ => destruct H | H : _ \/ _ |- _ => destruct H end; eauto 12.
Qed.

(** ** The code follows the rules. *)
Context (A : user_app (fun _ => True) G) (Hasync : g_sync G = false).
Notation any := (fun _ _ => True).
Lemma arules : @rules G AS (fun _ => True) eq any any any any any any any any any any (fun _ _ _ _ => True) (fun _ _ => True).
Proof.
  constructor; cbn; unfold stable; auto using amono; try congruence; try (intros; eauto; fail);
    [|intros c s l P H r; apply H; [reflexivity|destruct r; repeat split]|intros o n l P Ho _ H; destruct o; try discriminate Ho; cbn; intros; apply H; reflexivity].
  intros o l P Hp H.
  destruct o; cbn in *; try discriminate; eauto; try match goal with x : tcode |- _ => destruct x | x : event |- _ => destruct x end; try discriminate; cbn; eauto.
Qed.
Notation kp := (@kp AS eq _).
Definition neutral (o : op) : bool :=
  match o with
  | OBAwaiter | OBSelect _ _ | OBGet | OLog (LBatch _ _) | OLog (LBcast _) | OBSet _ | OBSwap | OBClose _ | ONewConn _ _ _
  | OSpawn (TWaitMessages _) | OSrvSelect | OBcSend _ => false
  | _ => true
  end.
Lemma a_free o : neutral o = true -> kp (opr o).
Proof. intros H l. cbn. unfold neutral in H. destruct o; try discriminate; cbn; intros; auto;
  match goal with x : tcode |- _ => destruct x | x : event |- _ => destruct x end; try discriminate; cbn; auto. Qed.
Ltac kf := repeat first
  [ apply (kp_ret arules) | apply (kp_crash arules) | match goal with |- @Frame.kp _ _ _ (opr ?o) => exact (a_free o eq_refl) end | assumption
  | match goal with H : forall _, _ |- _ => apply H; fail end
  | apply (kp_for_all arules); intros | apply (kp_bind arules); [|intros]
  | match goal with |- @Frame.kp _ _ _ ?p => match p with context [match ?x with _ => _ end] => destruct x eqn:? end end ].
Lemma a_gates : @gates G AS eq (fun _ _ => True) (fun _ => True).
Proof.
  constructor; intros.
  - unfold wait. kf.
  - unfold unwait. kf.
  - unfold proc_get. kf.
  - apply (kpp_kp arules). unfold proc_Done. kf.
  - unfold proc_Wait. kf.
  - apply (kq_any arules); [auto|]. unfold proc_Start. kf.
Qed.
Lemma a_ask c x m nx : kp (ask G c x m nx).
Proof. pose proof (Write_kp arules a_gates) as HW. unfold ask. kf. Qed.
Lemma a_send ch m : kp (send ch m).
Proof. unfold send. kf. Qed.
Notation kpp := (@kpp AS eq _ (fun _ => True)).
Lemma kpp_kp1 {X} (p : prog X) : kpp p <-> kp p.
Proof. split; [intros H l; apply H; exact Logic.I|intros H l _; apply H]. Qed.
Lemma a_reply c m : kpp (handle_event G c m) -> kpp (handle_reply_or_event G c m).
Proof. rewrite !kpp_kp1. intros H. pose proof a_send as HS. unfold handle_reply_or_event. kf. Qed.
Lemma a_message c m : (forall m', kpp (handle_event G c m')) -> kpp (handle_reply_or_event G c m) ->
  (forall (n : nsref) m', True -> @Frame.kpp AS eq _ (fun _ => True /\ True /\ True) (fireEvent G n m')) -> kpp (handleMessage G c m).
Proof.
  rewrite !kpp_kp1. intros He Hr Hf. assert (He' : forall m', kp (handle_event G c m')) by (intros; apply kpp_kp1, He).
  assert (Hf' : forall n m', kp (fireEvent G n m')) by (intros n m' l; apply Hf; auto). clear He Hf.
  pose proof a_send as HS. pose proof (Namespace_kp arules a_gates) as HN. unfold handleMessage. kf.
Qed.
Lemma a_ack c typ b : kpp (handleQueue G c) -> (forall s bin, kp (write G c s bin)) -> kp (wait c) -> (forall e, kp (unwait c e)) ->
  kpp (handleACK G c typ b).
Proof. rewrite !kpp_kp1. intros H1 H2 H3 H4. unfold handleACK. kf. Qed.
Lemma ok_kp {X} l (p : prog X) (Q : X -> alab -> Prop) : kp p -> (forall r, Q r l) -> ok (S := AS) l p Q.
Proof. intros H HQ. eapply (ok_mono AS amono); [|apply H]. intros r l' <-. apply HQ. Qed.
Lemma kp_ok {X Y} l (p : prog X) (f : X -> prog Y) Q : kp p -> (forall r, ok (S := AS) l (f r) Q) -> ok (S := AS) l (bind p f) Q.
Proof. intros H HQ. eapply (ok_seq AS amono); [apply H|]. intros r l' <-. apply HQ. Qed.
Lemma a_waitm c l : astart (TWaitMessages c) l -> (forall msgs, kp (publishMessages G c msgs)) ->
  ok (S := AS) l (waitMessages G c) (fun r l' => if r : bool then astart (TWaitMessages c) l' else True).
Proof.
  cbn [astart]. intros -> HP. unfold waitMessages, publish. cbn. intros _. exists c. split; [reflexivity|]. intros g _. split; [reflexivity|]. split; cbn; [|auto].
  exists c, g. split; [reflexivity|]. intros ms _. exists g. split; [reflexivity|]. apply kp_ok; [apply HP|]. intros r. cbn. intros _. destruct r; auto.
Qed.
Lemma a_broadcast msgs : kp (broadcast msgs).
Proof. intros l. unfold broadcast. cbn. intros _ i _. exists i, (a_st l). split; [reflexivity|]. intros g. exists (a_st l). split; [reflexivity|]. destruct l; reflexivity. Qed.
Lemma a_srvask x m : (forall e msgs, kp (Broadcast G e msgs)) -> kp (ServerAsk G x m).
Proof. intros HB. unfold ServerAsk. kf. Qed.
Lemma a_upgrade c l : l = al0 -> (forall e, kp (unwait c e)) -> (forall f, g_onconnect G = Some f -> kp (f c)) -> ok (S := AS) l (Upgrade G c) (fun _ l' => l = l').
Proof.
  intros -> H1 H2. unfold Upgrade, newConn. cbn. intros [|]; cbn; [reflexivity|]. split; [reflexivity|]. split; [reflexivity|].
  assert (Hrest : kp (bind (opr (OSConnSend c)) (fun _ => bind (opr (OSpawn (TReader c))) (fun _ =>
    bind (match g_exch G with None => Ret None | Some x => bind (opr (OLog (LExch (XOnConnect c)))) (fun _ => Ret (x_onconnect x c)) end) (fun xerr =>
    match xerr with
    | Some e => bind (unwait c (Some e)) (fun _ => opr (OLog (LUpgraded c (Some e))))
    | None =>
        bind (match g_onconnect G with None => Ret None | Some f => bind (opr (OLog (LOnConnect c))) (fun _ => f c) end) (fun err =>
        match err with
        | Some e => bind (unwait c (Some e)) (fun _ => opr (OLog (LUpgraded c (Some e))))
        | None => bind (unwait c None) (fun _ => opr (OLog (LUpgraded c None)))
        end)
    end))))).
  { destruct (g_onconnect G) as [f|] eqn:E; [pose proof (H2 f eq_refl)|]; kf. }
  destruct (negb (usesStackExchange G) && negb (g_sync G)) eqn:E; cbn.
  - left. split; [reflexivity|]. apply (Hrest al0).
  - right. apply (Hrest al0).
Qed.
Lemma a_dial c l : l = al0 -> kp (sendClientACK G c) -> ok (S := AS) l (Dial G c) (fun _ l' => l = l').
Proof.
  intros -> H. unfold Dial, newConn. cbn. split; [reflexivity|]. split; [reflexivity|]. right. intros _.
  eapply (ok_seq AS amono); [apply H|]. intros [e|] l' <-; cbn; auto.
Qed.
Lemma a_server l : l = al0 -> (forall c msgs, kp (publishMessages G c msgs)) ->
  (forall c, exists f, Close G c = bind (opr (OCasClosed c)) f /\ forall r : bool, @Frame.kpp AS eq _ (fun _ => r = true -> True) (f r)) -> (forall k c, kp (g_do G k c)) ->
  (forall x, kp (exch_call G x)) -> (forall f c, g_ondisconnect G = Some f -> kp (f c)) -> ok (S := AS) l (server_step G) (fun _ l' => l' = al0).
Proof.
  intros -> HP HC HD HX HO. unfold server_step.
  apply (ok_seq AS amono _ _ _ (fun x l' => l' = al0 /\ forall msgs, x <> SBroadcast msgs)); [cbn; auto|]. intros x l' [-> Hx].
  assert (HC' : forall c, kp (Close G c)) by (intros c; destruct (HC c) as (f & -> & Hf); assert (Hf' : forall r, kp (f r)) by (intros r l; apply (Hf r); auto); kf).
  destruct x as [c|c|msgs|a]; [| |exfalso; eapply Hx; reflexivity|]; (apply ok_kp; [|reflexivity]).
  - kf.
  - destruct (g_ondisconnect G) as [f|] eqn:E; [|kf]. pose proof (fun c => HO f c eq_refl) as H5. kf.
  - unfold act_call. kf.
Qed.

(** ** The invariant. *)
Notation bs w := (sent_in (w_log w)).
Notation gen w := (b_gen (w_srv w)).
Definition pendings (l : list tcode) : list cid := omap (fun x => match x with TWaitMessages c => Some c | _ => None end) l.
#[local] Arguments pendings : simpl never.
Definition owned (l : alab) : list cid :=
  match a_wt l with Some (c, _) => [c] | None => [] end ++ match a_up l with Some c => [c] | None => [] end.
Definition toks (l : alab) : list nat := omap (fun x => match x with BSet i => Some i | BOld _ => None end) (a_st l).

(** The batches delivered to a connection: the generation it waited for and
    the index of the batch it found. *)
Record good (b : list (list message)) (g : nat) (D : list (nat * nat)) (r : list (list message)) : Prop := Good {
  gd_got : Forall2 (fun d x => b !! snd d = Some x) D r;
  gd_gen : forall j k d e, j < k -> D !! j = Some d -> D !! k = Some e -> fst d < fst e;
  gd_idx : forall j k d e, j <= k -> D !! j = Some d -> D !! k = Some e -> snd d <= snd e;
  gd_late : forall d, d ∈ D -> fst d <= snd d /\ fst d < g }.
Record GInv (w : world) (Df : cid -> list (nat * nat)) (X : gset nat) : Prop := MkG {
  gi_last : forall b m, bs w = b ++ [m] -> b_msgs (w_srv w) = m;
  gi_gen : gen w = size X;
  gi_X : forall i, i ∈ X -> i < length (bs w);
  gi_closed : forall g, g ∈ b_closed (w_srv w) -> g < gen w;
  gi_df : forall c, good (bs w) (gen w) (Df c) (got_in c (w_log w));
  gi_bcast : s_bcast (w_srv w) = [] }.
Record LOK (w : world) (Df : cid -> list (nat * nat)) (l : alab) : Prop := MkL {
  lk_wt : forall c ph, a_wt l = Some (c, ph) ->
    match ph with
    | Fresh | Over => True
    | Waiting g => g <= gen w /\ forall d, d ∈ Df c -> fst d < g
    | Woken g => g < gen w /\ forall d, d ∈ Df c -> fst d < g
    | Holding g ms => g < gen w /\ (forall d, d ∈ Df c -> fst d < g) /\
        exists i, g <= i /\ bs w !! i = Some ms /\ forall d, d ∈ Df c -> snd d <= i
    end;
  lk_old : forall g, BOld g ∈ a_st l -> g < gen w }.
Record Uniq (w : world) (Ls : gmap tid alab) : Prop := MkU {
  uq_one : forall (t1 t2 : tid) l1 l2 c, Ls !! t1 = Some l1 -> Ls !! t2 = Some l2 -> c ∈ owned l1 -> c ∈ owned l2 -> t1 = t2;
  uq_dup : forall (t : tid) l, Ls !! t = Some l -> NoDup (owned l);
  uq_pend : forall (t : tid) l c, Ls !! t = Some l -> c ∈ owned l -> c ∉ pendings (w_spawn w);
  uq_pdup : NoDup (pendings (w_spawn w));
  uq_dom : forall (t : tid) l c, Ls !! t = Some l -> c ∈ owned l -> is_Some (w_conns w !! c);
  uq_pdom : forall c, c ∈ pendings (w_spawn w) -> is_Some (w_conns w !! c) }.
Record Toks (n : nat) (X : gset nat) (Ls : gmap tid alab) : Prop := MkT {
  tk_one : forall (t1 t2 : tid) l1 l2 i, Ls !! t1 = Some l1 -> Ls !! t2 = Some l2 -> i ∈ toks l1 -> i ∈ toks l2 -> t1 = t2;
  tk_dup : forall (t : tid) l, Ls !! t = Some l -> NoDup (toks l);
  tk_in : forall (t : tid) l i, Ls !! t = Some l -> i ∈ toks l -> i < n /\ i ∉ X }.
Definition at_gen (g0 : nat) (ph : wphase) : Prop :=
  match ph with Fresh => False | Over => True | Waiting g | Woken g | Holding g _ => g = g0 end.
Record Since (c0 : cid) (D0 : list (nat * nat)) (g0 : nat) (w : world) (Df : cid -> list (nat * nat)) (Ls : gmap tid alab) : Prop := MkS {
  sn_dom : is_Some (w_conns w !! c0);
  sn_pend : c0 ∉ pendings (w_spawn w);
  sn_up : forall (t : tid) l, Ls !! t = Some l -> a_up l <> Some c0;
  sn_new : exists E, Df c0 = D0 ++ E /\
    match E with
    | [] => forall (t : tid) l ph, Ls !! t = Some l -> a_wt l = Some (c0, ph) -> at_gen g0 ph
    | e :: _ => fst e = g0
    end }.
Definition since (w : world) (Df : cid -> list (nat * nat)) (Ls : gmap tid alab) : Prop :=
  match base with None => True | Some (c0, D0, g0) => Since c0 D0 g0 w Df Ls end.
Definition Inv (w : world) (Ls : gmap tid alab) : Prop :=
  exists Df X, GInv w Df X /\ (forall (t : tid) l, Ls !! t = Some l -> LOK w Df l) /\ Uniq w Ls /\ Toks (length (bs w)) X Ls /\ since w Df Ls.

(** Steps that matter to nobody. *)
Definition quiet (e : event) : Prop := match e with LBcast _ | LBatch _ _ => False | _ => True end.
Record calm (w w' : world) : Prop := Calm {
  cm_msgs : b_msgs (w_srv w') = b_msgs (w_srv w);
  cm_gen : gen w' = gen w;
  cm_closed : b_closed (w_srv w') = b_closed (w_srv w);
  cm_bcast : s_bcast (w_srv w') = s_bcast (w_srv w);
  cm_dom : forall c, is_Some (w_conns w !! c) -> is_Some (w_conns w' !! c);
  cm_spawn : pendings (w_spawn w') = pendings (w_spawn w);
  cm_bs : bs w' = bs w;
  cm_got : forall c, got_in c (w_log w') = got_in c (w_log w) }.
Lemma calm_refl w : calm w w.
Proof. constructor; auto. Qed.
Lemma calm_pop w : calm w (pop_seed w).
Proof. constructor; auto. Qed.
Lemma calm_trans w1 w2 w3 : calm w1 w2 -> calm w2 w3 -> calm w1 w3.
Proof. intros [] []. constructor; try congruence; auto. Qed.
Lemma calm_conn c f w : calm w (upd_conn c f w).
Proof.
  constructor; cbn; auto. intros c' [k Hk]. destruct (decide (c' = c)) as [->|Hne]; [rewrite lookup_insert|rewrite lookup_insert_ne by congruence]; eauto.
Qed.
Lemma calm_log e w : quiet e -> calm w (w <| w_log ::= cons e |>).
Proof. intros H. constructor; cbn; auto; destruct e; try contradiction; reflexivity. Qed.
Lemma pendings_app l x : pendings (l ++ [x]) = pendings l ++ pendings [x].
Proof. unfold pendings. rewrite omap_app. reflexivity. Qed.
Lemma neutral_calm t w o w' r : neutral o = true -> ostep t w o = Goes w' r -> calm w w'.
Proof.
  intros Hb H. destruct o; try discriminate Hb; cbn [ostep] in H;
    repeat match goal with
    | H : match ?x with _ => _ end = Goes _ _ |- _ => destruct x eqn:?; try discriminate H
    end; try discriminate H; injection H as <- <-;
    first [apply calm_refl | apply calm_pop | apply calm_conn
      | (apply calm_log; destruct e; try discriminate Hb; exact Logic.I)
      | (constructor; cbn; auto; fail)
      | (eapply calm_trans; [apply calm_pop|first [apply calm_conn|constructor; cbn; auto; fail]])
      | (eapply calm_trans; [|apply calm_conn]; constructor; cbn; auto; fail)
      | idtac].
  constructor; cbn; auto. rewrite pendings_app. destruct code; try discriminate Hb; cbn; apply app_nil_r.
Qed.
Lemma neutral_rule l o P r : neutral o = true -> arule l o P -> P r l.
Proof. intros Hn. destruct o; try discriminate; cbn; auto; match goal with x : tcode |- _ => destruct x | x : event |- _ => destruct x end; try discriminate; cbn; auto. Qed.
Lemma inv_calm w w' Ls : Inv w Ls -> calm w w' -> Inv w' Ls.
Proof.
  intros (Df & X & [I1 I2 I3 I4 I5 I6] & HL & [U1 U2 U3 U4 U5 U6] & HT & HS) [F1 F2 F3 F4 F5 F6 F7 F8].
  exists Df, X. split; [|split; [|split; [|split]]].
  - constructor; rewrite ?F1, ?F2, ?F3, ?F4, ?F7; auto. intros c. rewrite F8. apply I5.
  - intros t l Ht. destruct (HL t l Ht) as [L1 L2]. constructor; rewrite ?F2, ?F7; auto.
  - constructor; rewrite ?F6; eauto.
  - rewrite F7. exact HT.
  - unfold since in *. destruct base as [[[c0 D0] g0]|]; [|exact Logic.I]. destruct HS as [S1 S2 S3 S4]. constructor; rewrite ?F6; auto.
Qed.
Lemma env_calm w e : calm w (env_step e w).
Proof.
  destruct e; cbn [env_step]; repeat match goal with |- context [match ?x with _ => _ end] => destruct x eqn:? end;
    first [apply calm_refl | apply calm_conn | constructor; cbn; auto].
Qed.

(** A step of a goroutine that keeps what it owns. *)
Lemma uniq_same w w' (Ls : gmap tid alab) (t : tid) l l' : Uniq w Ls -> Ls !! t = Some l -> owned l' = owned l -> pendings (w_spawn w') = pendings (w_spawn w) ->
  (forall c, is_Some (w_conns w !! c) -> is_Some (w_conns w' !! c)) -> Uniq w' (<[t := l']> Ls).
Proof.
  intros [U1 U2 U3 U4 U5 U6] Ht Ho Hp Hd.
  assert (Hback : forall (t' : tid) k, <[t := l']> Ls !! t' = Some k -> exists k', Ls !! t' = Some k' /\ owned k = owned k').
  { intros t' k H. apply lookup_insert_Some in H as [[<- <-]|[_ H]]; eauto. }
  constructor; rewrite ?Hp; auto.
  - intros t1 t2 l1 l2 c H1 H2. apply Hback in H1 as (k1 & H1 & ->). apply Hback in H2 as (k2 & H2 & ->). eauto.
  - intros t1 l1 H1. apply Hback in H1 as (k1 & H1 & ->). eauto.
  - intros t1 l1 c H1. apply Hback in H1 as (k1 & H1 & ->). eauto.
  - intros t1 l1 c H1. apply Hback in H1 as (k1 & H1 & ->). eauto.
Qed.
Lemma toks_same n X (Ls : gmap tid alab) (t : tid) l l' : Toks n X Ls -> Ls !! t = Some l -> toks l' = toks l -> Toks n X (<[t := l']> Ls).
Proof.
  intros [U1 U2 U3] Ht Ho.
  assert (Hback : forall (t' : tid) k, <[t := l']> Ls !! t' = Some k -> exists k', Ls !! t' = Some k' /\ toks k = toks k').
  { intros t' k H. apply lookup_insert_Some in H as [[<- <-]|[_ H]]; eauto. }
  constructor.
  - intros t1 t2 l1 l2 c H1 H2. apply Hback in H1 as (k1 & H1 & ->). apply Hback in H2 as (k2 & H2 & ->). eauto.
  - intros t1 l1 H1. apply Hback in H1 as (k1 & H1 & ->). eauto.
  - intros t1 l1 c H1. apply Hback in H1 as (k1 & H1 & ->). eauto.
Qed.
Lemma lok_insert w Df (Ls : gmap tid alab) (t : tid) l : (forall (t' : tid) k, Ls !! t' = Some k -> LOK w Df k) -> LOK w Df l -> forall (t' : tid) k, <[t := l]> Ls !! t' = Some k -> LOK w Df k.
Proof. intros H1 H2 t' k H. apply lookup_insert_Some in H as [[_ <-]|[_ H]]; eauto. Qed.
(** ... and only moves on within a wait (the deliveries stay the same). *)
Lemma since_same w w' Df Ls (t : tid) l l' : since w Df Ls -> Ls !! t = Some l -> a_up l' = a_up l ->
  (forall c ph', a_wt l' = Some (c, ph') -> exists ph, a_wt l = Some (c, ph) /\ forall g0, at_gen g0 ph -> at_gen g0 ph') ->
  pendings (w_spawn w') = pendings (w_spawn w) -> (forall c, is_Some (w_conns w !! c) -> is_Some (w_conns w' !! c)) -> since w' Df (<[t := l']> Ls).
Proof.
  unfold since. destruct base as [[[c0 D0] g0]|]; [|auto]. intros [S1 S2 S3 (E & HE & S4)] Ht Hu Hw Hp Hd. constructor; rewrite ?Hp; auto.
  - intros t' k H. apply lookup_insert_Some in H as [[_ <-]|[_ H]]; [rewrite Hu|]; eauto.
  - exists E. split; [exact HE|]. destruct E as [|e E]; [|exact S4].
    intros t' k ph H Hk. apply lookup_insert_Some in H as [[_ <-]|[_ H]]; [|eauto].
    apply Hw in Hk as (ph0 & H0 & Himp). eauto.
Qed.

Lemma size_below (X : gset nat) n : (forall i, i ∈ X -> i < n) -> size X <= n.
Proof.
  intros H. assert (HX : X ⊆ set_seq 0 n) by (intros i Hi; apply elem_of_set_seq; specialize (H i Hi); lia).
  apply subseteq_size in HX. assert (E : size (set_seq 0 n : gset nat) = n); [|lia].
  clear. induction n as [|n IH]; [reflexivity|]. rewrite set_seq_S_end_union_L, size_union, size_singleton, IH; [lia|].
  intros x Hx Hx'. apply elem_of_singleton in Hx. subst. apply elem_of_set_seq in Hx'. lia.
Qed.
Lemma ginv_le w Df X : GInv w Df X -> gen w <= length (bs w).
Proof. intros [_ -> H _ _ _]. apply size_below, H. Qed.
Lemma pick_in {X} w (l : list X) x : pick w l = Some x -> x ∈ l.
Proof. unfold pick. intros H. apply nth_error_In in H. apply elem_of_list_In, H. Qed.
Lemma snoc_Some {X} (l : list X) x i y : (l ++ [x]) !! i = Some y -> (i < length l /\ l !! i = Some y) \/ (i = length l /\ y = x).
Proof.
  rewrite lookup_app_Some. intros [H|[H1 H2]]; [left; split; [eapply lookup_lt_Some, H|exact H]|]. right.
  apply list_lookup_singleton_Some in H2 as [H2 <-]. split; [lia|reflexivity].
Qed.
Lemma good_more b m g g' D r : g <= g' -> good b g D r -> good (b ++ [m]) g' D r.
Proof.
  intros Hg [H1 H2 H3 H4]. constructor; auto.
  - eapply Forall2_impl; [exact H1|]. intros d x Hd. apply lookup_app_l_Some, Hd.
  - intros d Hd. destruct (H4 d Hd). lia.
Qed.
Lemma good_gen b g g' D r : g <= g' -> good b g D r -> good b g' D r.
Proof. intros Hg [H1 H2 H3 H4]. constructor; auto. intros d Hd. destruct (H4 d Hd). lia. Qed.
Lemma good_snoc b g D r gw i m : good b g D r -> (forall d, d ∈ D -> fst d < gw) -> (forall d, d ∈ D -> snd d <= i) -> gw <= i -> gw < g -> b !! i = Some m ->
  good b g (D ++ [(gw, i)]) (r ++ [m]).
Proof.
  intros [H1 H2 H3 H4] Hf Hs Hi Hg Hb. constructor.
  - apply Forall2_app; [exact H1|]. repeat constructor. exact Hb.
  - intros j k d e Hjk Hj Hk. apply snoc_Some in Hk as [[Hl Hk]|[-> ->]].
    + rewrite lookup_app_l in Hj by lia. eauto.
    + rewrite lookup_app_l in Hj by lia. apply Hf. eapply elem_of_list_lookup_2, Hj.
  - intros j k d e Hjk Hj Hk. apply snoc_Some in Hk as [[Hl Hk]|[-> ->]].
    + rewrite lookup_app_l in Hj by lia. eauto.
    + apply snoc_Some in Hj as [[_ Hj]|[_ ->]]; [|reflexivity]. apply Hs. eapply elem_of_list_lookup_2, Hj.
  - intros d. rewrite elem_of_app, elem_of_list_singleton. intros [Hd| ->]; [auto|]. cbn. lia.
Qed.

Lemma async_op t w Ls l o (P : res o -> alab -> Prop) : Inv w Ls -> Ls !! t = Some l -> arule l o P ->
  match ostep t w o with
  | Goes w' r => exists l', Inv w' (<[t := l']> Ls) /\ P r l'
  | Blocked => True
  | Panics why => True
  end.
Proof.
  intros HI Ht HP. destruct (ostep t w o) as [w' r| |why] eqn:E; auto.
  destruct (neutral o) eqn:Eb.
  { exists l. rewrite insert_id by exact Ht. split; [|eapply neutral_rule; eassumption]. eapply inv_calm; [exact HI|]. eapply neutral_calm; eassumption. }
  destruct o; try discriminate Eb; cbn in HP, E.
  - (* OBcSend *) contradiction.
  - (* OSrvSelect *) destruct (pick w (srv_ready (w_srv w))) as [x|] eqn:Ep; [|discriminate]. injection E as <- <-.
    assert (Hx : forall msgs, x <> SBroadcast msgs).
    { intros msgs ->. apply pick_in in Ep. destruct HI as (Df & X & HG & _). unfold srv_ready in Ep. rewrite (gi_bcast _ _ _ HG) in Ep.
      rewrite !elem_of_app in Ep. destruct (s_connbuf _), (s_disc _), (s_acts _); rewrite ?elem_of_list_singleton, ?elem_of_nil in Ep; naive_solver. }
    exists l. rewrite insert_id by exact Ht. split; [|apply HP, Hx]. eapply inv_calm; [exact HI|].
    destruct x; try (constructor; cbn; auto; fail). exfalso. eapply Hx. reflexivity.
  - (* OBSet *) injection E as <- <-. destruct HI as (Df & X & HG & HL & HU & HT & HS).
    eexists. split; [|apply (HP (length (bs w)))]. exists Df, X. pose proof HG as [I1 I2 I3 I4 I5 I6].
    split; [|split; [|split; [|split]]].
    + constructor; cbn; auto.
      * intros b m Hb. apply app_inj_tail in Hb as [_ ->]. reflexivity.
      * intros i Hi. rewrite app_length. cbn. specialize (I3 i Hi). lia.
      * intros c. apply (good_more _ _ (gen w)); [lia|apply I5].
    + apply lok_insert.
      * intros t' k Hk. destruct (HL t' k Hk) as [L1 L2]. constructor; cbn; auto. intros c ph Hc. specialize (L1 c ph Hc). destruct ph; auto.
        destruct L1 as (H1 & H2 & i & H3 & H4 & H5). split; [exact H1|]. split; [exact H2|]. exists i. split; [exact H3|]. split; [apply lookup_app_l_Some, H4|exact H5].
      * destruct (HL t l Ht) as [L1 L2]. constructor; cbn; auto.
        -- intros c ph Hc. specialize (L1 c ph Hc). destruct ph; auto.
           destruct L1 as (H1 & H2 & i & H3 & H4 & H5). split; [exact H1|]. split; [exact H2|]. exists i. split; [exact H3|]. split; [apply lookup_app_l_Some, H4|exact H5].
        -- intros g Hg. apply elem_of_cons in Hg as [Hg|Hg]; [discriminate|auto].
    + eapply uniq_same; [exact HU|exact Ht|reflexivity|reflexivity|auto].
    + cbn. rewrite app_length. cbn. destruct HT as [T1 T2 T3].
      assert (Hnew : forall (t' : tid) k, Ls !! t' = Some k -> length (bs w) ∉ toks k).
      { intros t' k Hk Hi. destruct (T3 t' k _ Hk Hi). lia. }
      assert (Hback : forall (t' : tid) k i, <[t := AL (a_wt l) (a_up l) (BSet (length (bs w)) :: a_st l)]> Ls !! t' = Some k -> i ∈ toks k ->
        (t' = t /\ i = length (bs w)) \/ exists k', Ls !! t' = Some k' /\ i ∈ toks k').
      { intros t' k i Hk Hi. apply lookup_insert_Some in Hk as [[<- <-]|[_ Hk]]; [|eauto]. cbn in Hi. apply elem_of_cons in Hi as [->|Hi]; eauto. }
      constructor.
      * intros t1 t2 l1 l2 i H1 H2 Hi1 Hi2. destruct (Hback _ _ _ H1 Hi1) as [[-> ?]|(k1 & K1 & J1)]; destruct (Hback _ _ _ H2 Hi2) as [[-> ?]|(k2 & K2 & J2)]; auto; subst;
          try (exfalso; eapply Hnew; eassumption). eapply T1; eassumption.
      * intros t' k Hk. apply lookup_insert_Some in Hk as [[<- <-]|[_ Hk]]; [|eauto]. cbn. constructor; [eapply Hnew; eassumption|eapply T2; eassumption].
      * intros t' k i Hk Hi. destruct (Hback _ _ _ Hk Hi) as [[-> ->]|(k1 & K1 & J1)]; [split; [lia|]|destruct (T3 _ _ _ K1 J1); split; [lia|assumption]].
        intros Hx. apply I3 in Hx. lia.
    + eapply since_same; [exact HS|exact Ht|reflexivity| |reflexivity|auto]. cbn. eauto.
  - (* OBGet *) injection E as <- <-. destruct HP as (c & g & Hwt & HP). destruct HI as (Df & X & HG & HL & HU & HT & HS).
    eexists. split; [|apply HP]. exists Df, X. pose proof HG as [I1 I2 I3 I4 I5 I6]. pose proof (ginv_le _ _ _ HG) as Hle.
    destruct (HL t l Ht) as [L1 L2]. destruct (L1 c _ Hwt) as [Hg Hd].
    split; [exact HG|split; [|split; [|split]]].
    + apply lok_insert; [exact HL|]. constructor; cbn; auto. intros c' ph [= <- <-]. split; [exact Hg|]. split; [exact Hd|].
      destruct (bs w) as [|m b _] eqn:Eb' using rev_ind; [cbn in Hle; lia|]. rewrite app_length in Hle. cbn in Hle.
      exists (length b). split; [lia|]. split; [rewrite (I1 b m eq_refl); apply list_lookup_middle; reflexivity|].
      intros d Hd'. destruct (I5 c) as [G1 _ _ _]. apply elem_of_list_lookup in Hd' as [j Hj].
      destruct (Forall2_lookup_l _ _ _ _ _ G1 Hj) as (x & _ & Hx). apply lookup_lt_Some in Hx. rewrite app_length in Hx. cbn in Hx. lia.
    + eapply uniq_same; [exact HU|exact Ht| |reflexivity|auto]. unfold owned. cbn. rewrite Hwt. reflexivity.
    + eapply toks_same; [exact HT|exact Ht|reflexivity].
    + eapply since_same; [exact HS|exact Ht|reflexivity| |reflexivity|auto]. cbn. intros c' ph' [= <- <-]. exists (Woken g). auto.
  - (* OBSwap *) injection E as <- <-. destruct HP as (i & st & Hst & HP). destruct HI as (Df & X & HG & HL & HU & HT & HS).
    eexists. split; [|apply HP]. exists Df, ({[i]} ∪ X). pose proof HG as [I1 I2 I3 I4 I5 I6]. destruct HT as [T1 T2 T3].
    assert (Hi : i ∈ toks l) by (unfold toks; rewrite Hst; cbn; constructor). destruct (T3 t l i Ht Hi) as [Hi1 Hi2].
    split; [|split; [|split; [|split]]].
    + constructor; cbn; auto.
      * rewrite size_union, size_singleton, I2 by set_solver. reflexivity.
      * intros j. rewrite elem_of_union, elem_of_singleton. intros [->|Hj]; auto.
      * intros g Hg. specialize (I4 g Hg). lia.
      * intros c. apply (good_gen _ (gen w)); [lia|apply I5].
    + assert (Hmore : forall k, LOK w Df k -> LOK (upd_srv (fun s => s <| b_gen ::= S |>) w) Df k).
      { intros k [L1 L2]. constructor; cbn; [|intros g Hg; specialize (L2 g Hg); lia]. intros c ph Hc. specialize (L1 c ph Hc).
        destruct ph; auto; destruct L1 as [K1 K2]; (split; [lia|exact K2]). }
      apply lok_insert; [intros t' k Hk; apply Hmore, (HL t' k Hk)|].
      destruct (Hmore l (HL t l Ht)) as [L1 L2]. constructor; [exact L1|]. cbn. intros g Hg. apply elem_of_cons in Hg as [[= ->]|Hg]; [lia|]. apply L2. rewrite Hst. constructor. exact Hg.
    + eapply uniq_same; [exact HU|exact Ht|reflexivity|reflexivity|auto].
    + cbn. assert (Hback : forall (t' : tid) k j, <[t := AL (a_wt l) (a_up l) (BOld (gen w) :: st)]> Ls !! t' = Some k -> j ∈ toks k ->
        exists k', Ls !! t' = Some k' /\ j ∈ toks k').
      { intros t' k j Hk Hj. apply lookup_insert_Some in Hk as [[<- <-]|[_ Hk]]; [|eauto]. exists l. split; [exact Ht|]. unfold toks. rewrite Hst. constructor. exact Hj. }
      assert (Hnd : NoDup (toks l)) by eauto. unfold toks in Hnd at 1. rewrite Hst in Hnd. cbn in Hnd. apply NoDup_cons in Hnd as [Hnd1 Hnd2].
      constructor.
      * intros t1 t2 l1 l2 j H1 H2 J1 J2. destruct (Hback _ _ _ H1 J1) as (k1 & ? & ?). destruct (Hback _ _ _ H2 J2) as (k2 & ? & ?). eapply T1; eassumption.
      * intros t' k Hk. apply lookup_insert_Some in Hk as [[<- <-]|[_ Hk]]; [exact Hnd2|eauto].
      * intros t' k j Hk Hj. destruct (Hback _ _ _ Hk Hj) as (k' & Hk' & Hj'). destruct (T3 _ _ _ Hk' Hj') as [? Hx]. split; [assumption|].
        rewrite elem_of_union, elem_of_singleton. intros [->|?]; [|contradiction].
        assert (t' = t) as -> by (eapply T1; eassumption). rewrite lookup_insert in Hk. injection Hk as <-. apply Hnd1, Hj.
    + eapply since_same; [exact HS|exact Ht|reflexivity| |reflexivity|auto]. cbn. eauto.
  - (* OBClose *) case_bool_decide as Ec; [discriminate|]. injection E as <- <-. destruct HP as (st & Hst & HP). destruct HI as (Df & X & HG & HL & HU & HT & HS).
    eexists. split; [|apply HP]. exists Df, X. pose proof HG as [I1 I2 I3 I4 I5 I6]. destruct (HL t l Ht) as [L1 L2].
    split; [|split; [|split; [|split]]].
    + constructor; cbn; auto. intros j. rewrite elem_of_union, elem_of_singleton. intros [->|Hj]; [|auto]. apply L2. rewrite Hst. constructor.
    + apply lok_insert; [intros t' k Hk; destruct (HL t' k Hk); constructor; auto|]. constructor; [exact L1|]. cbn. intros j Hj. apply L2. rewrite Hst. constructor. exact Hj.
    + eapply uniq_same; [exact HU|exact Ht|reflexivity|reflexivity|auto].
    + eapply toks_same; [exact HT|exact Ht|]. unfold toks. rewrite Hst. reflexivity.
    + eapply since_same; [exact HS|exact Ht|reflexivity| |reflexivity|auto]. cbn. eauto.
  - (* OBAwaiter *) injection E as <- <-. destruct HP as (c & Hwt & HP). destruct HI as (Df & X & HG & HL & HU & HT & HS).
    eexists. split; [|apply HP]. exists Df, X. destruct (HL t l Ht) as [L1 L2].
    split; [exact HG|split; [|split; [|split]]].
    + apply lok_insert; [exact HL|]. constructor; cbn; auto. intros c' ph [= <- <-]. split; [lia|]. intros d Hd. destruct (gi_df _ _ _ HG c) as [_ _ _ H4]. apply (H4 d Hd).
    + eapply uniq_same; [exact HU|exact Ht| |reflexivity|auto]. unfold owned. cbn. rewrite Hwt. reflexivity.
    + eapply toks_same; [exact HT|exact Ht|reflexivity].
    + eapply since_same; [exact HS|exact Ht|reflexivity| |reflexivity|auto]. cbn. intros c' ph' [= <- <-]. exists Fresh. split; [exact Hwt|]. contradiction.
  - (* OBSelect *) destruct HP as (Hwt & HP1 & HP2). destruct (pick w _) as [b|] eqn:Ep; [|discriminate]. injection E as <- <-. apply pick_in in Ep.
    pose proof (inv_calm _ _ _ HI (calm_pop w)) as HI'. clear HI. destruct HI' as (Df & X & HG & HL & HU & HT & HS).
    destruct (HL t l Ht) as [L1 L2]. destruct (L1 c _ Hwt) as [Hg Hd]. destruct b.
    + eexists. split; [|apply HP1]. exists Df, X. split; [exact HG|split; [|split; [|split]]].
      * apply lok_insert; [exact HL|]. constructor; cbn; auto. intros c' ph [= <- <-]. split; [|exact Hd].
        apply (gi_closed _ _ _ HG). cbn. apply elem_of_app in Ep as [Ep|Ep]; [|destruct (c_closeCh _); [apply elem_of_list_singleton in Ep; discriminate|inversion Ep]].
        case_bool_decide; [assumption|inversion Ep].
      * eapply uniq_same; [exact HU|exact Ht| |reflexivity|auto]. unfold owned. cbn. rewrite Hwt. reflexivity.
      * eapply toks_same; [exact HT|exact Ht|reflexivity].
      * eapply since_same; [exact HS|exact Ht|reflexivity| |reflexivity|auto]. cbn. intros c' ph' [= <- <-]. exists (Waiting g). auto.
    + eexists. split; [|apply HP2]. exists Df, X. split; [exact HG|split; [|split; [|split]]].
      * apply lok_insert; [exact HL|]. constructor; cbn; auto. intros c' ph [= <- <-]. exact Logic.I.
      * eapply uniq_same; [exact HU|exact Ht| |reflexivity|auto]. unfold owned. cbn. rewrite Hwt. reflexivity.
      * eapply toks_same; [exact HT|exact Ht|reflexivity].
      * eapply since_same; [exact HS|exact Ht|reflexivity| |reflexivity|auto]. cbn. intros c' ph' [= <- <-]. exists (Waiting g). split; [exact Hwt|]. intros; exact Logic.I.
  - (* ONewConn *) destruct HP as (Hup & Hwt & HP).
    assert (Hst : calm w w' /\ w_conns w !! c = None /\ is_Some (w_conns w' !! c)).
    { destruct (w_conns w !! c) eqn:Ec; [discriminate|].
      assert (Hconn : forall k : conn, forall c0, is_Some (w_conns w !! c0) -> is_Some (<[c := k]> (w_conns w) !! c0)).
      { intros k c0 H. destruct (decide (c = c0)) as [->|Hne]; [rewrite lookup_insert; eauto|rewrite lookup_insert_ne by exact Hne; exact H]. }
      destruct native_only; injection E as <- <-; (split; [constructor; cbn; auto|split; [reflexivity|cbn; rewrite lookup_insert; eauto]]). }
    destruct Hst as (Hst & Hnew & Hin).
    assert (HI' : Inv w' Ls) by (eapply inv_calm; eassumption).
    destruct HP as [HP|HP]; [|exists l; rewrite insert_id by exact Ht; split; [exact HI'|destruct r; exact HP]].
    eexists. split; [|destruct r; exact HP]. destruct HI as (Df0 & X0 & _ & _ & HU0 & _ & HS0). destruct HI' as (Df & X & HG & HL & HU & HT & HS).
    destruct HU0 as [_ _ _ _ V5 V6].
    assert (Hno : forall (t' : tid) k, Ls !! t' = Some k -> c ∉ owned k).
    { intros t' k Hk Hc. destruct (V5 t' k c Hk Hc) as [? ?]. congruence. }
    assert (Hnp : c ∉ pendings (w_spawn w')).
    { rewrite (cm_spawn _ _ Hst). intros Hc. destruct (V6 c Hc). congruence. }
    exists Df, X. split; [exact HG|split; [|split; [|split]]].
    + apply lok_insert; [exact HL|]. destruct (HL t l Ht) as [L1 L2]. constructor; cbn; auto.
    + destruct HU as [U1 U2 U3 U4 U5 U6].
      assert (Hl : owned l = []) by (unfold owned; rewrite Hup, Hwt; reflexivity).
      assert (Hl' : owned (AL (a_wt l) (Some c) (a_st l)) = [c]) by (unfold owned; cbn; rewrite Hwt; reflexivity).
      assert (Hback : forall (t' : tid) k c', <[t := AL (a_wt l) (Some c) (a_st l)]> Ls !! t' = Some k -> c' ∈ owned k -> (t' = t /\ c' = c) \/ (Ls !! t' = Some k /\ c' <> c)).
      { intros t' k c' Hk Hc. apply lookup_insert_Some in Hk as [[<- <-]|[_ Hk]]; [left; rewrite Hl' in Hc; apply elem_of_list_singleton in Hc; auto|].
        right. split; [exact Hk|]. intros ->. eapply Hno; eassumption. }
      constructor; auto.
      * intros t1 t2 l1 l2 c' H1 H2 J1 J2. destruct (Hback _ _ _ H1 J1) as [[-> ->]|[K1 N1]]; destruct (Hback _ _ _ H2 J2) as [[-> ?]|[K2 N2]]; try congruence. eapply U1; eassumption.
      * intros t' k Hk. apply lookup_insert_Some in Hk as [[<- <-]|[_ Hk]]; [rewrite Hl'; apply NoDup_singleton|eauto].
      * intros t' k c' H1 J1. destruct (Hback _ _ _ H1 J1) as [[-> ->]|[K1 N1]]; eauto.
      * intros t' k c' H1 J1. destruct (Hback _ _ _ H1 J1) as [[-> ->]|[K1 N1]]; eauto.
    + eapply toks_same; [exact HT|exact Ht|reflexivity].
    + unfold since in *. destruct base as [[[c0 D0] g0]|]; [|exact Logic.I]. destruct HS as [S1 S2 S3 (E' & HE & S4)]. destruct HS0 as [[? Hc0] _ _ _].
      constructor; auto.
      * intros t' k Hk. apply lookup_insert_Some in Hk as [[<- <-]|[_ Hk]]; [|eauto]. cbn. intros [= ->]. congruence.
      * exists E'. split; [exact HE|]. destruct E'; [|exact S4]. intros t' k ph Hk Hw. apply lookup_insert_Some in Hk as [[<- <-]|[_ Hk]]; [cbn in Hw; congruence|eauto].
  - (* OSpawn *) destruct code; try discriminate Eb. destruct HP as [Hup HP]. injection E as <- <-. eexists. split; [|apply HP].
    destruct HI as (Df & X & HG & HL & HU & HT & HS).
    assert (Hc : c ∈ owned l) by (unfold owned; rewrite Hup; apply elem_of_app; right; constructor).
    assert (Hcut : owned l = owned (AL (a_wt l) None (a_st l)) ++ [c]) by (unfold owned; rewrite Hup; cbn; rewrite app_nil_r; reflexivity).
    assert (HpE : pendings (w_spawn w ++ [TWaitMessages c]) = pendings (w_spawn w) ++ [c]) by (rewrite pendings_app; reflexivity).
    exists Df, X. split; [|split; [|split; [|split]]].
    + destruct HG. constructor; auto.
    + apply lok_insert; [intros t' k Hk; destruct (HL t' k Hk); constructor; auto|]. destruct (HL t l Ht) as [L1 L2]. constructor; cbn; auto.
    + destruct HU as [U1 U2 U3 U4 U5 U6].
      pose proof (U2 t l Ht) as Hnd. rewrite Hcut in Hnd. apply NoDup_app in Hnd as (Hnd1 & Hnd2 & _).
      assert (Hback : forall (t' : tid) k c', <[t := AL (a_wt l) None (a_st l)]> Ls !! t' = Some k -> c' ∈ owned k -> c' <> c /\ exists k', Ls !! t' = Some k' /\ c' ∈ owned k').
      { intros t' k c' Hk Hc'. apply lookup_insert_Some in Hk as [[<- <-]|[Hne Hk]].
        - split; [intros ->; apply (Hnd2 c Hc'); constructor|]. exists l. split; [exact Ht|]. rewrite Hcut. apply elem_of_app. auto.
        - split; [|eauto]. intros ->. apply Hne. eapply U1; eassumption. }
      constructor; cbn; rewrite ?HpE.
      * intros t1 t2 l1 l2 c' H1 H2 J1 J2. destruct (Hback _ _ _ H1 J1) as (_ & k1 & ? & ?). destruct (Hback _ _ _ H2 J2) as (_ & k2 & ? & ?). eapply U1; eassumption.
      * intros t' k Hk. apply lookup_insert_Some in Hk as [[<- <-]|[_ Hk]]; eauto.
      * intros t' k c' H1 J1. destruct (Hback _ _ _ H1 J1) as (N & k1 & ? & ?). rewrite elem_of_app, elem_of_list_singleton. intros [H'|H']; [eapply U3; eassumption|contradiction].
      * apply NoDup_app. split; [exact U4|]. split; [|apply NoDup_singleton]. intros x Hx Hx'. apply elem_of_list_singleton in Hx'. subst x. eapply U3; eassumption.
      * intros t' k c' H1 J1. destruct (Hback _ _ _ H1 J1) as (N & k1 & ? & ?). eauto.
      * intros c' H'. apply elem_of_app in H' as [H'|H']; [auto|]. apply elem_of_list_singleton in H'. subst c'. eauto.
    + eapply toks_same; [exact HT|exact Ht|reflexivity].
    + unfold since in *. destruct base as [[[c0 D0] g0]|]; [|exact Logic.I]. destruct HS as [S1 S2 S3 (E' & HE & S4)].
      constructor; cbn; rewrite ?HpE; auto.
      * rewrite elem_of_app, elem_of_list_singleton. intros [H'|H']; [contradiction|]. apply (S3 t l Ht). congruence.
      * intros t' k Hk. apply lookup_insert_Some in Hk as [[<- <-]|[_ Hk]]; [discriminate|eauto].
      * exists E'. split; [exact HE|]. destruct E'; [|exact S4]. intros t' k ph Hk Hw. apply lookup_insert_Some in Hk as [[<- <-]|[_ Hk]]; [cbn in Hw|]; eauto.
  - (* OLog *) destruct e; try discriminate Eb; [contradiction|]. destruct HP as (g & Hwt & HP). injection E as <- <-. eexists. split; [|apply HP].
    destruct HI as (Df & X & HG & HL & HU & HT & HS). destruct (HL t l Ht) as [L1 L2]. destruct (L1 c _ Hwt) as (Hg & Hd & i & Hi & Hb & Hd').
    set (Df' := fun c' => if decide (c' = c) then Df c ++ [(g, i)] else Df c').
    assert (Hc : c ∈ owned l) by (unfold owned; rewrite Hwt; constructor).
    exists Df', X. split; [|split; [|split; [|split]]].
    + pose proof HG as [I1 I2 I3 I4 I5 I6]. constructor; cbn; auto. intros c'. unfold Df'. destruct (decide (c' = c)) as [->|Hne].
      * rewrite decide_True by reflexivity. apply good_snoc; auto.
      * rewrite decide_False by congruence. apply I5.
    + intros t' k Hk. apply lookup_insert_Some in Hk as [[<- <-]|[Hne Hk]].
      * constructor; cbn; auto. intros c' ph [= <- <-]. exact Logic.I.
      * destruct (HL t' k Hk) as [K1 K2]. constructor; auto. intros c' ph Hc'. unfold Df'. rewrite decide_False; [apply K1, Hc'|].
        intros ->. apply Hne. eapply (uq_one _ _ HU); [exact Ht|exact Hk|exact Hc|]. unfold owned. rewrite Hc'. constructor.
    + eapply uniq_same; [exact HU|exact Ht| |reflexivity|auto]. unfold owned. cbn. rewrite Hwt. reflexivity.
    + eapply toks_same; [exact HT|exact Ht|reflexivity].
    + unfold since in *. destruct base as [[[c0 D0] g0]|]; [|exact Logic.I]. destruct HS as [S1 S2 S3 (E' & HE & S4)].
      constructor; auto.
      * intros t' k Hk. apply lookup_insert_Some in Hk as [[<- <-]|[_ Hk]]; [|eauto]. cbn. eauto.
      * unfold Df'. case_decide as Ec; [|exists E'; split; [exact HE|]; destruct E'; [|exact S4]].
        -- subst c0. exists (E' ++ [(g, i)]). rewrite HE, <- app_assoc. split; [reflexivity|]. destruct E' as [|e E']; [|exact S4]. cbn. exact (S4 t l _ Ht Hwt).
        -- intros t' k ph Hk Hw. apply lookup_insert_Some in Hk as [[<- <-]|[_ Hk]]; [cbn in Hw; congruence|eauto].
Qed.

Lemma inv_new (t : tid) w Ls : Inv w Ls -> Ls !! t = None -> Inv w (<[t := al0]> Ls).
Proof.
  intros (Df & X & HG & HL & [U1 U2 U3 U4 U5 U6] & [T1 T2 T3] & HS) Ht.
  assert (Hback : forall (t' : tid) k, <[t := al0]> Ls !! t' = Some k -> k = al0 \/ Ls !! t' = Some k).
  { intros t' k H. apply lookup_insert_Some in H as [[_ <-]|[_ H]]; auto. }
  assert (Ho : forall c, c ∉ owned al0) by (intros c H; inversion H). assert (Hk : forall i, i ∉ toks al0) by (intros i H; inversion H).
  exists Df, X. split; [exact HG|split; [|split; [|split]]].
  - apply lok_insert; [exact HL|]. constructor; [discriminate|]. intros g H. inversion H.
  - constructor; auto.
    + intros t1 t2 l1 l2 c H1 H2 J1 J2. destruct (Hback _ _ H1) as [->|K1]; [destruct (Ho c J1)|]. destruct (Hback _ _ H2) as [->|K2]; [destruct (Ho c J2)|]. eauto.
    + intros t1 l1 H1. destruct (Hback _ _ H1) as [->|K1]; [constructor|eauto].
    + intros t1 l1 c H1 J1. destruct (Hback _ _ H1) as [->|K1]; [destruct (Ho c J1)|eauto].
    + intros t1 l1 c H1 J1. destruct (Hback _ _ H1) as [->|K1]; [destruct (Ho c J1)|eauto].
  - constructor.
    + intros t1 t2 l1 l2 c H1 H2 J1 J2. destruct (Hback _ _ H1) as [->|K1]; [destruct (Hk c J1)|]. destruct (Hback _ _ H2) as [->|K2]; [destruct (Hk c J2)|]. eauto.
    + intros t1 l1 H1. destruct (Hback _ _ H1) as [->|K1]; [constructor|eauto].
    + intros t1 l1 c H1 J1. destruct (Hback _ _ H1) as [->|K1]; [destruct (Hk c J1)|eauto].
  - unfold since in *. destruct base as [[[c0 D0] g0]|]; [|exact Logic.I]. destruct HS as [S1 S2 S3 (E' & HE & S4)]. constructor; auto.
    + intros t1 l1 H1. destruct (Hback _ _ H1) as [->|K1]; [discriminate|eauto].
    + exists E'. split; [exact HE|]. destruct E'; [|exact S4]. intros t1 l1 ph H1 Hw. destruct (Hback _ _ H1) as [->|K1]; [discriminate|eauto].
Qed.
Lemma inv_end (t : tid) w Ls : Inv w Ls -> Inv w (delete t Ls).
Proof.
  intros (Df & X & HG & HL & [U1 U2 U3 U4 U5 U6] & [T1 T2 T3] & HS).
  assert (Hback : forall (t' : tid) k, delete t Ls !! t' = Some k -> Ls !! t' = Some k).
  { intros t' k H. apply lookup_delete_Some in H as [_ H]. exact H. }
  exists Df, X. split; [exact HG|split; [|split; [|split]]].
  - eauto.
  - constructor; eauto.
  - constructor; eauto.
  - unfold since in *. destruct base as [[[c0 D0] g0]|]; [|exact Logic.I]. destruct HS as [S1 S2 S3 (E' & HE & S4)]. constructor; eauto.
    exists E'. split; [exact HE|]. destruct E'; [|exact S4]. eauto.
Qed.
Lemma inv_serve (t : tid) w Ls c rest : Inv w Ls -> w_spawn w = TWaitMessages c :: rest -> Ls !! t = None ->
  Inv (w <| w_spawn := rest |>) (<[t := AL (Some (c, Fresh)) None []]> Ls).
Proof.
  intros (Df & X & HG & HL & [U1 U2 U3 U4 U5 U6] & [T1 T2 T3] & HS) Hsp Ht.
  rewrite Hsp in U3, U4, U6. change (pendings (TWaitMessages c :: rest)) with (c :: pendings rest) in U3, U4, U6.
  apply NoDup_cons in U4 as [Hnd U4].
  assert (Hback : forall (t' : tid) k, <[t := AL (Some (c, Fresh)) None []]> Ls !! t' = Some k -> (t' = t /\ k = AL (Some (c, Fresh)) None []) \/ Ls !! t' = Some k).
  { intros t' k H. apply lookup_insert_Some in H as [[<- <-]|[_ H]]; auto. }
  assert (Hown : forall (t' : tid) k c', <[t := AL (Some (c, Fresh)) None []]> Ls !! t' = Some k -> c' ∈ owned k -> (t' = t /\ c' = c) \/ (Ls !! t' = Some k /\ c' <> c /\ c' ∉ pendings rest)).
  { intros t' k c' H Hc. destruct (Hback _ _ H) as [[-> ->]|Hk]; [left; apply elem_of_list_singleton in Hc; auto|right].
    split; [exact Hk|]. specialize (U3 t' k c' Hk Hc). rewrite elem_of_cons in U3. tauto. }
  assert (Hk : forall i, i ∉ toks (AL (Some (c, Fresh)) None [])) by (intros i H; inversion H).
  exists Df, X. split; [|split; [|split; [|split]]].
  - destruct HG. constructor; auto.
  - apply lok_insert; [intros t' k Hk'; destruct (HL t' k Hk'); constructor; auto|]. constructor; [intros c' ph [= <- <-]; exact Logic.I|]. intros g H. inversion H.
  - constructor; cbn; auto.
    + intros t1 t2 l1 l2 c' H1 H2 J1 J2. destruct (Hown _ _ _ H1 J1) as [[-> ->]|(K1 & N1 & _)]; destruct (Hown _ _ _ H2 J2) as [[-> ?]|(K2 & N2 & _)]; try congruence. eapply U1; eassumption.
    + intros t1 l1 H1. destruct (Hback _ _ H1) as [[-> ->]|K1]; [apply NoDup_singleton|eauto].
    + intros t1 l1 c' H1 J1. destruct (Hown _ _ _ H1 J1) as [[-> ->]|(K1 & N1 & ?)]; assumption.
    + intros t1 l1 c' H1 J1. destruct (Hown _ _ _ H1 J1) as [[-> ->]|(K1 & N1 & ?)]; [apply U6; constructor|eauto].
    + intros c' Hc'. apply U6. constructor. exact Hc'.
  - cbn. constructor.
    + intros t1 t2 l1 l2 i H1 H2 J1 J2. destruct (Hback _ _ H1) as [[_ ->]|K1]; [destruct (Hk i J1)|]. destruct (Hback _ _ H2) as [[_ ->]|K2]; [destruct (Hk i J2)|]. eauto.
    + intros t1 l1 H1. destruct (Hback _ _ H1) as [[_ ->]|K1]; [constructor|eauto].
    + intros t1 l1 i H1 J1. destruct (Hback _ _ H1) as [[_ ->]|K1]; [destruct (Hk i J1)|eauto].
  - unfold since in *. destruct base as [[[c0 D0] g0]|]; [|exact Logic.I]. destruct HS as [S1 S2 S3 (E' & HE & S4)].
    rewrite Hsp in S2. change (pendings (TWaitMessages c :: rest)) with (c :: pendings rest) in S2. rewrite elem_of_cons in S2. constructor; cbn; auto.
    + intros t1 l1 H1. destruct (Hback _ _ H1) as [[_ ->]|K1]; [discriminate|eauto].
    + exists E'. split; [exact HE|]. destruct E'; [|exact S4]. intros t1 l1 ph H1 Hw. destruct (Hback _ _ H1) as [[_ ->]|K1]; [|eauto].
      cbn in Hw. injection Hw as <- <-. tauto.
Qed.

Lemma async_respects : respects AS G Inv.
Proof.
  constructor.
  - intros t w Ls l o P HI Ht HP. pose proof (async_op t w Ls l o P HI Ht HP) as H. destruct (ostep t w o); auto.
  - intros t w Ls l a HI Ht _ _. exists l. rewrite insert_id by exact Ht. split; [exact HI|].
    apply (impl_kp arules a_gates); auto using a_ask, a_reply, a_message, a_ack, a_waitm, a_broadcast, a_srvask. destruct a; cbn; auto; destruct n; auto.
  - intros t l Hs. apply (code_kp arules a_gates); auto using a_ask, a_reply, a_message, a_ack, a_waitm, a_broadcast, a_srvask, a_server, a_upgrade, a_dial.
    + cbn. intros l1 ->. auto.
    + intros c ch l1 Hl1. cbn in Hl1. subst l1. unfold read_next. cbn. intros [e|[typ b]]; cbn; auto.
    + intros; exact Logic.I.
    + intros c l1 l2 H <-. exact H.
    + intros c l1 l2 H <-. exact H.
  - intros t w Ls l HI Ht Hl. apply inv_end, HI.
  - intros t w Ls x rest HI Hsp Ht. assert (Hother : match x with TWaitMessages _ => False | _ => True end -> exists l, astart x l /\ Inv (w <| w_spawn := rest |>) (<[t := l]> Ls)).
    { intros Hx. exists al0. split; [destruct x; try contradiction; reflexivity|]. apply inv_new; [|exact Ht]. eapply inv_calm; [exact HI|].
      constructor; cbn; auto. rewrite Hsp. destruct x; try contradiction; reflexivity. }
    destruct x; try (apply Hother; exact Logic.I). eexists. split; [reflexivity|]. apply inv_serve; assumption.
  - intros t w Ls x HI Hx Ht. exists al0. split; [destruct x; try discriminate; reflexivity|]. apply inv_new; assumption.
  - intros w Ls e HI _. eapply inv_calm; [exact HI|apply env_calm].
Qed.
End async.

Lemma async_start : exists l, ls_start AS TServer l /\ Inv None world0 {[0 := l]}.
Proof.
  exists al0. split; [reflexivity|]. exists (fun _ => []), ∅. split; [|split; [|split; [|split]]].
  - constructor; cbn; auto; try (intros; set_solver).
    + intros b m H. destruct b; discriminate.
    + intros c. constructor; [constructor|intros ? ? ? ? ? H; rewrite lookup_nil in H; discriminate|intros ? ? ? ? ? H; rewrite lookup_nil in H; discriminate|intros d H; inversion H].
  - intros t l H. apply lookup_singleton_Some in H as [_ <-]. constructor; [discriminate|]. intros g H. inversion H.
  - constructor.
    + intros t1 t2 l1 l2 c H1 H2. apply lookup_singleton_Some in H1 as [<- _]. apply lookup_singleton_Some in H2 as [<- _]. auto.
    + intros t l H. apply lookup_singleton_Some in H as [_ <-]. constructor.
    + intros t l c H Hc. apply lookup_singleton_Some in H as [_ <-]. inversion Hc.
    + constructor.
    + intros t l c H Hc. apply lookup_singleton_Some in H as [_ <-]. inversion Hc.
    + intros c Hc. inversion Hc.
  - constructor.
    + intros t1 t2 l1 l2 c H1 H2. apply lookup_singleton_Some in H1 as [<- _]. apply lookup_singleton_Some in H2 as [<- _]. auto.
    + intros t l H. apply lookup_singleton_Some in H as [_ <-]. constructor.
    + intros t l c H Hc. apply lookup_singleton_Some in H as [_ <-]. inversion Hc.
  - exact Logic.I.
Qed.
Lemma async_reachable G s : user_app (fun _ => True) G -> g_sync G = false -> reachable G s -> holds AS (Inv None) s.
Proof. intros A H Hr. exact (reachable_holds AS amono G (Inv None) (async_respects G None A H) s async_start Hr). Qed.
