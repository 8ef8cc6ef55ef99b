(** * AsyncProofs.v : the asynchronous broadcaster (C33). *)
From Coq Require Import ZArith.
From stdpp Require Import gmap strings list relations.
From RecordUpdate Require Import RecordUpdate.
From Verif Require Import Go Errors Message World Lang Code Sem Logic Spec_App Frame Spec_Async Async History.
From Verif Require Import Spec_View Examples Scenes.

Lemma increasing_length (D : list (nat * nat)) n :
  (forall j k d e, j < k -> D !! j = Some d -> D !! k = Some e -> fst d < fst e) -> (forall d, d ∈ D -> fst d < n) -> length D <= n.
Proof.
  intros H1 H2. assert (Hk : forall k d, D !! k = Some d -> k <= fst d).
  { induction k as [|k IH]; intros d Hd; [lia|]. destruct (D !! k) as [e|] eqn:E; [|apply lookup_ge_None in E; apply lookup_lt_Some in Hd; lia].
    specialize (IH e eq_refl). specialize (H1 k (S k) e d ltac:(lia) E Hd). lia. }
  destruct D as [|d0 D0] eqn:ED using rev_ind; [cbn; lia|]. rewrite app_length. cbn. specialize (Hk (length D0) d0).
  rewrite list_lookup_middle in Hk by reflexivity. specialize (Hk eq_refl). specialize (H2 d0). rewrite elem_of_app, elem_of_list_singleton in H2. specialize (H2 (or_intror eq_refl)). lia.
Qed.
Lemma good_order b g D r : good b g D r -> in_order r b.
Proof.
  intros [H1 H2 H3 H4]. exists (snd <$> D). split.
  - intros j k i i' Hjk Hi Hi'. rewrite list_lookup_fmap in Hi, Hi'. destruct (D !! j) as [d|] eqn:Ed; [|discriminate]. destruct (D !! k) as [e|] eqn:Ee; [|discriminate].
    injection Hi as <-. injection Hi' as <-. eauto.
  - apply Forall2_fmap_l. exact H1.
Qed.
Lemma pick_some {X} w (l : list X) : l <> [] -> exists x, pick w l = Some x.
Proof.
  intros H. unfold pick. destruct (nth_error l (seed w mod length l)) as [x|] eqn:E; [eauto|]. exfalso. apply nth_error_None in E.
  destruct l as [|y l]; [contradiction|]. pose proof (Nat.mod_upper_bound (seed w) (length (y :: l)) ltac:(discriminate)). lia.
Qed.
Lemma waiting_label (s : sys) c b : holds AS (Inv b) s -> waits_for_broadcast s c ->
  exists Ls (t : tid) l g, Inv b (s_w s) Ls /\ Ls !! t = Some l /\ a_wt l = Some (c, Waiting g) /\ g ∉ b_closed (w_srv (s_w s)).
Proof.
  intros (_ & Ls & HI & _ & _ & Hok) (t & g & k & Ht & Hb). destruct (Hok t _ Ht) as (l & Hl & Hp).
  exists Ls, t, l, g. split; [exact HI|]. split; [exact Hl|]. cbn [ok] in Hp. destruct Hp as [Hw _]. split; [exact Hw|].
  intros Hc. cbn [ostep] in Hb. rewrite bool_decide_true in Hb by exact Hc.
  match type of Hb with match pick ?w ?l with _ => _ end = _ => destruct (pick_some w l ltac:(discriminate)) as [x Hx]; rewrite Hx in Hb; discriminate end.
Qed.
Lemma settled_gen w Df X l c g : GInv w Df X -> LOK w Df l -> a_wt l = Some (c, Waiting g) -> g ∉ b_closed (w_srv w) ->
  size (b_closed (w_srv w)) = length (sent_in (w_log w)) -> g = length (sent_in (w_log w)).
Proof.
  intros HG [HL _] Hw Hg Hs. destruct (HL c _ Hw) as [Hle _]. pose proof (ginv_le _ _ _ HG) as Hgl. pose proof (gi_closed _ _ _ HG) as Hc.
  pose proof (size_below _ _ Hc) as H1. destruct (decide (g < b_gen (w_srv w))) as [H|H]; [|lia].
  assert (H2 : size ({[g]} ∪ b_closed (w_srv w)) <= b_gen (w_srv w)).
  { apply size_below. intros i. rewrite elem_of_union, elem_of_singleton. intros [->|Hi]; auto. }
  rewrite size_union, size_singleton in H2 by set_solver. lia.
Qed.
Lemma got_in_app c l2 l1 : exists r, got_in c (l2 ++ l1) = got_in c l1 ++ r.
Proof.
  induction l2 as [|e l2 [r IH]]; [exists []; rewrite app_nil_r; reflexivity|]. cbn [app]. destruct e; cbn [got_in]; eauto.
  case_decide; [|eauto]. exists (r ++ [msgs]). rewrite IH, app_assoc. reflexivity.
Qed.

(*@file Prop_Async.v
From Coq Require Import ZArith.
From stdpp Require Import gmap strings list relations.
From Verif Require Import Go Errors Message World Lang Code Sem Spec_App Spec_Async Examples AsyncProofs. @*)
(*@prop C33.  In every schedule of any application with an asynchronous broadcaster: what a connection has received so far
    are broadcast batches, in the order of the broadcasts (batches may be missing or repeated), and not more of them than
    were broadcast. @*)
Lemma l_C33_order : forall G s c, user_app (fun _ => True) G -> g_sync G = false -> reachable G s ->
  in_order (got_batches c s) (sent s) /\ length (got_batches c s) <= length (sent s).
Proof.
  intros G s c A Hs Hr. destruct (async_reachable G s A Hs Hr) as (_ & Ls & (Df & X & HG & _) & _). pose proof (gi_df _ _ _ HG c) as Hd.
  split; [eapply good_order, Hd|]. destruct Hd as [H1 H2 _ H4]. unfold got_batches. rewrite <- (Forall2_length _ _ _ H1).
  etransitivity; [apply (increasing_length _ (b_gen (w_srv (s_w s)))); [exact H2|intros d Hd; apply H4, Hd]|]. eapply ginv_le, HG.
Qed.
(*@prop C33.  A batch is received only after it was broadcast. @*)
Lemma l_C33_origin : forall G s c m l2 l1, user_app (fun _ => True) G -> g_sync G = false -> reachable G s ->
  w_log (s_w s) = l2 ++ LBatch c m :: l1 -> m ∈ sent_in l1.
Proof.
  intros G s c m l2 l1 A Hs Hr El. destruct (recorded G s l2 _ l1 Hr El) as (s1 & s2 & t & o & k & H1 & H2 & _ & _ & E2 & _).
  assert (Hr2 : reachable G s2) by (eapply rtc_r; eassumption).
  destruct (l_C33_order G s2 c A Hs Hr2) as [(at_ & _ & HF) _]. unfold got_batches, sent in HF. rewrite E2 in HF. cbn [got_in sent_in] in HF.
  rewrite decide_True in HF by reflexivity. apply Forall2_app_inv_r in HF as (a1 & a2 & _ & HF & _). inversion HF as [|i x a b Hi _]; subst.
  eapply elem_of_list_lookup_2, Hi.
Qed.
(*@prop C33.  A connection that waits for a broadcast while none is under way, and that waits again later, when again none
    is under way, has in the meantime received some of the batches broadcast in between, in order, not more than were
    broadcast, and at least one if there was any. @*)
Lemma l_C33_served : forall G s s' c new, user_app (fun _ => True) G -> g_sync G = false -> reachable G s ->
  settled s -> waits_for_broadcast s c -> steps G s s' -> settled s' -> waits_for_broadcast s' c ->
  sent s' = sent s ++ new ->
  exists r, got_batches c s' = got_batches c s ++ r /\ in_order r new /\ length r <= length new /\ (new <> [] -> r <> []).
Proof.
  intros G s s' c new A Hs Hr Hset Hw Hst Hset' Hw' Hsent.
  pose proof (async_reachable G s A Hs Hr) as HH.
  destruct Hw as (t & g & k & Ht & Hb).
  assert (Hsel : g ∉ b_closed (w_srv (s_w s))).
  { intros Hc. cbn [ostep] in Hb. rewrite bool_decide_true in Hb by exact Hc.
    match type of Hb with match pick ?w ?l with _ => _ end = _ => destruct (pick_some w l ltac:(discriminate)) as [x Hx]; rewrite Hx in Hb; discriminate end. }
  destruct HH as (Hcr & Ls & HI & Hn & Hd & Hok). destruct (Hok t _ Ht) as (l & Hl & Hp). cbn [ok] in Hp. destruct Hp as [Hwt _].
  destruct HI as (Df & X & HG & HL & HU & HT & _).
  pose proof (settled_gen _ _ _ _ _ _ HG (HL t l Hl) Hwt Hsel Hset) as Hg.
  assert (Hown : c ∈ owned l) by (unfold owned; rewrite Hwt; constructor).
  set (b := Some (c, Df c, g)).
  assert (HH' : holds AS (Inv b) s).
  { split; [exact Hcr|]. exists Ls. split; [|auto]. exists Df, X. split; [exact HG|]. split; [exact HL|]. split; [exact HU|]. split; [exact HT|].
    constructor.
    - eapply (uq_dom _ _ HU); eassumption.
    - eapply (uq_pend _ _ HU); eassumption.
    - intros t' l' Ht' Hup. assert (Hc' : c ∈ owned l') by (unfold owned; rewrite Hup; apply elem_of_app; right; constructor).
      assert (t' = t) as -> by (eapply (uq_one _ _ HU); eassumption). pose proof (eq_trans (eq_sym Ht') Hl) as E. injection E as ->.
      pose proof (uq_dup _ _ HU t l Hl) as Hnd. unfold owned in Hnd. rewrite Hwt, Hup in Hnd. apply NoDup_cons in Hnd as [Hnd _]. apply Hnd. constructor.
    - exists []. rewrite app_nil_r. split; [reflexivity|]. intros t' l' ph Ht' Hph.
      assert (Hc' : c ∈ owned l') by (unfold owned; rewrite Hph; constructor).
      assert (t' = t) as -> by (eapply (uq_one _ _ HU); eassumption). pose proof (eq_trans (eq_sym Ht') Hl) as E. injection E as ->.
      rewrite Hwt in Hph. injection Hph as <-. reflexivity. }
  pose proof (steps_holds AS amono G (Inv b) (async_respects G b A Hs) s s' HH' Hst) as HH2.
  destruct (waiting_label s' c b HH2 Hw') as (Ls' & t' & l' & g' & (Df' & X' & HG' & HL' & HU' & HT' & HS') & Hl' & Hwt' & Hsel').
  pose proof (settled_gen _ _ _ _ _ _ HG' (HL' t' l' Hl') Hwt' Hsel' Hset') as Hg'.
  destruct HS' as [_ _ _ (E & HE & HS')]. destruct (lk_wt _ _ _ (HL' t' l' Hl') c _ Hwt') as [_ Hlt].
  destruct (steps_log _ _ _ Hst) as [l2 El]. destruct (got_in_app c l2 (w_log (s_w s))) as [r Hr'].
  assert (Hrec : got_batches c s' = got_batches c s ++ r) by (unfold got_batches; rewrite El; exact Hr').
  exists r. split; [exact Hrec|].
  pose proof (gi_df _ _ _ HG' c) as [G1 G2 G3 G4]. pose proof (gi_df _ _ _ HG c) as [F1 _ _ _].
  fold (got_batches c s') in G1. fold (sent s') in G1. fold (got_batches c s) in F1. rewrite Hrec, HE in G1.
  apply Forall2_app_inv in G1 as [_ G1]; [|apply (Forall2_length _ _ _ F1)].
  fold (sent s) in Hg. fold (sent s') in Hg'. rewrite Hsent, app_length in Hg'.
  assert (Hge : forall j e, E !! j = Some e -> g + j <= fst e).
  { assert (Hj0 : forall e, E !! 0 = Some e -> fst e = g) by (intros e He; destruct E; [discriminate|injection He as ->; exact HS']).
    induction j as [|j IH]; intros e He; [specialize (Hj0 e He); lia|].
    destruct (E !! j) as [d|] eqn:Ed; [|apply lookup_ge_None in Ed; apply lookup_lt_Some in He; lia].
    specialize (IH d eq_refl). assert (fst d < fst e); [|lia].
    apply (G2 (length (Df c) + j) (length (Df c) + S j)); [lia|rewrite HE, lookup_app_r by lia; replace (length (Df c) + j - length (Df c)) with j by lia; exact Ed|].
    rewrite HE, lookup_app_r by lia. replace (length (Df c) + S j - length (Df c)) with (S j) by lia. exact He. }
  assert (HinE : forall j e, E !! j = Some e -> e ∈ Df' c) by (intros j e He; rewrite HE; apply elem_of_app; right; eapply elem_of_list_lookup_2, He).
  split; [|split].
  - exists ((fun e => snd e - g) <$> E). split.
    + intros j j' i i' Hj Hi Hi'. rewrite list_lookup_fmap in Hi, Hi'. destruct (E !! j) as [d|] eqn:Ed; [|discriminate]. destruct (E !! j') as [e|] eqn:Ee; [|discriminate].
      injection Hi as <-. injection Hi' as <-. assert (snd d <= snd e); [|lia].
      apply (G3 (length (Df c) + j) (length (Df c) + j')); [lia|rewrite HE, lookup_app_r by lia; replace (length (Df c) + j - length (Df c)) with j by lia; exact Ed|].
      rewrite HE, lookup_app_r by lia. replace (length (Df c) + j' - length (Df c)) with j' by lia. exact Ee.
    + apply Forall2_fmap_l. apply Forall2_same_length_lookup. split; [apply (Forall2_length _ _ _ G1)|].
      intros j e x He Hx. pose proof (Forall2_lookup_lr _ _ _ _ _ _ G1 He Hx) as Hb'. cbn beta in Hb'.
      destruct (G4 e (HinE _ _ He)) as [Hes _]. specialize (Hge _ _ He). rewrite Hsent, lookup_app_r in Hb' by lia.
      cbn. rewrite Hg. exact Hb'.
  - rewrite <- (Forall2_length _ _ _ G1). destruct E as [|e0 E0] eqn:EE using rev_ind; [cbn; lia|]. clear IHE0.
    rewrite app_length. cbn. assert (He : (E0 ++ [e0]) !! length E0 = Some e0) by (apply list_lookup_middle; reflexivity).
    pose proof (Hge _ _ He). pose proof (Hlt _ (HinE _ _ He)). lia.
  - intros Hnew ->. apply Forall2_nil_inv_r in G1. subst E. pose proof (HS' t' l' _ Hl' Hwt') as Hx. cbn in Hx. destruct new; [contradiction|]. cbn in Hg'. lia.
Qed.
(*@prop C33.  In particular, a connection that waits when a broadcast starts and waits again when it is over, with no other
    broadcast in between, receives the batch exactly once. @*)
Lemma l_C33_once : forall G s s' c m, user_app (fun _ => True) G -> g_sync G = false -> reachable G s ->
  settled s -> waits_for_broadcast s c -> steps G s s' -> settled s' -> waits_for_broadcast s' c ->
  sent s' = sent s ++ [m] -> got_batches c s' = got_batches c s ++ [m].
Proof.
  intros G s s' c m A Hs Hr H1 H2 H3 H4 H5 H6. destruct (l_C33_served G s s' c [m] A Hs Hr H1 H2 H3 H4 H5 H6) as (r & -> & (at_ & _ & HF) & Hl & Hne).
  specialize (Hne ltac:(discriminate)). destruct r as [|x [|y r]]; [contradiction| |cbn in Hl; lia].
  inversion HF as [|i ? a ? Hi _]; subst. apply list_lookup_singleton_Some in Hi as [_ <-]. reflexivity.
Qed.

(** ** A server with an asynchronous broadcaster *)
Definition news (k : nat) : message :=
  set_body (if Nat.eqb k 0 then "one" else "two") (set_event "news" (set_namespace "chat" no_message)).
Definition asyncG : cfg := {|
  g_client := fun _ => false;
  g_namespaces := fun _ => lift exA;
  g_connid := fun _ => "ann";
  g_uuid := "u";
  g_ptr := fun c => "0x1";
  g_known := knownErrors0;
  g_exch := None;
  g_sync := false;
  g_firealways := false;
  g_onconnect := None;
  g_ondisconnect := None;
  g_do := fun _ _ => Ret tt;
  g_user := fun k => call (ABroadcast None [news k]) |}.
Lemma asyncG_app : user_app (fun _ => True) asyncG.
Proof.
  constructor; try discriminate; try (intros; exact Logic.I).
  - intros. eapply exA_user; eassumption.
  - intros k; cbn; auto.
Qed.
(** Connection 1 is accepted and joined chat.  Goroutine 2 serves broadcasts to
    it, 3 is its reader; 4 and 5 are about to broadcast "one" and "two". *)
Definition asyncS : sys := play asyncG
  [Go 0; Act1 (Env (EGo (TUpgrade 1))); Go 1; Act1 Start; Act1 Start; Go 0; Go 2; Go 3; Go 1;
   Act1 (Env (EDeliver 1 TextMessage "M"));
   Act1 (Env (EDeliver 1 TextMessage "$1;chat;;_OnNamespaceConnect;0;0;")); Go 3;
   Act1 (Env (EGo (TUser 0))); Act1 (Env (EGo (TUser 1)))] (init asyncG).
Definition some_of (t : tid) (n : nat) : list cmd := repeat (Act1 (Step t)) n.
Definition onceS : sys := play asyncG [Go 4; Go 2] asyncS.
(** Both set their batch before the first of them signals. *)
Definition twiceS : sys := play asyncG (some_of 4 4 ++ some_of 5 4 ++ [Go 4; Go 2; Go 5; Go 2]) asyncS.
(** The second broadcasts while the connection is served the first batch. *)
Definition lostS : sys := play asyncG ([Go 4] ++ some_of 2 12 ++ [Go 5; Go 2]) asyncS.

Definition waits_b (s : sys) (t : tid) (c : cid) : bool :=
  match s_th s !! t with
  | Some (Do (OBSelect g c') _) => Nat.eqb c' c && match ostep t (s_w s) (OBSelect g c') with Blocked => true | _ => false end
  | _ => false
  end.
Lemma waits_b_ok s t c : waits_b s t c = true -> waits_for_broadcast s c.
Proof.
  unfold waits_b, waits_for_broadcast. intros H. exists t. destruct (s_th s !! t) as [p|]; [|discriminate H].
  destruct p as [r|o k|a k|why]; try discriminate H. destruct o; try discriminate H. apply andb_prop in H as [E H]. apply Nat.eqb_eq in E. subst.
  eexists _, _. split; [reflexivity|]. destruct (ostep t (s_w s) _); try discriminate H. reflexivity.
Qed.
Lemma asyncS_reachable : reachable asyncG asyncS.
Proof. apply play_reachable. Qed.
Lemma onceS_steps : steps asyncG asyncS onceS.
Proof. apply play_steps. Qed.
Lemma twiceS_steps : steps asyncG asyncS twiceS.
Proof. apply play_steps. Qed.
Lemma lostS_steps : steps asyncG asyncS lostS.
Proof. apply play_steps. Qed.
#[local] Opaque asyncG asyncS onceS twiceS lostS.

(*@prop C33.  Not every batch is received, and a batch may be received twice, although the connection is there all the
    time: it waits for a broadcast before the two broadcasts and after them, when both are over.  In the one run it has received
    only the first batch, in the other the second one twice. @*)
Lemma l_C33_refuted : exists G s c one two, one <> two /\
  user_app (fun _ => True) G /\ g_sync G = false /\ reachable G s /\ settled s /\ waits_for_broadcast s c /\
  (exists s', steps G s s' /\ settled s' /\ waits_for_broadcast s' c /\ sent s' = sent s ++ [[one]; [two]] /\ got_batches c s' = got_batches c s ++ [[one]]) /\
  (exists s', steps G s s' /\ settled s' /\ waits_for_broadcast s' c /\ sent s' = sent s ++ [[one]; [two]] /\ got_batches c s' = got_batches c s ++ [[two]; [two]]).
Proof.
  exists asyncG, asyncS, 1, (news 0), (news 1). split; [discriminate|]. split; [apply asyncG_app|]. split; [reflexivity|]. split; [apply asyncS_reachable|].
  split; [vm_compute; reflexivity|]. split; [apply (waits_b_ok _ 2); vm_compute; reflexivity|].
  split.
  - exists lostS. split; [apply lostS_steps|]. split; [vm_compute; reflexivity|]. split; [apply (waits_b_ok _ 2); vm_compute; reflexivity|].
    split; vm_compute; reflexivity.
  - exists twiceS. split; [apply twiceS_steps|]. split; [vm_compute; reflexivity|]. split; [apply (waits_b_ok _ 2); vm_compute; reflexivity|].
    split; vm_compute; reflexivity.
Qed.
(*@exl C33. An accepted connection waits, a batch is broadcast, the connection is served it and waits again. @*)
Lemma x_C33_example :
  user_app (fun _ => True) asyncG /\ g_sync asyncG = false /\ reachable asyncG asyncS /\ settled asyncS /\ waits_for_broadcast asyncS 1 /\
  steps asyncG asyncS onceS /\ settled onceS /\ waits_for_broadcast onceS 1 /\ sent onceS = sent asyncS ++ [[news 0]] /\
  got_batches 1 onceS = [[news 0]].
Proof.
  split; [apply asyncG_app|]. split; [reflexivity|]. split; [apply asyncS_reachable|].
  split; [vm_compute; reflexivity|]. split; [apply (waits_b_ok _ 2); vm_compute; reflexivity|].
  split; [apply onceS_steps|]; split; [vm_compute; reflexivity|]; split; [apply (waits_b_ok _ 2); vm_compute; reflexivity|].
  split; vm_compute; reflexivity.
Qed.
