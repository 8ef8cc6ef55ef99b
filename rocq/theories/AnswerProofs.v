(** * AnswerProofs.v : every schedule gives answers in the sense of Spec_Answer. *)
From Coq Require Import ZArith Lia.
From stdpp Require Import gmap strings list relations.
From RecordUpdate Require Import RecordUpdate.
From Verif Require Import Go Errors Message World Lang Code Sem ExecProofs Spec_Answer.

Lemma returns_mono G ok {A} n : forall (p : prog A) a, returns G ok n p a -> forall n', n <= n' -> returns G ok n' p a.
Proof.
  revert A. induction n as [|n IH]; intros A p a H n' Hn; [destruct H|].
  destruct n' as [|n']; [lia|]. destruct p as [b|o k|api k|why]; cbn in *; [exact H| | |exact H].
  - destruct H as (r & Hr & H). exists r. split; [exact Hr|]. apply IH; [exact H|lia].
  - destruct H as (r & Hr & H). exists r. split; (apply IH; [assumption|lia]).
Qed.

Lemma returns_bind G ok {A B} n : forall (p : prog A) (f : A -> prog B) b,
  returns G ok n (bind p f) b -> exists a, returns G ok n p a /\ returns G ok n (f a) b.
Proof.
  induction n as [|n IH]; intros p f b H; [destruct H|].
  destruct p as [a|o k|api k|why]; cbn [bind] in H.
  - exists a. split; [reflexivity|exact H].
  - destruct H as (r & Hr & H). apply IH in H as (a & H1 & H2). exists a. split; [exists r; auto|].
    eapply returns_mono; [exact H2|lia].
  - destruct H as (r & Hr & H). apply IH in H as (a & H1 & H2). exists a. split; [exists r; auto|].
    eapply returns_mono; [exact H2|lia].
  - destruct H.
Qed.

Lemma may_bind G ok {A B} (p : prog A) (f : A -> prog B) b :
  may_return G ok (bind p f) b -> exists a, may_return G ok p a /\ may_return G ok (f a) b.
Proof. intros (n & H). apply returns_bind in H as (a & H1 & H2). exists a. split; exists n; assumption. Qed.

Lemma same_refl {A} (p : prog A) : same p p.
Proof. induction p; cbn; [reflexivity|exists eq_refl|exists eq_refl|reflexivity]; auto. Qed.
Lemma same_trans {A} (p q r : prog A) : same p q -> same q r -> same p r.
Proof.
  revert q r. induction p as [a|o k IH|a k IH|why]; intros [b|o' k'|a' k'|why'] q'; cbn; try (intros []; fail).
  - intros ->. auto.
  - intros (-> & H1). destruct q' as [b2|o2 k2|a2 k2|w2]; cbn; try (intros []; fail). intros (-> & H2).
    exists eq_refl. intros r. eapply IH; [apply H1|apply H2].
  - intros (-> & H1). destruct q' as [b2|o2 k2|a2 k2|w2]; cbn; try (intros []; fail). intros (-> & H2).
    exists eq_refl. intros r. eapply IH; [apply H1|apply H2].
  - intros ->. auto.
Qed.
Lemma same_sym {A} (p q : prog A) : same p q -> same q p.
Proof.
  revert q. induction p as [a|o k IH|a k IH|why]; intros [b|o' k'|a' k'|why']; cbn; try (intros []; fail).
  - auto.
  - intros (-> & H). exists eq_refl. intros r. apply IH, (H r).
  - intros (-> & H). exists eq_refl. intros r. apply IH, (H r).
  - auto.
Qed.
Lemma same_bind {A B} (p : prog A) (f g : A -> prog B) : (forall a, same (f a) (g a)) -> same (bind p f) (bind p g).
Proof. intros H. induction p; cbn; [apply H|exists eq_refl|exists eq_refl|reflexivity]; auto. Qed.
Lemma same_assoc {A B C} (p : prog A) (f : A -> prog B) (g : B -> prog C) :
  same (bind p (fun a => bind (f a) g)) (bind (bind p f) g).
Proof. induction p; cbn; [apply same_refl|exists eq_refl|exists eq_refl|reflexivity]; auto. Qed.

(** *** Threads are numbered *)
Definition numbered (s : sys) : Prop := forall t : tid, s_next s <= t -> s_th s !! t = None.
Lemma step_numbered G a s s' : numbered s -> step G a s = Some s' -> numbered s'.
Proof.
  intros H E. unfold step in E. destruct (s_crash s); [discriminate|]. destruct a as [t| |e].
  - destruct (s_th s !! t) as [p|] eqn:Et; [|discriminate].
    assert (Hlt : t < s_next s) by (destruct (Nat.lt_ge_cases t (s_next s)) as [|Hge]; [assumption|rewrite (H _ Hge) in Et; discriminate]).
    destruct (tstep G t (s_w s) p); inversion E; subst s'; intros t' Ht'; cbn in *.
    + rewrite lookup_insert_ne by lia. apply H, Ht'.
    + rewrite lookup_delete_ne by lia. apply H, Ht'.
    + apply H, Ht'.
  - destruct (w_spawn (s_w s)) as [|c rest]; [discriminate|]. inversion E; subst s'. intros t' Ht'; cbn in *.
    rewrite lookup_insert_ne by lia. apply H. lia.
  - assert (Henv : Some (Sys (env_step e (s_w s)) (s_th s) (s_next s) None) = Some s' -> numbered s').
    { intros E'. inversion E'; subst s'. exact H. }
    destruct e; try (destruct (env_ok _); [apply Henv, E|discriminate]).
    destruct (startable G code); [|discriminate]. inversion E; subst s'. intros t' Ht'; cbn in *.
    rewrite lookup_insert_ne by lia. apply H. lia.
Qed.
Lemma init_numbered G : numbered (init G).
Proof. intros t H. unfold init in *. cbn [s_th s_next] in *. rewrite lookup_singleton_ne by lia. reflexivity. Qed.
Lemma reachable_numbered G s : reachable G s -> numbered s.
Proof.
  unfold reachable, steps. intros H. pose proof (init_numbered G) as H0. revert H0.
  induction H as [|s1 s2 s3 [a Ha] _ IH]; [auto|]. intros H0. apply IH. eapply step_numbered; eassumption.
Qed.

(** What one step does to goroutine [t]. *)
Lemma step_thread G a s s' t q : numbered s -> step G a s = Some s' -> s_th s !! t = Some q ->
  s_th s' !! t = Some q \/
  a = Step t /\ match tstep G t (s_w s) q with
                | TNext w' q' => s_w s' = w' /\ s_th s' !! t = Some q'
                | TDone _ => s_th s' !! t = None
                | TBlocked => False
                | TPanic _ => s_th s' !! t = Some q
                end.
Proof.
  intros HN E Ht. unfold step in E. destruct (s_crash s); [discriminate|].
  assert (Hlt : t < s_next s) by (destruct (Nat.lt_ge_cases t (s_next s)) as [|Hge]; [assumption|rewrite (HN _ Hge) in Ht; discriminate]).
  destruct a as [t'| |e].
  - destruct (Nat.eq_dec t' t) as [->|Hne].
    + right. split; [reflexivity|]. rewrite Ht in E.
      destruct (tstep G t (s_w s) q); inversion E; subst s'; cbn.
      * rewrite lookup_insert. auto.
      * apply lookup_delete.
      * exact Ht.
    + left. destruct (s_th s !! t') as [p|]; [|discriminate].
      destruct (tstep G t' (s_w s) p); inversion E; subst s'; cbn.
      * rewrite lookup_insert_ne by congruence. exact Ht.
      * rewrite lookup_delete_ne by congruence. exact Ht.
      * exact Ht.
  - left. destruct (w_spawn (s_w s)) as [|c rest]; [discriminate|]. inversion E; subst s'. cbn.
    rewrite lookup_insert_ne by lia. exact Ht.
  - left.
    assert (Henv : Some (Sys (env_step e (s_w s)) (s_th s) (s_next s) None) = Some s' -> s_th s' !! t = Some q).
    { intros E'. inversion E'; subst s'. exact Ht. }
    destruct e; try (destruct (env_ok _); [apply Henv, E|discriminate]).
    destruct (startable G code); [|discriminate]. inversion E; subst s'. cbn.
    rewrite lookup_insert_ne by lia. exact Ht.
Qed.

Section schedule.
Context (G : cfg) (J : world -> Prop) (okr : forall o : op, res o -> Prop).
Context (HJ : forall t w o w' r, J w -> ostep t w o = Goes w' r -> okr o r).

(** Along an execution whose worlds satisfy [J], a goroutine that does [p] and
    then [k] is still doing [p] or has continued with [k a] for some [a] that
    [p] may return. *)
Lemma schedule {A} (p : prog A) k t s s' :
  numbered s -> s_th s !! t = Some (bind p k) -> while G J s s' ->
  still G s' t p k \/ exists a s1, may_return G okr p a /\ while G J s s1 /\ while G J s1 s' /\ got s1 t k a.
Proof.
  intros HN Ht Hw.
  assert (H : forall s q p', numbered s -> s_th s !! t = Some q -> inside G p p' -> same q (bind p' k) ->
    (forall a, may_return G okr p' a -> may_return G okr p a) ->
    while G J s s' ->
    still G s' t p k \/ exists a s1, may_return G okr p a /\ while G J s s1 /\ while G J s1 s' /\ got s1 t k a).
  { clear s HN Ht Hw. intros s q p' HN Ht Hin Hq Hret Hw. revert q p' HN Ht Hin Hq Hret.
    induction Hw as [s|s s2 s3 [HJs [a Ha]] Hw IH]; intros q p' HN Ht Hin Hq Hret.
    { left. exists q, p'. auto. }
    destruct p' as [b|o k'|api k'|why].
    - right. exists b, s. split; [apply Hret; exists 1; reflexivity|]. split; [apply rtc_refl|].
      split; [eapply rtc_l; [split; [exact HJs|exists a; exact Ha]|exact Hw]|]. exists q. split; [exact Ht|exact Hq].
    - assert (Hgo : forall q2 p2, s_th s2 !! t = Some q2 -> inside G p p2 -> same q2 (bind p2 k) ->
        (forall a, may_return G okr p2 a -> may_return G okr p a) ->
        still G s3 t p k \/ exists a s1, may_return G okr p a /\ while G J s s1 /\ while G J s1 s3 /\ got s1 t k a).
      { intros q2 p2 Ht2 Hin2 Hq2 Hret2.
        destruct (IH q2 p2 (step_numbered _ _ _ _ HN Ha) Ht2 Hin2 Hq2 Hret2) as [H|(b & s1 & H1 & H2 & H3 & H4)]; [left; exact H|].
        right. exists b, s1. split; [exact H1|]. split; [|auto].
        eapply rtc_l; [split; [exact HJs|exists a; exact Ha]|exact H2]. }
      destruct (step_thread _ _ _ _ _ _ HN Ha Ht) as [Ht2|[-> Ht2]]; [eapply Hgo; eassumption|].
      destruct q as [b|o2 k2|a2 k2|w2]; cbn [bind same] in Hq; try (destruct Hq; fail). destruct Hq as (-> & Hq).
      cbn [tstep] in Ht2. destruct (ostep t (s_w s) o) as [w' r| |why] eqn:E; [|destruct Ht2|].
      + destruct Ht2 as [_ Ht2]. apply (Hgo (k2 r) (k' r)); [exact Ht2|apply (inside_do _ _ o), Hin|apply (Hq r)|].
        intros b (n & Hb). apply Hret. exists (S n). cbn. exists r. split; [eapply HJ; eassumption|exact Hb].
      + apply (Hgo (Do o k2) (Do o k')); [exact Ht2|exact Hin|exists eq_refl; exact Hq|exact Hret].
    - assert (Hgo : forall q2 p2, s_th s2 !! t = Some q2 -> inside G p p2 -> same q2 (bind p2 k) ->
        (forall a, may_return G okr p2 a -> may_return G okr p a) ->
        still G s3 t p k \/ exists a s1, may_return G okr p a /\ while G J s s1 /\ while G J s1 s3 /\ got s1 t k a).
      { intros q2 p2 Ht2 Hin2 Hq2 Hret2.
        destruct (IH q2 p2 (step_numbered _ _ _ _ HN Ha) Ht2 Hin2 Hq2 Hret2) as [H|(b & s1 & H1 & H2 & H3 & H4)]; [left; exact H|].
        right. exists b, s1. split; [exact H1|]. split; [|auto].
        eapply rtc_l; [split; [exact HJs|exists a; exact Ha]|exact H2]. }
      destruct (step_thread _ _ _ _ _ _ HN Ha Ht) as [Ht2|[-> Ht2]]; [eapply Hgo; eassumption|].
      destruct q as [b|o2 k2|a2 k2|w2]; cbn [bind same] in Hq; try (destruct Hq; fail). destruct Hq as (-> & Hq).
      cbn [tstep] in Ht2. destruct (valid_api (s_w s) api); [|destruct Ht2].
      destruct Ht2 as [_ Ht2]. apply (Hgo _ (bind (impl G api) k') Ht2); [apply inside_call, Hin| |].
      + eapply same_trans; [|apply same_assoc]. apply same_bind. exact Hq.
      + intros b Hb. apply may_bind in Hb as (x & [n1 H1] & [n2 H2]). apply Hret. exists (S (n1 + n2)). cbn. exists x.
        split; (eapply returns_mono; [eassumption|lia]).
    - left.
      assert (Hx : forall s2 q2, numbered s2 -> s_th s2 !! t = Some q2 -> same q2 (Crash why) -> while G J s2 s3 -> still G s3 t p k).
      { clear -Hin. intros s2 q2 HN Ht Hq Hw. revert q2 HN Ht Hq. induction Hw as [s|s s2 s3 [HJs [a Ha]] Hw IH]; intros q2 HN Ht Hq.
        - exists q2, (Crash why). auto.
        - destruct (step_thread _ _ _ _ _ _ HN Ha Ht) as [Ht2|[-> Ht2]].
          + eapply IH; [eapply step_numbered; eassumption|exact Ht2|exact Hq].
          + destruct q2 as [b|o2 k2|a2 k2|w2]; try (destruct Hq; fail). cbn in Ht2.
            eapply IH; [eapply step_numbered; eassumption|exact Ht2|exact Hq]. }
      eapply Hx; [exact HN|exact Ht|exact Hq|]. eapply rtc_l; [split; [exact HJs|exists a; exact Ha]|exact Hw]. }
  eapply H; [exact HN|exact Ht|apply inside_here|apply same_refl|auto|exact Hw].
Qed.
End schedule.
