(** * History.v : the history of a process only grows, and every earlier
    history was the history of an earlier state. *)
From Coq Require Import ZArith.
From stdpp Require Import gmap strings list relations.
From RecordUpdate Require Import RecordUpdate.
From Verif Require Import Go Errors Message World Lang Code Sem Spec_App.
From Verif Require Import Scenes AskProofs FireProofs.

(** One step records at most one event; goroutine [t] was about to do [o]. *)
Definition records (o : op) : option event :=
  match o with OLog e => Some e | OBSet msgs => Some (LBcast msgs) | _ => None end.

Lemma sstep_log G s s' : sstep G s s' ->
  w_log (s_w s') = w_log (s_w s) \/
  exists (t : tid) o k e, s_th s !! t = Some (Do o k) /\ records o = Some e /\ w_log (s_w s') = e :: w_log (s_w s).
Proof.
  intros [a H]. unfold step in H. destruct (s_crash s); [discriminate|]. destruct a as [t| |e].
  - destruct (s_th s !! t) as [p|] eqn:E; [|discriminate]. destruct p as [r|o k|b k|why]; cbn [tstep] in H.
    + destruct r; injection H as <-; left; reflexivity.
    + pose proof (ostep_log t (s_w s) o) as Hl. destruct (ostep t (s_w s) o) as [w' r| |]; [|discriminate|injection H as <-; left; reflexivity].
      injection H as <-. cbn. destruct (records o) as [e|] eqn:Eo.
      * right. exists t, o, k, e. split; [exact E|]. split; [exact Eo|]. destruct o; try discriminate; injection Eo as <-; exact Hl.
      * left. destruct o; try discriminate Eo; exact Hl.
    + destruct (valid_api (s_w s) b); [|discriminate]. injection H as <-. left; reflexivity.
    + injection H as <-. left; reflexivity.
  - destruct (w_spawn (s_w s)) as [|c rest]; [discriminate|]. injection H as <-. left; reflexivity.
  - left.
    assert (Henv : Some (Sys (env_step e (s_w s)) (s_th s) (s_next s) None) = Some s' -> w_log (s_w s') = w_log (s_w s)).
    { intros E'. inversion E'; subst s'. apply env_log. }
    destruct e; try (destruct (env_ok _); [apply Henv, H|discriminate]).
    destruct (startable G code); [|discriminate]. injection H as <-. reflexivity.
Qed.

Lemma steps_log G s s' : steps G s s' -> exists l, w_log (s_w s') = l ++ w_log (s_w s).
Proof.
  induction 1 as [s|s s2 s3 H _ [l IH]]; [exists []; reflexivity|].
  destruct (sstep_log _ _ _ H) as [E|(t & o & k & e & _ & _ & E)]; rewrite E in IH; [exists l; exact IH|].
  exists (l ++ [e]). rewrite IH, <- app_assoc. reflexivity.
Qed.

(** The moment at which an event was recorded. *)
Lemma recorded_between G s s' l2 e l1 : steps G s s' -> w_log (s_w s') = l2 ++ e :: l1 -> length (w_log (s_w s)) <= length l1 ->
  exists s1 s2 (t : tid) o k, steps G s s1 /\ sstep G s1 s2 /\ steps G s2 s' /\ w_log (s_w s1) = l1 /\ w_log (s_w s2) = e :: l1 /\
    s_th s1 !! t = Some (Do o k) /\ records o = Some e.
Proof.
  induction 1 as [s|s s2 s3 H H2 IH]; intros El Hlen.
  - exfalso. rewrite El, app_length in Hlen. cbn in Hlen. lia.
  - destruct (decide (length (w_log (s_w s2)) <= length l1)) as [Hle|Hle].
    + destruct (IH El Hle) as (s1 & s1' & t & o & k & H3 & H4). exists s1, s1', t, o, k. split; [eapply rtc_l; eassumption|exact H4].
    + destruct (sstep_log _ _ _ H) as [E|(t & o & k & e' & Ht & Ho & E)]; [rewrite E in Hle; contradiction|].
      rewrite E in Hle. cbn in Hle. destruct (steps_log _ _ _ H2) as [l El2]. rewrite El, E in El2.
      assert (Hl : length l1 = length (w_log (s_w s))) by lia.
      assert (Hx : l2 ++ [e] = l ++ [e'] /\ l1 = w_log (s_w s)).
      { apply app_inj_2; [exact Hl|]. rewrite <- !app_assoc. exact El2. }
      destruct Hx as [Hx ->]. apply app_inj_tail in Hx as [-> ->].
      exists s, s2, t, o, k. split; [apply rtc_refl|]. split; [exact H|]. auto.
Qed.
Lemma recorded G s l2 e l1 : reachable G s -> w_log (s_w s) = l2 ++ e :: l1 ->
  exists s1 s2 (t : tid) o k, reachable G s1 /\ sstep G s1 s2 /\ steps G s2 s /\ w_log (s_w s1) = l1 /\ w_log (s_w s2) = e :: l1 /\
    s_th s1 !! t = Some (Do o k) /\ records o = Some e.
Proof. intros H El. apply (recorded_between G (init G) s l2 e l1 H El). cbn. lia. Qed.
Lemma earlier G s l2 l1 : reachable G s -> w_log (s_w s) = l2 ++ l1 -> exists s1, reachable G s1 /\ steps G s1 s /\ w_log (s_w s1) = l1.
Proof.
  intros H El. destruct l2 as [|e l2'] using rev_ind; [exists s; split; [exact H|]; split; [apply rtc_refl|exact El]|].
  rewrite <- app_assoc in El. cbn in El. destruct (recorded G s _ _ _ H El) as (s1 & s2 & t & o & k & H1 & H2 & H3 & H4 & _).
  exists s1. split; [exact H1|]. split; [eapply rtc_l; eassumption|exact H4].
Qed.
