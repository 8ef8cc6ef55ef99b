(** * Frozen.v : goroutines that are blocked for ever, when the others need
    ghost states.

    As in Logic.v, but the goroutines of [T] are not checked against the
    rules: the invariant must keep them blocked. *)
From Coq Require Import ZArith.
From stdpp Require Import gmap strings list relations.
From RecordUpdate Require Import RecordUpdate.
From Verif Require Import Go Errors Message World Lang Code Sem Logic Spec_Stuck.

Section frozen.
Context (S : lspec) (Hmono : rule_mono S) (G : cfg) (Inv : world -> gmap tid (ls_L S) -> Prop).
Context (T : gmap tid (prog (option tcode))).
(** As [respects], but only the goroutines outside of [T] have to obey the rules. *)
Record respects_others : Prop := RespectsOthers {
  ro_op : forall t w Ls l o (P : res o -> ls_L S -> Prop), T !! t = None ->
    Inv w Ls -> Ls !! t = Some l -> ls_rule S l o P ->
    match ostep t w o with
    | Goes w' r => exists l', Inv w' (<[t := l']> Ls) /\ P r l'
    | Blocked => True
    | Panics why => ls_crash S why
    end;
  ro_call : forall t w Ls l a,
    Inv w Ls -> Ls !! t = Some l -> valid_api w a = true -> ls_cpre S l a ->
    exists l', Inv w (<[t := l']> Ls) /\ ok l' (impl G a) (ls_cpost S l a);
  ro_code : forall c l, ls_start S c l -> ok l (code G c) after;
  ro_done : forall t w Ls l, Inv w Ls -> Ls !! t = Some l -> ls_fin S l -> Inv w (delete t Ls);
  ro_spawn : forall t w Ls c rest, Inv w Ls -> w_spawn w = c :: rest -> Ls !! t = None ->
    exists l, ls_start S c l /\ Inv (w <| w_spawn := rest |>) (<[t := l]> Ls);
  ro_go : forall t w Ls c, Inv w Ls -> startable G c = true -> Ls !! t = None ->
    exists l, ls_start S c l /\ Inv w (<[t := l]> Ls);
  ro_env : forall w Ls e, Inv w Ls -> env_ok e = true -> Inv (env_step e w) Ls }.
Lemma others_respect : respects S G Inv -> respects_others.
Proof. intros [H1 H2 H3 H4 H5 H6 H7]. constructor; auto. intros t w Ls l o P _. apply H1. Qed.
Context (R : respects_others).
Context (HT : forall t p w Ls, T !! t = Some p -> Inv w Ls -> tstep G t w p = TBlocked).

Definition frozen (s : sys) : Prop :=
  exists Ls, Inv (s_w s) Ls /\
    (forall t : tid, s_next s <= t -> s_th s !! t = None) /\
    (forall t : tid, s_th s !! t = None -> Ls !! t = None) /\
    (forall (t : tid) p, T !! t = Some p -> s_th s !! t = Some p) /\
    forall (t : tid) p, s_th s !! t = Some p -> T !! t = None -> exists l, Ls !! t = Some l /\ ok l p after.

Lemma frozen_spawn c s :
  (exists Ls l, Inv (s_w s) (<[s_next s := l]> Ls) /\ ls_start S c l /\
    (forall t : tid, s_next s <= t -> s_th s !! t = None) /\
    (forall t : tid, s_th s !! t = None -> Ls !! t = None) /\
    (forall (t : tid) p, T !! t = Some p -> s_th s !! t = Some p) /\
    forall (t : tid) p, s_th s !! t = Some p -> T !! t = None -> exists l, Ls !! t = Some l /\ ok l p after) ->
  frozen (spawn G c s).
Proof using R.
  intros (Ls & l & HI & Hs & Hn & Hd & Hf & Ht).
  exists (<[s_next s := l]> Ls). cbn. split; [exact HI|]. split; [|split; [|split]].
  - intros t Hle. rewrite lookup_insert_ne by lia. apply Hn. lia.
  - intros t H. apply lookup_insert_None in H as [H1 H2]. rewrite lookup_insert_ne by exact H2. apply Hd, H1.
  - intros t p H. rewrite lookup_insert_ne; [apply Hf, H|]. intros <-. apply Hf in H. rewrite Hn in H by lia. discriminate.
  - intros t p H Hnt. apply lookup_insert_Some in H as [[<- <-]|[Hne H]].
    + exists l. rewrite lookup_insert. split; [reflexivity|]. apply (ro_code R), Hs.
    + destruct (Ht t p H Hnt) as (l' & H1 & H2). exists l'. rewrite lookup_insert_ne by exact Hne. auto.
Qed.
Lemma frozen_step a s s' : frozen s -> step G a s = Some s' -> frozen s'.
Proof using All.
  intros (Ls & HI & Hn & Hd & Hf & Ht). unfold step. destruct (s_crash s) eqn:Ecr; [discriminate|].
  destruct a as [t| |e].
  - destruct (s_th s !! t) as [p|] eqn:E; [|discriminate]. destruct (T !! t) as [q|] eqn:ET.
    { pose proof (Hf _ _ ET) as Hq. rewrite E in Hq. injection Hq as ->. rewrite (HT _ _ _ _ ET HI). discriminate. }
    destruct (Ht t p E ET) as (l & El & Hok).
    assert (Hnext : forall w' p' l', Inv w' (<[t := l']> Ls) -> ok l' p' after ->
      frozen (Sys w' (<[t := p']> (s_th s)) (s_next s) None)).
    { intros w' p' l' HI' Hok'. exists (<[t := l']> Ls). cbn. split; [exact HI'|]. split; [|split; [|split]].
      - intros t' Hle. rewrite lookup_insert_ne; [apply Hn, Hle|]. intros Heq; subst t'. specialize (Hn t Hle). congruence.
      - intros t' H. apply lookup_insert_None in H as [H1 H2]. rewrite lookup_insert_ne by exact H2. apply Hd, H1.
      - intros t' q H. rewrite lookup_insert_ne; [apply Hf, H|]. congruence.
      - intros t' q H Hnt. apply lookup_insert_Some in H as [[<- <-]|[Hne H]].
        + exists l'. rewrite lookup_insert. auto.
        + destruct (Ht t' q H Hnt) as (l2 & H1 & H2). exists l2. rewrite lookup_insert_ne by exact Hne. auto. }
    destruct p as [r|o k|b k|why]; cbn [tstep].
    + cbn [ok] in Hok. destruct r as [c|].
      * intros [= <-]. eapply Hnext; [rewrite insert_id by exact El; exact HI|]. apply (ro_code R), Hok.
      * intros [= <-]. exists (delete t Ls). cbn. split; [eapply (ro_done R); eassumption|]. split; [|split; [|split]].
        -- intros t' Hle. rewrite lookup_delete_ne; [apply Hn, Hle|]. intros Heq; subst t'. specialize (Hn t Hle). congruence.
        -- intros t' H. destruct (decide (t' = t)) as [->|Hne]; [apply lookup_delete|].
           rewrite lookup_delete_ne by congruence. rewrite lookup_delete_ne in H by congruence. apply Hd, H.
        -- intros t' q H. rewrite lookup_delete_ne; [apply Hf, H|]. congruence.
        -- intros t' q H Hnt. apply lookup_delete_Some in H as [Hne H]. destruct (Ht t' q H Hnt) as (l2 & H1 & H2).
           exists l2. rewrite lookup_delete_ne by exact Hne. auto.
    + cbn [ok] in Hok. pose proof (ro_op R t (s_w s) Ls l o _ ET HI El Hok) as Hop.
      destruct (ostep t (s_w s) o) as [w' r| |why]; [|discriminate|].
      * intros [= <-]. destruct Hop as (l' & HI' & Hok'). eapply Hnext; eassumption.
      * intros [= <-]. exists Ls. cbn. auto.
    + cbn [ok] in Hok. destruct Hok as [Hpre Hk]. destruct (valid_api (s_w s) b) eqn:Ev; [|discriminate].
      intros [= <-]. destruct (ro_call R _ _ _ _ _ HI El Ev Hpre) as (l' & HI' & Hok').
      eapply Hnext; [exact HI'|]. eapply (ok_seq S Hmono); [exact Hok'|]. exact Hk.
    + cbn [ok] in Hok. intros [= <-]. exists Ls. cbn. auto.
  - destruct (w_spawn (s_w s)) as [|c rest] eqn:Esp; [discriminate|]. intros [= <-].
    apply frozen_spawn. cbn.
    assert (Hfresh : Ls !! s_next s = None) by (apply Hd, Hn; lia).
    destruct (ro_spawn R (s_next s) _ _ _ _ HI Esp Hfresh) as (l & Hs & HI').
    exists Ls, l. auto 6.
  - assert (Henv : env_ok e = true -> forall s'', Some (Sys (env_step e (s_w s)) (s_th s) (s_next s) None) = Some s'' -> frozen s'').
    { intros He s'' [= <-]. exists Ls. cbn. split; [apply (ro_env R); assumption|]. auto. }
    destruct e; try (destruct (env_ok _) eqn:He; [|discriminate]; intros Hs; apply Henv in Hs; auto; fail).
    destruct (startable G code) eqn:Est; [|discriminate]. intros [= <-].
    apply frozen_spawn.
    assert (Hfresh : Ls !! s_next s = None) by (apply Hd, Hn; lia).
    destruct (ro_go R (s_next s) _ _ _ HI Est Hfresh) as (l & Hs & HI').
    exists Ls, l. auto 6.
Qed.
Lemma frozen_steps s s' : frozen s -> steps G s s' -> frozen s'.
Proof using All. intros H Hs. induction Hs as [|s1 s2 s3 [a Ha] _ IH]; [exact H|]. apply IH. eapply frozen_step; eassumption. Qed.
Lemma frozen_stuck s t : frozen s -> is_Some (T !! t) -> stuck G s t.
Proof using All.
  intros H [p Hp]. pose proof H as (Ls0 & _ & _ & _ & Hf0 & _). exists p. split; [apply Hf0, Hp|]. intros s' Hs.
  destruct (frozen_steps s s' H Hs) as (Ls & HI & _ & _ & Hf & _). split; [apply Hf, Hp|]. unfold step.
  destruct (s_crash s'); [reflexivity|]. rewrite (Hf _ _ Hp), (HT _ _ _ _ Hp HI). reflexivity.
Qed.
End frozen.
