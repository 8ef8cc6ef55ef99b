(** * Logic.v : a program logic for all interleavings.

    Every goroutine has a ghost state (what it holds and knows).  [rule] says
    for each operation, started in a ghost state, what may be assumed after
    it.  [ok] checks a program against the rules, one operation at a time; the
    soundness theorem says that if the rules respect a global invariant and
    all code of the process is [ok], the invariant holds in every reachable
    state.  Nothing here is about neffos except the shape of the semantics
    (Sem.v). *)
From Coq Require Import ZArith.
From stdpp Require Import gmap strings list relations.
From RecordUpdate Require Import RecordUpdate.
From Verif Require Import Go Errors Message World Lang Code Sem.

Record lspec : Type := LSpec {
  ls_L : Type;                                                     (* ghost states *)
  ls_rule : ls_L -> forall o, (res o -> ls_L -> Prop) -> Prop;     (* operations *)
  ls_cpre : ls_L -> api -> Prop;                                   (* API calls *)
  ls_cpost : ls_L -> forall a, ares a -> ls_L -> Prop;
  ls_crash : string -> Prop;                                       (* tolerated panics *)
  ls_start : tcode -> ls_L -> Prop;                                (* goroutines: at their start *)
  ls_fin : ls_L -> Prop }.                                         (* ... and end *)

Section logic.
Context (S : lspec).
Notation L := (ls_L S).

Fixpoint ok {A} (l : L) (p : prog A) (Q : A -> L -> Prop) : Prop :=
  match p with
  | Ret a => Q a l
  | Do o k => ls_rule S l o (fun r l' => ok l' (k r) Q)
  | Call a k => ls_cpre S l a /\ forall r l', ls_cpost S l a r l' -> ok l' (k r) Q
  | Crash why => ls_crash S why
  end.

Definition rule_mono : Prop := forall l o (P P' : res o -> L -> Prop),
  (forall r l', P r l' -> P' r l') -> ls_rule S l o P -> ls_rule S l o P'.

Definition after (r : option tcode) (l : L) : Prop :=
  match r with Some c => ls_start S c l | None => ls_fin S l end.

Section sound.
Context (Hmono : rule_mono).

Lemma ok_mono {A} l (p : prog A) (Q Q' : A -> L -> Prop) :
  (forall r l', Q r l' -> Q' r l') -> ok l p Q -> ok l p Q'.
Proof.
  intros HQ. revert l. induction p as [a|o k IH|a k IH|why]; intros l; cbn [ok]; auto.
  - apply Hmono. intros r l'. apply IH.
  - intros [Hp Hk]. split; [exact Hp|]. intros r l' H. apply IH, Hk, H.
Qed.

Lemma ok_bind {A B} l (p : prog A) (f : A -> prog B) (Q : B -> L -> Prop) :
  ok l p (fun r l' => ok l' (f r) Q) -> ok l (bind p f) Q.
Proof.
  revert l. induction p as [a|o k IH|a k IH|why]; intros l; cbn [ok bind]; auto.
  - apply Hmono. intros r l'. apply IH.
  - intros [Hp Hk]. split; [exact Hp|]. intros r l' H. apply IH, Hk, H.
Qed.

Lemma ok_seq {A B} l (p : prog A) (f : A -> prog B) (P : A -> L -> Prop) (Q : B -> L -> Prop) :
  ok l p P -> (forall r l', P r l' -> ok l' (f r) Q) -> ok l (bind p f) Q.
Proof. intros H1 H2. apply ok_bind. eapply ok_mono; [|exact H1]. exact H2. Qed.

Lemma ok_for_all {A} (J : L -> Prop) (l : L) (xs : list A) (body : A -> prog unit) :
  J l -> (forall x l', x ∈ xs -> J l' -> ok l' (body x) (fun _ l'' => J l'')) ->
  ok l (for_all xs body) (fun _ l' => J l').
Proof.
  revert l; induction xs as [|x xs IH]; intros l HI H; cbn [for_all]; [exact HI|].
  eapply ok_seq; [apply H; [constructor|exact HI]|]. intros r0 l' HI'. apply IH; [exact HI'|].
  intros y l'' Hy. apply H. constructor. exact Hy.
Qed.

Lemma ok_for_each {A R} (J : L -> Prop) (P : R -> Prop) (l : L) (xs : list A) (body : A -> prog (option R)) :
  J l -> (forall x l', x ∈ xs -> J l' ->
    ok l' (body x) (fun r l'' => J l'' /\ match r with Some v => P v | None => True end)) ->
  ok l (for_each xs body) (fun r l' => J l' /\ match r with Some v => P v | None => True end).
Proof.
  revert l; induction xs as [|x xs IH]; intros l HI H; cbn [for_each]; [split; [exact HI|exact I]|].
  eapply ok_seq; [apply H; [constructor|exact HI]|]. intros [v|] l' [HI' Hv]; [split; assumption|].
  apply IH; [exact HI'|]. intros y l'' Hy. apply H. constructor. exact Hy.
Qed.

Context (G : cfg) (Inv : world -> gmap tid L -> Prop).

(** What has to be shown about the rules, the API, the goroutines and the
    environment. *)
Record respects : Prop := Respects {
  rs_op : forall t w Ls l o (P : res o -> L -> Prop),
    Inv w Ls -> Ls !! t = Some l -> ls_rule S l o P ->
    match ostep t w o with
    | Goes w' r => exists l', Inv w' (<[t := l']> Ls) /\ P r l'
    | Blocked => True
    | Panics why => ls_crash S why
    end;
  rs_call : forall t w Ls l a,
    Inv w Ls -> Ls !! t = Some l -> valid_api w a = true -> ls_cpre S l a ->
    exists l', Inv w (<[t := l']> Ls) /\ ok l' (impl G a) (ls_cpost S l a);
  rs_code : forall c l, ls_start S c l -> ok l (code G c) after;
  rs_done : forall t w Ls l, Inv w Ls -> Ls !! t = Some l -> ls_fin S l -> Inv w (delete t Ls);
  rs_spawn : forall t w Ls c rest, Inv w Ls -> w_spawn w = c :: rest -> Ls !! t = None ->
    exists l, ls_start S c l /\ Inv (w <| w_spawn := rest |>) (<[t := l]> Ls);
  rs_go : forall t w Ls c, Inv w Ls -> startable G c = true -> Ls !! t = None ->
    exists l, ls_start S c l /\ Inv w (<[t := l]> Ls);
  rs_env : forall w Ls e, Inv w Ls -> env_ok e = true -> Inv (env_step e w) Ls }.

(** The invariant of systems. *)
Definition holds (s : sys) : Prop :=
  (forall why, s_crash s = Some why -> ls_crash S why) /\
  exists Ls, Inv (s_w s) Ls /\
    (forall t : tid, s_next s <= t -> s_th s !! t = None) /\
    (forall t : tid, s_th s !! t = None -> Ls !! t = None) /\
    forall (t : tid) p, s_th s !! t = Some p -> exists l, Ls !! t = Some l /\ ok l p after.

Context (R : respects).

Lemma holds_spawn c s : s_crash s = None ->
  (exists Ls l, Inv (s_w s) (<[s_next s := l]> Ls) /\ ls_start S c l /\
    (forall t : tid, s_next s <= t -> s_th s !! t = None) /\
    (forall t : tid, s_th s !! t = None -> Ls !! t = None) /\
    forall (t : tid) p, s_th s !! t = Some p -> exists l, Ls !! t = Some l /\ ok l p after) ->
  holds (spawn G c s).
Proof.
  intros Hc (Ls & l & HI & Hs & Hn & Hd & Ht). split; [cbn; rewrite Hc; discriminate|].
  exists (<[s_next s := l]> Ls). cbn. split; [exact HI|]. split; [|split].
  - intros t Hle. rewrite lookup_insert_ne by lia. apply Hn. lia.
  - intros t H. apply lookup_insert_None in H as [H1 H2]. rewrite lookup_insert_ne by exact H2. apply Hd, H1.
  - intros t p H. apply lookup_insert_Some in H as [[<- <-]|[Hne H]].
    + exists l. rewrite lookup_insert. split; [reflexivity|]. apply (rs_code R), Hs.
    + destruct (Ht t p H) as (l' & H1 & H2). exists l'. rewrite lookup_insert_ne by exact Hne. auto.
Qed.

Lemma step_holds a s s' : holds s -> step G a s = Some s' -> holds s'.
Proof.
  intros (Hcr & Ls & HI & Hn & Hd & Ht). unfold step. destruct (s_crash s) eqn:Ecr; [discriminate|].
  destruct a as [t| |e].
  - destruct (s_th s !! t) as [p|] eqn:E; [|discriminate].
    destruct (Ht t p E) as (l & El & Hok).
    assert (Hnext : forall w' p' l', Inv w' (<[t := l']> Ls) -> ok l' p' after ->
      holds (Sys w' (<[t := p']> (s_th s)) (s_next s) None)).
    { intros w' p' l' HI' Hok'. split; [discriminate|]. exists (<[t := l']> Ls). cbn. split; [exact HI'|]. split; [|split].
      - intros t' Hle. rewrite lookup_insert_ne; [apply Hn, Hle|]. intros Heq; subst t'. specialize (Hn t Hle). congruence.
      - intros t' H. apply lookup_insert_None in H as [H1 H2]. rewrite lookup_insert_ne by exact H2. apply Hd, H1.
      - intros t' q H. apply lookup_insert_Some in H as [[<- <-]|[Hne H]].
        + exists l'. rewrite lookup_insert. auto.
        + destruct (Ht t' q H) as (l2 & H1 & H2). exists l2. rewrite lookup_insert_ne by exact Hne. auto. }
    destruct p as [r|o k|b k|why]; cbn [tstep].
    + cbn [ok] in Hok. destruct r as [c|].
      * intros [= <-]. eapply Hnext; [rewrite insert_id by exact El; exact HI|]. apply (rs_code R), Hok.
      * intros [= <-]. split; [discriminate|]. exists (delete t Ls). cbn. split; [eapply (rs_done R); eassumption|]. split; [|split].
        -- intros t' Hle. rewrite lookup_delete_ne; [apply Hn, Hle|]. intros Heq; subst t'. specialize (Hn t Hle). congruence.
        -- intros t' H. destruct (decide (t' = t)) as [->|Hne]; [apply lookup_delete|].
           rewrite lookup_delete_ne by congruence. rewrite lookup_delete_ne in H by congruence. apply Hd, H.
        -- intros t' q H. apply lookup_delete_Some in H as [Hne H]. destruct (Ht t' q H) as (l2 & H1 & H2).
           exists l2. rewrite lookup_delete_ne by exact Hne. auto.
    + cbn [ok] in Hok. pose proof (rs_op R t (s_w s) Ls l o _ HI El Hok) as Hop.
      destruct (ostep t (s_w s) o) as [w' r| |why]; [|discriminate|].
      * intros [= <-]. destruct Hop as (l' & HI' & Hok'). eapply Hnext; eassumption.
      * intros [= <-]. split; [cbn; congruence|]. exists Ls. cbn. auto.
    + cbn [ok] in Hok. destruct Hok as [Hpre Hk]. destruct (valid_api (s_w s) b) eqn:Ev; [|discriminate].
      intros [= <-]. destruct (rs_call R _ _ _ _ _ HI El Ev Hpre) as (l' & HI' & Hok').
      eapply Hnext; [exact HI'|]. eapply ok_seq; [exact Hok'|]. exact Hk.
    + cbn [ok] in Hok. intros [= <-]. split; [cbn; congruence|]. exists Ls. cbn. auto.
  - destruct (w_spawn (s_w s)) as [|c rest] eqn:Esp; [discriminate|]. intros [= <-].
    apply holds_spawn; [reflexivity|]. cbn.
    assert (Hfresh : Ls !! s_next s = None) by (apply Hd, Hn; lia).
    destruct (rs_spawn R (s_next s) _ _ _ _ HI Esp Hfresh) as (l & Hs & HI').
    exists Ls, l. auto.
  - assert (Henv : env_ok e = true -> forall s'', Some (Sys (env_step e (s_w s)) (s_th s) (s_next s) None) = Some s'' -> holds s'').
    { intros He s'' [= <-]. split; [discriminate|]. exists Ls. cbn. split; [apply (rs_env R); assumption|]. auto. }
    destruct e; try (destruct (env_ok _) eqn:He; [|discriminate]; intros Hs; apply Henv in Hs; auto; fail).
    destruct (startable G code) eqn:Est; [|discriminate]. intros [= <-].
    apply holds_spawn; [exact Ecr|].
    assert (Hfresh : Ls !! s_next s = None) by (apply Hd, Hn; lia).
    destruct (rs_go R (s_next s) _ _ _ HI Est Hfresh) as (l & Hs & HI').
    exists Ls, l. auto.
Qed.

Theorem steps_holds s s' : holds s -> steps G s s' -> holds s'.
Proof. intros H Hs. induction Hs as [|s1 s2 s3 [a Ha] _ IH]; [exact H|]. apply IH. eapply step_holds; eassumption. Qed.

Theorem reachable_holds s : (exists l, ls_start S TServer l /\ Inv world0 {[0 := l]}) -> reachable G s -> holds s.
Proof.
  intros (l & Hs & HI). apply steps_holds. split; [discriminate|]. exists {[0 := l]}. cbn. split; [exact HI|]. split; [|split].
  - intros t Hle. apply lookup_singleton_ne. lia.
  - intros t H. apply lookup_singleton_None in H. apply lookup_singleton_None, H.
  - intros t p H. apply lookup_singleton_Some in H as [<- <-]. exists l. rewrite lookup_singleton.
    split; [reflexivity|]. apply (rs_code R TServer), Hs.
Qed.
End sound.
End logic.
Arguments ok {S A} l p Q.
Arguments after {S} r l.
