(** * ExecProofs.v : rules for sequential runs. *)
From Coq Require Import ZArith.
From stdpp Require Import gmap strings list relations.
From RecordUpdate Require Import RecordUpdate.
From Verif Require Import Go Errors Message World Lang Code Sem.

Definition xbind {A B} (x : xout A) (f : A -> prog B) (g : world -> A -> xout B) : xout B :=
  match x with
  | XDone w a => g w a
  | XBlocked w o k => XBlocked w o (fun r => bind (k r) f)
  | XCall w a k => XCall w a (fun r => bind (k r) f)
  | XPanic w why => XPanic w why
  end.

Lemma exec_bind {A B} t (p : prog A) (f : A -> prog B) w :
  exec t (bind p f) w = xbind (exec t p w) f (fun w' a => exec t (f a) w').
Proof.
  revert w; induction p as [a|o k IH|a k IH|why]; intros w; cbn [bind exec xbind]; auto.
  destruct (ostep t w o); cbn [xbind]; auto.
Qed.

Lemma exec_bind_done {A B} t (p : prog A) (f : A -> prog B) w w' a :
  exec t p w = XDone w' a -> exec t (bind p f) w = exec t (f a) w'.
Proof. intros H. rewrite exec_bind, H. reflexivity. Qed.

Lemma exec_op t o w w' r : ostep t w o = Goes w' r -> exec t (opr o) w = XDone w' r.
Proof. intros H. cbn [opr exec]. rewrite H. reflexivity. Qed.

Lemma exec_opb {B} t o (f : res o -> prog B) w w' r :
  ostep t w o = Goes w' r -> exec t (bind (opr o) f) w = exec t (f r) w'.
Proof. intros H. apply exec_bind_done, exec_op, H. Qed.

Lemma bind_assoc_exec {A B C} t (p : prog A) (f : A -> prog B) (g : B -> prog C) w w' a :
  exec t p w = XDone w' a ->
  exec t (bind (bind p f) g) w = exec t (bind (f a) g) w'.
Proof. intros H. rewrite !exec_bind, H. reflexivity. Qed.

(** A sequential run is an execution of the system in which only one goroutine
    moves. *)
Section steps.
Context (G : cfg).

Lemma rtc_sstep_one a s s' : step G a s = Some s' -> steps G s s'.
Proof. intros H. apply rtc_once. exists a. exact H. Qed.

Lemma exec_steps_gen {A} (p : prog A) (f : A -> prog (option tcode)) t w th nx w' a :
  exec t p w = XDone w' a ->
  steps G (Sys w (<[t := bind p f]> th) nx None) (Sys w' (<[t := f a]> th) nx None).
Proof.
  revert w th; induction p as [x|o k IH|b k IH|why]; intros w th; cbn [exec bind]; intros H.
  - injection H as -> ->. apply rtc_refl.
  - destruct (ostep t w o) as [w1 r| |] eqn:E; try discriminate.
    eapply rtc_l; [exists (Step t)|apply (IH r), H].
    cbn [step s_crash s_th s_w s_next]. rewrite lookup_insert. cbn [tstep]. rewrite E.
    rewrite insert_insert. reflexivity.
  - discriminate.
  - discriminate.
Qed.

Lemma exec_steps (p : prog (option tcode)) t w th nx w' a :
  th !! t = Some p -> exec t p w = XDone w' a ->
  steps G (Sys w th nx None) (Sys w' (<[t := Ret a]> th) nx None).
Proof.
  intros Ht H.
  assert (Hb : forall q : prog (option tcode), steps G (Sys w (<[t := bind q Ret]> th) nx None) (Sys w' (<[t := Ret a]> th) nx None) ->
     q = p -> steps G (Sys w th nx None) (Sys w' (<[t := Ret a]> th) nx None)).
  { intros q Hq ->. clear Hq. revert w th Ht H.
    induction p as [x|o k IH|b k IH|why]; intros w th Ht; cbn [exec]; intros H.
    - injection H as -> ->. rewrite insert_id by exact Ht. apply rtc_refl.
    - destruct (ostep t w o) as [w1 r| |] eqn:E; try discriminate.
      eapply rtc_l.
      + exists (Step t). cbn [step s_crash s_th s_w s_next]. rewrite Ht. cbn [tstep]. rewrite E. reflexivity.
      + rewrite <- (insert_insert th t (Ret a) (k r)). eapply IH; [apply lookup_insert|exact H].
    - discriminate.
    - discriminate. }
  eapply Hb; [|reflexivity]. eapply (exec_steps_gen p Ret), H.
Qed.
End steps.

(** ** How updates read back *)
Section reads.
Implicit Types (w : world) (c : cid).

Lemma conn_upd_eq c f w : conn_of (upd_conn c f w) c = f (conn_of w c).
Proof. unfold conn_of at 1, upd_conn. cbn. rewrite lookup_insert. reflexivity. Qed.
Lemma conn_upd_ne c c' f w : c' <> c -> conn_of (upd_conn c f w) c' = conn_of w c'.
Proof. intros H. unfold conn_of, upd_conn. cbn. rewrite lookup_insert_ne by congruence. reflexivity. Qed.
Lemma ns_upd_eq n f w : ns_of (upd_ns n f w) n = f (ns_of w n).
Proof. unfold ns_of at 1, upd_ns. cbn. rewrite lookup_insert. reflexivity. Qed.
Lemma ns_upd_ne n n' f w : n_id n' <> n_id n -> ns_of (upd_ns n f w) n' = ns_of w n'.
Proof. intros H. unfold ns_of, upd_ns. cbn. rewrite lookup_insert_ne by congruence. reflexivity. Qed.
Lemma chan_upd_eq n f w : chan_of (upd_chan n f w) n = f (chan_of w n).
Proof. unfold chan_of at 1, upd_chan. cbn. rewrite lookup_insert. reflexivity. Qed.
Lemma chan_upd_ne n n' f w : n' <> n -> chan_of (upd_chan n f w) n' = chan_of w n'.
Proof. intros H. unfold chan_of, upd_chan. cbn. rewrite lookup_insert_ne by congruence. reflexivity. Qed.
Lemma proc_upd_eq n f w : proc_of (upd_proc n f w) n = f (proc_of w n).
Proof. unfold proc_of at 1, upd_proc. cbn. rewrite lookup_insert. reflexivity. Qed.
Lemma proc_upd_ne n n' f w : n' <> n -> proc_of (upd_proc n f w) n' = proc_of w n'.
Proof. intros H. unfold proc_of, upd_proc. cbn. rewrite lookup_insert_ne by congruence. reflexivity. Qed.
End reads.

(** ** Iteration orders *)
Lemma insert_at_perm {A} k (x : A) l : Permutation (insert_at k x l) (x :: l).
Proof.
  revert k; induction l as [|y l IH]; intros [|k]; cbn; auto.
  rewrite IH. apply perm_swap.
Qed.

Lemma permute_perm {A} k (l : list A) : Permutation (permute k l) l.
Proof.
  revert k; induction l as [|x l IH]; intros k; cbn [permute]; auto.
  rewrite insert_at_perm. constructor. apply IH.
Qed.

Lemma insert_at_mid {A} (x : A) l1 l2 : insert_at (length l1) x (l1 ++ l2) = l1 ++ x :: l2.
Proof. induction l1 as [|y l1 IH]; cbn; [destruct l2; reflexivity|rewrite IH; reflexivity]. Qed.

(** Every order is produced by some choice. *)
Lemma permute_complete {A} (l l' : list A) : Permutation l l' -> exists k, permute k l = l'.
Proof.
  revert l'; induction l as [|x l IH]; intros l' H.
  - apply Permutation_nil in H. subst. exists 0. reflexivity.
  - pose proof (Permutation_in x H (or_introl eq_refl)) as Hin.
    apply in_split in Hin as (a & b & ->).
    apply Permutation_cons_app_inv in H as H'.
    destruct (IH _ H') as [k Hk].
    exists (length a + k * S (length l)). cbn [permute].
    assert (Hlen : length a < S (length l)).
    { apply Permutation_length in H'. rewrite app_length in H'. lia. }
    rewrite Nat.mod_add by lia.
    rewrite (Nat.mod_small _ _ Hlen).
    rewrite Nat.div_add by lia. rewrite (Nat.div_small _ _ Hlen). cbn [Nat.add].
    rewrite Hk. apply insert_at_mid.
Qed.
