(** * SafeCode.v : every function of the library keeps the rules of SafeRules.v. *)
From Coq Require Import ZArith Ascii.
From stdpp Require Import gmap strings list relations.
From RecordUpdate Require Import RecordUpdate.
From Verif Require Import Go Errors Message World Lang Code Sem Logic Spec_App SafeRules.
Local Open Scope prog_scope.

Lemma le_refl l : l ⊑ l.
Proof. repeat split; auto. Qed.
Lemma le_trans l1 l2 l3 : l1 ⊑ l2 -> l2 ⊑ l3 -> l1 ⊑ l3.
Proof.
  intros (H1 & H2 & H3 & H4) (H5 & H6 & H7 & H8). repeat split; try congruence; [etrans; eassumption|lia].
Qed.
Lemma sub_in {x : cid} {X Y : gset cid} : X ⊆ Y -> x ∈ X -> x ∈ Y.
Proof. set_solver. Qed.
Lemma le_intro s r (d d' : gset cid) x x' : d ⊆ d' -> x <= x' -> GL s r d x ⊑ GL s r d' x'.
Proof. intros. repeat split; auto. Qed.

(** Walk through a program: [op] unfolds the rule of the next operation, [nx]
    introduces its result. *)
Ltac nx1 :=
  match goal with
  | H : GL ?s ?r ?d ?x ⊑ ?l |- _ => is_var l;
      let s' := fresh "s" in let r' := fresh "r" in let d' := fresh "d" in let x' := fresh "x" in
      destruct l as [s' r' d' x']; unfold le in H; cbn [stk role kd kx] in H;
      let H1 := fresh in let H2 := fresh in let H3 := fresh "Hd" in let H4 := fresh "Hx" in
      destruct H as (H1 & H2 & H3 & H4); subst s' r'
  end.
Ltac nx := repeat nx1; unfold vc, vn, vp, push, with_stk, with_role in *; cbn [stk role kd kx] in *.
Ltac sub := solve [repeat first [reflexivity | eassumption | etrans; [eassumption|]]].
Ltac kn1 := solve [repeat first [eassumption | eapply sub_in; [eassumption|]]].
Ltac conj := repeat match goal with H : _ /\ _ |- _ => destruct H end.
Ltac kn := conj; cbv beta iota; cbn [stk role kd kx]; lazymatch goal with
  | |- _ ⊆ _ => sub
  | |- _ ∈ _ => kn1
  | |- _ <= _ => lia
  | |- _ < _ => lia
  | |- _ ⊑ _ => first [apply le_refl | apply le_intro; [sub|lia]]
  | |- vc _ _ => unfold vc; cbn [kd]; kn1
  | |- vn _ _ => unfold vn; cbn [kd kx]; split; [kn1|lia]
  | |- vp _ _ => unfold vp; cbn [kx]; lia
  | |- _ /\ _ => split; kn
  | |- True => exact I
  | |- _ => first [eassumption | congruence | reflexivity]
  end.
Ltac op := cbn [bind opr ok];
  lazymatch goal with |- ls_rule (safe ?G ?con) ?l ?o ?P => change (rule G con l o P); cbn [rule] end;
  unfold more, moref, take, give, push, with_stk, with_role; cbn [stk role kd kx].
Ltac into := intros; nx.

Lemma rule_mono_safe G con : rule_mono (safe G con).
Proof.
  intros l o P P' H. change (rule G con l o P -> rule G con l o P').
  destruct o; cbn [rule]; unfold more, moref, take, give;
    try match goal with x : tcode |- _ => destruct x; cbn [spawn_pre] end;
    try (destruct (g_client G c));
    naive_solver.
Qed.

Section functions.
Context (G : cfg) (con : bool).
Notation allowed := (fun a => careful G a /\ (con = false -> no_connect a)).
Context (HA : application allowed G).
Notation SP := (safe G con).
Notation M := (rule_mono_safe G con).

(** Same tokens afterwards. *)
Definition keeps {A} (F : A -> gl -> Prop) (l : gl) : A -> gl -> Prop := fun r l' => l ⊑ l' /\ F r l'.
Notation any := (fun _ _ => True).
Notation erro := (fun r (_ : gl) => err_ok r = true).

Lemma keeps_le {A} (F : A -> gl -> Prop) l l' r l'' : l ⊑ l' -> keeps F l' r l'' -> keeps F l r l''.
Proof. intros H [H1 H2]. split; [eapply le_trans; eassumption|exact H2]. Qed.

Lemma seq {A B} l (p : prog A) (f : A -> prog B) F (Q : B -> gl -> Prop) :
  @ok SP A l p (keeps F l) -> (forall r l', l ⊑ l' -> F r l' -> @ok SP B l' (f r) Q) -> @ok SP B l (bind p f) Q.
Proof. intros H1 H2. eapply (ok_seq SP M); [exact H1|]. intros r l' [Hl Hf]. apply H2; assumption. Qed.

Lemma fin {A} l (p : prog A) F (Q : A -> gl -> Prop) :
  @ok SP A l p (keeps F l) -> (forall r l', l ⊑ l' -> F r l' -> Q r l') -> @ok SP A l p Q.
Proof. intros H1 H2. eapply (ok_mono SP M); [|exact H1]. intros r l' [Hl Hf]. apply H2; assumption. Qed.

Lemma app_ok {A} (good : A -> Prop) (p : prog A) l :
  app_code allowed good p -> @ok SP A l p (keeps (fun r _ => good r) l).
Proof.
  revert l; induction p as [a|o k IH|a k IH|why]; intros l; cbn [app_code].
  - intros H. split; [apply le_refl|exact H].
  - destruct o; try contradiction; intros H; cbn [ok]; change (more l (fun r l' => @ok SP A l' (k r) (keeps (fun r _ => good r) l)));
      intros r l' Hl; (eapply (ok_mono SP M); [|apply IH, H]; intros; eapply keeps_le; eassumption).
  - intros [Ha Hk]. cbn [ok]. split; [exact Ha|]. intros r l' [Hl Hr].
    eapply (ok_mono SP M); [|apply IH, Hk, Hr]. intros; eapply keeps_le; eassumption.
  - intros [].
Qed.

(** End of a function: the tokens are the same. *)
Ltac ret := cbn [ok]; first [split; kn | kn].

Lemma fireEvent_ok n m l : msg_ok m = true -> @ok SP _ l (fireEvent G n m) (keeps erro l).
Proof.
  intros Hm. destruct l as [s r d x]; nx. unfold fireEvent. unfold ns_events.
  destruct (g_namespaces G (n_conn n) !! n_name n) as [evs|] eqn:E; cbn [default]; unfold id.
  - destruct (evs !! m_event m) as [h|] eqn:E1.
    + op. into. eapply fin; [eapply app_ok, (app_callbacks _ _ HA); eassumption|]. into. ret.
    + destruct (evs !! OnAnyEvent) as [h|] eqn:E2; [|ret].
      op. into. eapply fin; [eapply app_ok, (app_callbacks _ _ HA); eassumption|]. into. ret.
  - rewrite !lookup_empty. ret.
Qed.

Lemma unwait_ok c e l : vc l c -> g_client G c = false -> err_ok e = true -> @ok SP _ l (unwait c e) (keeps any l).
Proof.
  intros Hc Hs He. destruct l as [s r d x]; nx. unfold unwait. op. split; [kn|]. left. into. destruct r0; [ret|].
  op. split; [kn|]. split; [kn|]. into. op. rewrite Hs. split; [kn|]. into.
  op. rewrite Hs. split; [kn|]. eexists. split; [reflexivity|]. into. split.
  - op. rewrite Hs. split; [kn|]. eexists. split; [reflexivity|]. into. ret.
  - ret.
Qed.

Lemma proc_get_ok c name l : vc l c -> @ok SP _ l (proc_get c name) (keeps (fun p l' => vp l' p) l).
Proof.
  intros Hc. destruct l as [s r d x]; nx. unfold proc_get. op. split; [kn|]. into.
  destruct r0 as [p|]; [ret|]. op. split; [kn|]. into. ret.
Qed.
Lemma proc_Wait_ok p l : vp l p -> @ok SP _ l (proc_Wait p) (keeps any l).
Proof.
  intros Hp. destruct l as [s r d x]; nx. unfold proc_Wait. op. split; [kn|]. into. destruct r0; [ret|].
  op. split; [kn|]. into. destruct r0 as [g|]; [|ret]. op.
  split; [kn|]. split; [destruct con; [reflexivity|]; discriminate (H0 eq_refl)|]. into. ret.
Qed.

Lemma Namespace_ok c name l : vc l c ->
  @ok SP _ l (Namespace c name) (keeps (fun r l' => match r with Some n => vn l' n | None => name = "" -> onlyNative G c = false end) l).
Proof.
  intros Hc. destruct l as [s r d x]; nx. unfold Namespace. op. split; [kn|]. into. op. split; [kn|]. into.
  op. split; [kn|]. eexists. split; [reflexivity|]. into. cbn [ok]. split; [kn|]. destruct r1; [kn|assumption].
Qed.

(** Shorthands: an operation without condition, with a condition on its
    object, that gives a token back. *)
Ltac o0 := op; into.
Ltac o1 := op; split; [kn|]; into.
Ltac og := op; split; [kn|]; eexists; split; [reflexivity|]; into.
Ltac cs := lazymatch goal with |- ok _ ?p _ =>
  match p with context [match ?x with _ => _ end] => first [match x with negb ?b => is_var b; destruct b; conj end | is_var x; destruct x; conj | let E := fresh "E" in destruct x eqn:E; conj] end end; cbn [negb].
Ltac call H := eapply seq; [apply H; kn|]; into.
Ltac last H := eapply fin; [apply H; kn|]; into.
Ltac okay := lazymatch goal with |- _ && _ = true => apply andb_true_iff; split; okay | |- _ => first [reflexivity | eassumption | assumption] end.

Lemma vn_le l l' n : l ⊑ l' -> vn l n -> vn l' n.
Proof. intros (_ & _ & H1 & H2) [H3 H4]. split; [set_solver|lia]. Qed.
Lemma vc_le l l' c : l ⊑ l' -> vc l c -> vc l' c.
Proof. intros (_ & _ & H1 & H2) H3. unfold vc in *. set_solver. Qed.

(** A loop whose body keeps the tokens. *)
Lemma loop {A} l (xs : list A) (body : A -> prog unit) :
  (forall y l', y ∈ xs -> l ⊑ l' -> @ok SP _ l' (body y) (keeps any l')) -> @ok SP _ l (for_all xs body) (keeps any l).
Proof.
  intros H. eapply (ok_mono SP M); [|apply (ok_for_all SP M (fun l' => l ⊑ l')); [apply le_refl|]].
  - intros r l' Hl. split; [exact Hl|exact I].
  - intros y l' Hy Hl. eapply (ok_mono SP M); [|apply H; assumption]. intros r l'' [H1 _]. eapply le_trans; eassumption.
Qed.
Lemma loop_each {A R} (P : R -> Prop) l (xs : list A) (body : A -> prog (option R)) :
  (forall y l', y ∈ xs -> l ⊑ l' -> @ok SP _ l' (body y) (keeps (fun r _ => match r with Some v => P v | None => True end) l')) ->
  @ok SP _ l (for_each xs body) (keeps (fun r _ => match r with Some v => P v | None => True end) l).
Proof.
  intros H. eapply (ok_mono SP M); [|apply (ok_for_each SP M (fun l' => l ⊑ l') P); [apply le_refl|]].
  - intros r l' [Hl Hp]. split; assumption.
  - intros y l' Hy Hl. eapply (ok_mono SP M); [|apply H; assumption]. intros r l'' [H1 H2]. split; [eapply le_trans; eassumption|exact H2].
Qed.

Lemma forceLeaveAll_ok n b l : vn l n -> @ok SP _ l (forceLeaveAll G n b) (keeps any l).
Proof.
  intros Hn. destruct l as [s r d x]; nx. unfold forceLeaveAll. o1. o1.
  eapply seq; [apply loop|].
  { intros room l' _ Hl. into. call fireEvent_ok. o1. call fireEvent_ok. ret. }
  into. og. ret.
Qed.

Lemma Close_ok c l : vc l c -> @ok SP _ l (Close G c) (keeps any l).
Proof.
  intros Hc. destruct l as [s r d x]; nx. unfold Close. op. split; [kn|]. into. split; [|cbn [negb]; ret]. cbn [negb].
  eapply (seq _ _ _ any).
  { destruct (onlyNative G c) eqn:Eo; [ret|]. o1. o1.
    eapply seq; [apply loop|].
    { intros [name n] l' Hy Hl. into.
      rewrite Forall_forall in H0. specialize (H0 _ Hy). cbn in H0.
      call forceLeaveAll_ok. call fireEvent_ok. op. split; [kn|]. split; [kn|]. into. ret. }
    into. og. o1. ret. }
  into. o1. eapply (seq _ _ _ any).
  { destruct (IsClient G c); [ret|]. op. cbn [spawn_pre]. split; [kn|]. into. ret. }
  into. og. o1. ret.
Qed.

Lemma write_ok c b bin l : vc l c -> @ok SP _ l (write G c b bin) (keeps any l).
Proof.
  intros Hc. destruct l as [s r d x]; nx. unfold write. o1. destruct r0 as [e|]; [|ret].
  eapply (seq _ _ _ any). { destruct (is_close_error (Some e)); [apply Close_ok; kn|ret]. }
  into. ret.
Qed.

Lemma Is_ok c s l : vc l c -> @ok SP _ l (Is G c s) (keeps any l).
Proof.
  intros Hc. destruct l as [st r d x]; nx. unfold Is. destruct (is_empty s); [ret|].
  destruct (IsClient G c); [|ret]. o1. ret.
Qed.

Lemma canWrite_ok c m l : vc l c -> @ok SP _ l (canWrite G c m) (keeps any l).
Proof.
  intros Hc. destruct l as [s r d x]; nx. unfold canWrite. o1. destruct r0; [ret|].
  eapply (seq _ _ _ any). { unfold IsClient. destruct (g_client G c) eqn:Ec; [ret|]. apply unwait_ok; kn. }
  into. eapply (seq _ _ _ any).
  { destruct (isConnect m || isDisconnect m); [ret|].
    destruct (m_locked m).
    - o1. cs; [|ret]. cs; [|ret]. o1. ret.
    - o1. o1. og. cs; [|ret]. cs; [|ret]. o1. o1. og. ret. }
  into. cs; [|ret]. call Is_ok. ret.
Qed.

Lemma serialize_ok m : msg_ok m = true -> exists b, serializeMessage (set_fromExplicit "" m) = Ok b.
Proof.
  intros Hm. unfold serializeMessage. cbn. destruct (m_isNative m && is_empty (m_wait m)); [eauto|].
  unfold msg_ok, err_ok, has_text in Hm. unfold serializeOutput. destruct (m_err m) as [e|]; [|eauto].
  destruct (is_reply e); [eauto|]. destruct (err_text e); [eauto|discriminate].
Qed.
Lemma Write_ok c m l : vc l c -> msg_ok m = true -> @ok SP _ l (Write G c m) (keeps any l).
Proof.
  intros Hc Hm. destruct l as [s r d x]; nx. unfold Write. call canWrite_ok. cs; [|ret].
  destruct (serialize_ok m Hm) as [b ->]. last write_ok. ret.
Qed.
Lemma writeEmptyReply_ok c tok l : vc l c -> @ok SP _ l (writeEmptyReply G c tok) (keeps any l).
Proof. apply write_ok. Qed.

Notation asked := (fun r (_ : gl) => msg_ok (fst r) && err_ok (snd r) = true).
Lemma ask_ok c x m nx l : vc l c -> msg_ok m = true -> @ok SP _ l (ask G c x m nx) (keeps asked l).
Proof.
  intros Hc Hm. destruct l as [s r d y]; nx. unfold ask. destruct (onlyNative G c); [ret|].
  o1. destruct r0; [cbn [ok]; split; [kn|]; cbn; okay|]. o0. destruct r0; [ret|]. o0. o0. o0.
  eapply (seq _ _ _ any). { destruct nx; [op; cbn [spawn_pre]; split; [kn|]; into; ret|]. o1. ret. }
  into. call Write_ok. cs; [|ret]. o0. cs.
  - o1. cbn [ok]. split; [kn|]. cbn. match goal with |- context [if ?b then _ else _] => destruct b end; [reflexivity|kn].
  - eapply (seq _ _ _ any). { destruct nx; [ret|]. o1. ret. }
    into. o0. cbn [ok]. split; [kn|]. cbn. okay.
Qed.
Lemma Ask_ok c x m l : vc l c -> msg_ok m = true -> @ok SP _ l (Ask G c x m) (keeps asked l).
Proof. intros Hc Hm. destruct l as [s r d y]; nx. unfold Ask. o1. last ask_ok. ret. Qed.

Ltac st := match goal with |- @ok _ _ ?l _ _ => destruct l as [?s ?r ?d ?x]; nx end.

Lemma exch_call_ok x l : @ok SP _ l (exch_call G x) (keeps any l).
Proof. st. unfold exch_call. cs; [|ret]. o0. ret. Qed.
Lemma notifyNamespaceConnected_ok c n m l : msg_ok m = true -> @ok SP _ l (notifyNamespaceConnected G c n m) (keeps any l).
Proof. intros Hm. st. unfold notifyNamespaceConnected. call fireEvent_ok. cs; [ret|]. last exch_call_ok. ret. Qed.
Lemma notifyNamespaceDisconnect_ok c m l : @ok SP _ l (notifyNamespaceDisconnect G c m) (keeps any l).
Proof. st. unfold notifyNamespaceDisconnect. cs; [ret|]. last exch_call_ok. ret. Qed.

Notation refo := (fun r (l' : gl) => match r with Some n => vn l' n | None => True end).
Lemma tryNamespace_ok c m l : vc l c -> @ok SP _ l (tryNamespace G c m) (keeps refo l).
Proof.
  intros Hc. st. unfold tryNamespace. call proc_get_ok. call proc_Wait_ok. call Namespace_ok. cs; [ret|].
  call Write_ok. ret.
Qed.

Lemma askConnect_body_ok c x ns l : vc l c -> @ok SP _ l (askConnect_body G c x ns) (keeps (fun r _ => err_ok (snd r) = true) l).
Proof.
  intros Hc. st. unfold askConnect_body. call Namespace_ok. cs; [ret|]. cs; [|ret].
  o1. conj. call fireEvent_ok. cs; [ret|]. call Ask_ok.
  match goal with H : _ && _ = true |- _ => apply andb_true_iff in H as [? ?] end.
  destruct (snd _) as [?|] eqn:?; [ret|]. o1. op. split; [kn|]. split; [kn|]. into. og.
  call notifyNamespaceConnected_ok. ret.
Qed.
Lemma askConnect_ok c x ns l : con = true -> vc l c -> @ok SP _ l (askConnect G c x ns) (keeps (fun r _ => err_ok (snd r) = true) l).
Proof.
  intros Hcon Hc. st. unfold askConnect. call proc_get_ok. unfold proc_Start. op. split; [exact Hcon|]. split; [kn|]. into.
  call askConnect_body_ok. unfold proc_Done.
  eapply (ok_seq SP M). { op. split; [kn|]. eexists. split; [reflexivity|]. into. split.
    - op. split; [kn|]. eexists. split; [reflexivity|]. into. cbn [ok].
      instantiate (1 := fun _ l' => GL s r d x0 ⊑ l'). kn.
    - cbn [ok]. kn. }
  cbv beta. into. ret.
Qed.
Lemma Connect_loop_ok c x ns t l : con = true -> vc l c -> @ok SP _ l (Connect_loop G c x ns t) (keeps (fun r _ => err_ok (snd r) = true) l).
Proof.
  intros Hcon Hc. st. unfold Connect_loop. o1. cs; [last askConnect_ok; ret|]. o0.
  eapply (seq _ _ _ any). { cs; [o1; ret|ret]. }
  into. cs; [ret|]. cs; [op; split; [kn|]; intros [] ? ?; nx; ret|].
  cbn [ok]. split; [split; [exact I|congruence]|]. intros q l' [Hl Hr]. into. ret.
Qed.
Lemma Connect_ok c x ns l : con = true -> vc l c -> @ok SP _ l (Connect G c x ns) (keeps (fun r _ => err_ok (snd r) = true) l).
Proof.
  intros Hcon Hc. st. unfold Connect, IsClient. destruct (g_client G c) eqn:Ec; [apply askConnect_ok; kn|].
  call unwait_ok. last Connect_loop_ok. ret.
Qed.
Lemma WaitConnect_ok c x ns cur l : vc l c -> @ok SP _ l (WaitConnect c x ns cur) (keeps (fun r _ => err_ok (snd r) = true) l).
Proof.
  intros Hc. st. unfold WaitConnect. o0. cs; [ret|].
  eapply (seq _ _ _ any). { cs; [ret|]. last Namespace_ok. ret. }
  into. cs.
  - o1. cs; [ret|]. o0. cbn [ok]. split; [split; [exact I|intros _; exact I]|]. intros q l' [Hl Hr]. into. ret.
  - o0. cbn [ok]. split; [split; [exact I|intros _; exact I]|]. intros q l' [Hl Hr]. into. ret.
Qed.

Lemma replyConnect_ok c m l : vc l c -> msg_ok m = true -> @ok SP _ l (replyConnect G c m) (keeps any l).
Proof.
  intros Hc Hm. st. unfold replyConnect. cs; [ret|]. call Namespace_ok. cs; [call writeEmptyReply_ok; ret|].
  cs; [|call Write_ok; ret]. o1. call fireEvent_ok. cs; [call Write_ok; ret|].
  o1. op. split; [kn|]. split; [kn|]. into. og. call writeEmptyReply_ok. last notifyNamespaceConnected_ok. ret.
Qed.

Lemma askDisconnect_ok c x m lock l : vc l c -> onlyNative G c = false -> msg_ok m = true ->
  @ok SP _ l (askDisconnect G c x m lock) (keeps erro l).
Proof.
  intros Hc Ho Hm. st. unfold askDisconnect. destruct lock.
  - o1. o1. og. cs; [|ret]. call Ask_ok.
    match goal with H : _ && _ = true |- _ => apply andb_true_iff in H as [? ?] end.
    destruct (snd _) as [?|] eqn:?; [ret|]. call forceLeaveAll_ok. o1. op. split; [kn|]. split; [kn|]. into. og.
    call fireEvent_ok. call notifyNamespaceDisconnect_ok. ret.
  - cbn [bind]. o1. cbn [bind]. cs; [|ret]. call Ask_ok.
    match goal with H : _ && _ = true |- _ => apply andb_true_iff in H as [? ?] end.
    destruct (snd _) as [?|] eqn:?; [ret|]. call forceLeaveAll_ok. cbn [bind]. op. split; [kn|]. split; [kn|]. into. cbn [bind].
    call fireEvent_ok. call notifyNamespaceDisconnect_ok. ret.
Qed.
Lemma DisconnectAll_ok c x l : vc l c -> @ok SP _ l (DisconnectAll G c x) (keeps erro l).
Proof.
  intros Hc. st. unfold DisconnectAll. cs; [ret|]. o1. o1.
  eapply seq; [apply (loop_each (fun e => err_ok (Some e) = true))|].
  { intros [name n] l' Hy Hl. into. last askDisconnect_ok. cbv beta in *. split; [kn|]. case_match; [assumption|exact I]. }
  into. og. cbn [ok]. split; [kn|]. match goal with H : match ?y with _ => _ end |- _ => destruct y end; [assumption|reflexivity].
Qed.

Lemma replyDisconnect_ok c m l : vc l c -> onlyNative G c = false -> msg_ok m = true -> @ok SP _ l (replyDisconnect G c m) (keeps any l).
Proof.
  intros Hc Ho Hm. st. unfold replyDisconnect. cs; [ret|]. call Namespace_ok. cs; [|call writeEmptyReply_ok; ret].
  cs.
  - call forceLeaveAll_ok. o1. op. split; [kn|]. split; [kn|]. into. og. call writeEmptyReply_ok. call fireEvent_ok. ret.
  - call fireEvent_ok. cs; [call Write_ok; ret|]. call forceLeaveAll_ok. o1. op. split; [kn|]. split; [kn|]. into. og.
    call notifyNamespaceDisconnect_ok. call writeEmptyReply_ok. ret.
Qed.

Notation snderr := (fun r (_ : gl) => err_ok (snd r) = true).
Lemma askRoomJoin_ok n x room l : vn l n -> @ok SP _ l (askRoomJoin G n x room) (keeps snderr l).
Proof.
  intros Hn. st. conj. unfold askRoomJoin. o1. o1. og. cs; [ret|]. call Ask_ok.
  match goal with H : _ && _ = true |- _ => apply andb_true_iff in H as [? ?] end.
  destruct (snd _) as [?|] eqn:?; [ret|]. call fireEvent_ok. cs; [ret|]. o1. o1. og. call fireEvent_ok. ret.
Qed.
Lemma replyRoomJoin_ok n m l : vn l n -> msg_ok m = true -> @ok SP _ l (replyRoomJoin G n m) (keeps any l).
Proof.
  intros Hn Hm. st. conj. unfold replyRoomJoin. cs; [ret|]. o1. o1. og. cs; [call writeEmptyReply_ok; ret|].
  call fireEvent_ok. cs; [call Write_ok; ret|]. o1. o1. og. call fireEvent_ok. call writeEmptyReply_ok. ret.
Qed.
Lemma askRoomLeave_ok n x m lock l : vn l n -> msg_ok m = true -> @ok SP _ l (askRoomLeave G n x m lock) (keeps erro l).
Proof.
  intros Hn Hm. st. conj. unfold askRoomLeave. destruct lock.
  - o1. o1. og. cs; [|ret]. call Ask_ok.
    match goal with H : _ && _ = true |- _ => apply andb_true_iff in H as [? ?] end.
    destruct (snd _) as [?|] eqn:?; [ret|]. call fireEvent_ok. cs; [ret|]. o1. o1. og. call fireEvent_ok. ret.
  - cbn [bind]. o1. cbn [bind]. cs; [|ret]. call Ask_ok.
    match goal with H : _ && _ = true |- _ => apply andb_true_iff in H as [? ?] end.
    destruct (snd _) as [?|] eqn:?; [ret|]. call fireEvent_ok. cs; [ret|]. cbn [bind]. o1. cbn [bind]. call fireEvent_ok. ret.
Qed.
Lemma Room_ok n room l : vn l n -> @ok SP _ l (Room n room) (keeps any l).
Proof. intros Hn. st. conj. unfold Room. o1. o1. og. ret. Qed.
Lemma replyRoomLeave_ok n m l : vn l n -> msg_ok m = true -> @ok SP _ l (replyRoomLeave G n m) (keeps any l).
Proof.
  intros Hn Hm. st. conj. unfold replyRoomLeave. cs; [ret|]. call Room_ok. cs; [|call writeEmptyReply_ok; ret]. cs.
  - call fireEvent_ok. o1. o1. og. call writeEmptyReply_ok. call fireEvent_ok. ret.
  - call fireEvent_ok. cs; [call Write_ok; ret|]. o1. o1. og. call fireEvent_ok. call writeEmptyReply_ok. ret.
Qed.
Lemma LeaveAll_ok n x l : vn l n -> @ok SP _ l (LeaveAll G (Some n) x) (keeps erro l).
Proof.
  intros Hn. st. conj. unfold LeaveAll. o1. o1. eapply seq; [apply (loop_each (fun e => err_ok (Some e) = true))|].
  { intros room l' Hy Hl. into. last askRoomLeave_ok. cbv beta in *. split; [kn|]. case_match; [assumption|exact I]. }
  into. og. cbn [ok]. split; [kn|]. match goal with H : match ?y with _ => _ end |- _ => destruct y end; [assumption|reflexivity].
Qed.

Lemma send_ok ch m l : msg_ok m = true -> @ok SP _ l (send ch m) (keeps any l).
Proof. intros Hm. st. unfold send. o1. o0. ret. Qed.

Lemma resolve_text ks text : (forall k, In k ks -> has_text (k_err k) = true) -> has_text (resolveError ks text) = true.
Proof.
  induction ks as [|k ks IH]; intros H; [reflexivity|]. cbn [resolveError]. destruct (known_matches text k); [apply H; left; reflexivity|].
  apply IH. intros k' Hk. apply H. right. exact Hk.
Qed.
Lemma deserialize_ok c typ b : msg_ok (deserialize G c typ b) = true.
Proof.
  unfold deserialize, DeserializeMessage, msg_ok.
  destruct (if isServerConnID _ then _ else _) as [w1 fe]. cbn [m_err].
  unfold deserializeInput. destruct (is_empty b); [reflexivity|]. destruct (onlyNative G c); [reflexivity|].
  destruct (splitN validMessageSepCount sep b) as [|f1 [|f2 [|f3 [|f4 [|f5 [|f6 [|f7 [|? ?]]]]]]]];
    try (destruct (allowNative G c); reflexivity).
  destruct (is_empty f7); [reflexivity|]. destruct (String.eqb f5 trueByte); [|reflexivity]. cbn [i_err err_ok].
  apply resolve_text, (app_known _ _ HA).
Qed.
Lemma deserialize_native c typ b : onlyNative G c = true ->
  m_isInvalid (deserialize G c typ b) = true \/ m_isNative (deserialize G c typ b) = true.
Proof.
  intros Ho. unfold deserialize, DeserializeMessage. destruct (if isServerConnID _ then _ else _) as [w1 fe]. cbn [m_isInvalid m_isNative].
  unfold deserializeInput. rewrite Ho. destruct (is_empty b); [left; reflexivity|]. right. cbn [i_event].
  assert (allowNative G c = true) as ->; [|reflexivity].
  unfold onlyNative in Ho. destruct (allowNative G c); [reflexivity|discriminate].
Qed.

Lemma handle_event_ok c m l : vc l c -> onlyNative G c = false -> msg_ok m = true -> @ok SP _ l (handle_event G c m) (keeps erro l).
Proof.
  intros Hc Ho Hm. st. unfold handle_event. cs; [call replyConnect_ok; ret|]. cs; [call replyDisconnect_ok; ret|].
  cs; [call tryNamespace_ok; cs; [call replyRoomJoin_ok; ret|ret]|].
  cs; [call tryNamespace_ok; cs; [call replyRoomLeave_ok; ret|ret]|].
  call tryNamespace_ok. cs; [|ret]. call fireEvent_ok. cs; [|ret]. call Write_ok. ret.
Qed.
Lemma handle_reply_or_event_ok c m l : vc l c -> onlyNative G c = false -> msg_ok m = true -> @ok SP _ l (handle_reply_or_event G c m) (keeps erro l).
Proof.
  intros Hc Ho Hm. st. unfold handle_reply_or_event. o1. cs; [call send_ok; ret|]. last handle_event_ok. ret.
Qed.
Lemma handleMessage_ok c m l : vc l c -> msg_ok m = true -> (onlyNative G c = true -> m_isInvalid m = true \/ m_isNative m = true) ->
  @ok SP _ l (handleMessage G c m) (keeps erro l).
Proof.
  intros Hc Hm Hn. st. unfold handleMessage. destruct (m_isInvalid m); [ret|].
  destruct (m_isNative m && onlyNative G c) eqn:E.
  { apply andb_true_iff in E as [_ Ho]. call Namespace_ok. cs; [last fireEvent_ok; ret|].
    match goal with H : "" = "" -> _ |- _ => rewrite (H eq_refl) in Ho; discriminate end. }
  assert (Ho : onlyNative G c = false).
  { destruct (onlyNative G c); [|reflexivity]. destruct (Hn eq_refl) as [?|Hx]; [discriminate|]. rewrite Hx in E. discriminate. }
  clear Hn E. destruct (IsWait (IsClient G c) m); [|apply handle_event_ok; kn].
  destruct (IsClient G c); [apply handle_reply_or_event_ok; kn|].
  destruct (g_exch G) as [ex|] eqn:Ex.
  - destruct (m_fromStackExchange m).
    + o0. cbn [ok]. split; [kn|]. apply (app_exch _ _ HA), Ex.
    + o0. cs; [call send_ok; ret|]. last handle_reply_or_event_ok. ret.
  - o0. cs; [call send_ok; ret|]. last handle_reply_or_event_ok. ret.
Qed.
Lemma HandlePayload_ok c typ b l : vc l c -> @ok SP _ l (HandlePayload G c typ b) (keeps erro l).
Proof. intros Hc. apply handleMessage_ok; [exact Hc|apply deserialize_ok|apply deserialize_native]. Qed.

Lemma handleQueue_ok c l : vc l c -> @ok SP _ l (handleQueue G c) (keeps any l).
Proof.
  intros Hc. st. unfold handleQueue. o1. eapply fin; [apply loop|into; ret].
  intros [typ q] l' _ Hl. into. eapply seq; [apply loop|].
  { intros b l' _ Hl'. into. call HandlePayload_ok. ret. }
  into. o1. ret.
Qed.

Lemma wait_ok c l : vc l c -> (g_client G c = false -> role l = RRd c 0) -> @ok SP _ l (wait c) (keeps erro l).
Proof.
  intros Hc Hr. st. unfold wait. destruct (g_client G c) eqn:Ec.
  - op. split; [kn|]. left. into. cs; [o1; ret|]. op. rewrite Ec. split; [kn|]. into.
    eapply (seq _ _ _ any). { cs; [|ret]. op. rewrite Ec. split; [kn|]. into. ret. }
    into. o1. ret.
  - specialize (Hr eq_refl). subst. op. split; [kn|]. right. split; [reflexivity|]. into. split; [o1; ret|].
    op. rewrite Ec. split; [kn|]. split; [reflexivity|]. into. op. rewrite Ec. split; [kn|]. split; [reflexivity|]. into.
    o1. ret.
Qed.

Lemma unwait_rd_ok c e l : vc l c -> role l = RRd c 0 -> err_ok e = true -> @ok SP _ l (unwait c e) (keeps any l).
Proof.
  intros Hc Hr He. destruct (g_client G c) eqn:Ec; [|apply unwait_ok; kn]. st. subst. unfold unwait.
  op. split; [kn|]. right. split; [reflexivity|]. into. split; [ret|].
  op. split; [kn|]. split; [kn|]. into. op. rewrite Ec. split; [kn|]. split; [reflexivity|]. into.
  op. rewrite Ec. split; [kn|]. split; [reflexivity|]. into. split; [|ret].
  op. rewrite Ec. split; [kn|]. split; [reflexivity|]. into. ret.
Qed.

Lemma err_ok_text e : err_ok (Some e) = true -> exists text, err_text e = Ok text.
Proof. cbn. unfold has_text. destruct (err_text e); [eauto|discriminate]. Qed.

Lemma handleACK_ok c typ b l : vc l c -> role l = RRd c 0 -> is_empty b = false -> @ok SP _ l (handleACK G c typ b) (keeps any l).
Proof.
  intros Hc Hr Hb. st. subst. unfold handleACK. destruct b as [|a rest]; [discriminate|]. cs; [|cs; [|cs]].
  - eapply seq; [apply wait_ok; intros; kn|]. into. match goal with H : err_ok ?y = true |- _ => destruct y as [e|] end.
    + destruct (err_ok_text e) as [text ->]; [assumption|]. call write_ok. ret.
    + o0. o1. call handleQueue_ok. o1. last write_ok. ret.
  - o1. o0. o1. call unwait_rd_ok. ret.
  - call unwait_rd_ok. ret.
  - o1. ret.
Qed.

Lemma sendClientACK_ok c l : vc l c -> g_client G c = true -> @ok SP _ l (sendClientACK G c) (keeps erro l).
Proof.
  intros Hc Hg. st. unfold sendClientACK. cs; [ret|]. call write_ok. cs; [|call Close_ok; ret].
  eapply seq; [apply wait_ok; [kn|rewrite Hg; discriminate]|]. into.
  match goal with H : err_ok ?y = true |- _ => destruct y as [e|] end; [call Close_ok; ret|ret].
Qed.

Lemma reader_step_ok c l : vc l c -> role l = RRd c 0 -> @ok SP _ l (reader_step G c) (keeps any l).
Proof.
  intros Hc Hr. st. subst. unfold reader_step. o1. cs; [call unwait_rd_ok; ret|].
  match goal with p : _ * _ |- _ => destruct p end. cs; [ret|]. o1. cs; [|last handleACK_ok; ret].
  o1. call HandlePayload_ok. o1. ret.
Qed.

Lemma read_next_ok c ch l : vc l c -> @ok SP _ l (read_next G c ch) (keeps any l).
Proof.
  intros Hc. st. unfold read_next. o1. cs; [last send_ok; ret|].
  match goal with p : _ * _ |- _ => destruct p end. eapply fin; [apply send_ok, deserialize_ok|]. into. ret.
Qed.

Lemma publishMessages_ok c msgs l : vc l c -> forallb msg_ok msgs = true -> @ok SP _ l (publishMessages G c msgs) (keeps any l).
Proof.
  revert l. induction msgs as [|m rest IH]; intros l Hc Hm; cbn [publishMessages].
  { split; [apply le_refl|exact I]. }
  cbn [forallb] in Hm. apply andb_true_iff in Hm as [Hm Hr]. st. o1. cs; [ret|]. cs; [ret|].
  call Write_ok. cs; [last IH; ret|]. o1. cs; [ret|]. last IH. ret.
Qed.
Lemma publish_ok c msgs l : vc l c -> forallb msg_ok msgs = true -> @ok SP _ l (publish G c msgs) (keeps any l).
Proof. intros Hc Hm. st. unfold publish. o0. last publishMessages_ok. ret. Qed.

Lemma waitMessages_ok c l : vc l c -> @ok SP _ l (waitMessages G c) (keeps any l).
Proof.
  intros Hc. st. unfold waitMessages. o0. o0. op. eexists. split; [reflexivity|]. into. o1. cs.
  - o0. o0. call publish_ok. op. eexists. split; [reflexivity|]. into. ret.
  - o0. op. eexists. split; [reflexivity|]. into. ret.
Qed.

Lemma broadcast_ok msgs l : forallb msg_ok msgs = true -> @ok SP _ l (broadcast msgs) (keeps any l).
Proof.
  intros Hm. st. unfold broadcast. o0. o1. op. eexists. split; [reflexivity|]. into. o0.
  op. eexists. split; [reflexivity|]. into. ret.
Qed.

Definition vs (l : gl) (s : option sender) : Prop :=
  match s with
  | None | Some (SendExclude _) => True
  | Some (SendConn c) => vc l c
  | Some (SendNS n) | Some (SendRoom n) => vn l n
  end.
Lemma exclude_ok a b msgs : forallb msg_ok msgs = true -> forallb msg_ok (map (exclude a b) msgs) = true.
Proof.
  induction msgs as [|m ms IH]; [reflexivity|]. cbn [forallb map]. intros H. apply andb_true_iff in H as [H1 H2].
  rewrite IH, andb_true_r by assumption. unfold exclude. destruct (negb _); exact H1.
Qed.
Lemma Broadcast_ok e msgs l : vs l e -> forallb msg_ok msgs = true -> @ok SP _ l (Broadcast G e msgs) (keeps any l).
Proof.
  intros He Hm. st. unfold Broadcast. eapply (seq _ _ _ (fun r _ => forallb msg_ok r = true)).
  { destruct e as [s0|]; [|ret]. eapply (seq _ _ _ any).
    { unfold exclusion. destruct s0; try ret. cbn [vs] in He. nx. o1. ret. }
    into. cbn [ok]. split; [kn|]. apply exclude_ok. assumption. }
  into. cs; [last exch_call_ok; ret|]. cs; [o1; o0; ret|]. last broadcast_ok. ret.
Qed.

Lemma ServerAsk_ok x m l : msg_ok m = true -> @ok SP _ l (ServerAsk G x m) (keeps asked l).
Proof.
  intros Hm. st. unfold ServerAsk. o0. destruct (g_exch G) as [e|] eqn:Ex.
  - o0. cbn [ok]. split; [kn|]. apply andb_true_iff. apply (app_exch _ _ HA e Ex). exact Hm.
  - o0. o0. eapply seq; [apply Broadcast_ok; [exact I|cbn [forallb]; apply andb_true_iff; split; [exact Hm|reflexivity]]|].
    into. o0. cs; [ret|]. o0. o0. cbn [ok]. split; [kn|]. cbn. okay.
Qed.

Lemma DoAct_ok f async l : @ok SP _ l (DoAct f async) (keeps any l).
Proof. st. unfold DoAct. o0. o0. cs; [ret|]. o0. ret. Qed.
Lemma ServerClose_ok l : @ok SP _ l ServerClose (keeps any l).
Proof. st. unfold ServerClose. o0. cs; [last DoAct_ok; ret|ret]. Qed.

Lemma collect_conns_ok cs acc l : Forall (vc l) cs -> @ok SP _ l (collect_conns cs acc) (keeps any l).
Proof.
  revert acc l. induction cs as [|c cs IH]; intros acc l H; cbn [collect_conns]; [split; [apply le_refl|exact I]|].
  apply Forall_cons in H as [Hc H]. st. o1. eapply fin; [apply IH|into; ret].
  eapply Forall_impl; [exact H|]. intros c' Hc'. nx. kn.
Qed.
Lemma collect_nss_ok cs name acc l : Forall (vc l) cs -> @ok SP _ l (collect_nss cs name acc) (keeps any l).
Proof.
  revert acc l. induction cs as [|c cs IH]; intros acc l H; cbn [collect_nss]; [split; [apply le_refl|exact I]|].
  apply Forall_cons in H as [Hc H]. st. call Namespace_ok. cs.
  - o1. eapply fin; [apply IH|into; ret]. eapply Forall_impl; [exact H|]. intros c' Hc'. nx. kn.
  - eapply fin; [apply IH|into; ret]. eapply Forall_impl; [exact H|]. intros c' Hc'. nx. kn.
Qed.

Lemma act_call_ok f c l : vc l c -> @ok SP _ l (act_call G f c) (keeps any l).
Proof.
  intros Hc. st. destruct f; cbn [act_call].
  - o0. eapply fin; [eapply app_ok, (app_do _ _ HA)|]. into. ret.
  - last Close_ok. ret.
Qed.

Lemma server_step_ok l : @ok SP _ l (server_step G) (keeps any l).
Proof.
  st. unfold server_step. o0. o0. cs.
  - o1. o0. ret.
  - o1. cs; [|ret]. o1. o0. eapply (seq _ _ _ any).
    { destruct (g_ondisconnect G) as [f|] eqn:Ef; [|ret]. eapply (seq _ _ _ any).
      { cs; [ret|]. op. split; [kn|]. left. into. cs; [|ret]. o1. ret. }
      into. cs; [ret|]. o0. eapply seq; [eapply app_ok, (app_ondisconnect _ _ HA), Ef|]. into. ret. }
    into. cs; [ret|]. last exch_call_ok. ret.
  - o0. eapply fin; [apply loop|into; ret]. intros c l' Hy Hl.
    match goal with H : Forall _ _ |- _ => rewrite Forall_forall in H; specialize (H _ Hy) end. into. call publish_ok. ret.
  - o0. eapply seq; [apply loop|].
    { intros c l' Hy Hl.
      match goal with H : Forall _ _ |- _ => rewrite Forall_forall in H; specialize (H _ Hy) end. into. last act_call_ok. ret. }
    into. cs; [o0; ret|ret].
Qed.

(** What a goroutine that makes a connection knows afterwards. *)
Lemma Upgrade_ok c l : role l = RNone -> g_client G c = false -> @ok SP _ l (Upgrade G c) (keeps any l).
Proof.
  intros Hr Hg. st. subst. unfold Upgrade, newConn. o0. cs; [o0; ret|].
  op. split; [reflexivity|]. split; [reflexivity|]. into.
  eapply (seq _ _ _ any). { cs; [|ret]. op. cbn [spawn_pre]. split; [kn|]. into. ret. }
  into. o1. op. split; [reflexivity|]. into.
  eapply (seq _ _ _ (fun e _ => err_ok e = true)).
  { destruct (g_exch G) as [e|] eqn:Ex; [|ret]. o0. cbn [ok]. split; [kn|]. apply (app_exch _ _ HA e Ex). }
  into. cs; [call unwait_ok; o0; ret|]. eapply (seq _ _ _ (fun e _ => err_ok e = true)).
  { destruct (g_onconnect G) as [f|] eqn:Ef; [|ret]. o0. eapply fin; [eapply app_ok, (app_onconnect _ _ HA), Ef|]. into. ret. }
  into. cs; call unwait_ok; o0; ret.
Qed.
Lemma Dial_ok c l : role l = RNone -> g_client G c = true -> @ok SP _ l (Dial G c) (keeps any l).
Proof.
  intros Hr Hg. st. subst. unfold Dial, newConn.
  op. split; [reflexivity|]. split; [reflexivity|]. into. op. split; [reflexivity|]. into.
  call sendClientACK_ok. cs; [o0; ret|]. o1. o0. ret.
Qed.

Lemma code_ok t l : start G t l -> @ok SP _ l (code G t) (@after SP).
Proof.
  intros [Hs Ht]. destruct l as [s r d x]. cbn [stk role] in *. subst s. unfold after; cbn [ls_start ls_fin safe].
  destruct t as [k|c|c|c ch|c| | |c|c|c]; cbn [code] in *.
  - eapply seq; [eapply app_ok, (app_user _ _ HA)|]. into. cbn [ok]. reflexivity.
  - destruct Ht as [-> Hc]. nx. o1. cbn [ok]. match goal with |- context [if ?b then _ else _] => destruct b end; [reflexivity|]. split; [reflexivity|]. split; [reflexivity|kn].
  - destruct Ht as [-> Hc]. nx. call reader_step_ok. cs.
    + cbn [ok]. split; [reflexivity|]. split; [reflexivity|kn].
    + call Close_ok. reflexivity.
  - destruct Ht as [-> Hc]. nx. call read_next_ok. reflexivity.
  - destruct Ht as [-> Hc]. nx. o1. reflexivity.
  - subst. o0. split; reflexivity.
  - subst. call server_step_ok. split; reflexivity.
  - destruct Ht as [-> Hc]. call Upgrade_ok. reflexivity.
  - destruct Ht as [-> Hc]. nx. call waitMessages_ok. cbn [ok]. match goal with |- context [if ?b then _ else _] => destruct b end; [|reflexivity]. split; [reflexivity|]. split; [reflexivity|kn].
  - destruct Ht as [-> Hc]. call Dial_ok. reflexivity.
Qed.

(** The arguments of an API call are known. *)
Definition vo (l : gl) (n : option nsref) : Prop := match n with Some n => vn l n | None => True end.
Definition va (l : gl) (a : api) : Prop :=
  match a with
  | AConnect c _ _ | AConnectLoop c _ _ _ | ANamespace c _ | ADisconnectAll c _ | AWrite c _
  | AAsk c _ _ | AClose c | AIsClosed c | AGetID c | ASet c _ _ | AGet c _ | AIncrement c _
  | ADecrement c _ | AHandlePayload c _ _ => vc l c
  | AWaitConnect c _ _ cur => vc l c /\ vo l cur
  | AEmit n _ _ | AEmitBinary n _ _ | ANSAsk n _ _ _ | AJoinRoom n _ _ | ARoom n _ | ARooms n
  | ALeaveAll n _ | ADisconnect n _ | ANSBroadcast n _ _ => vo l n
  | ARoomEmit n _ _ _ | ARoomLeave n _ _ => vn l n
  | ABroadcast e _ => vs l e
  | _ => True
  end.

Lemma add_counter_ok c k d l : vc l c -> @ok SP _ l (add_counter c k d) (keeps any l).
Proof. intros Hc. st. unfold add_counter. o1. cs; [cs|]; o1; ret. Qed.

Lemma impl_ok a l : va l a -> careful G a /\ (con = false -> no_connect a) -> @ok SP _ l (impl G a) (keeps (fun r _ => res_ok a r = true) l).
Proof.
  intros Hv [Hca Hno].
  assert (Hw : forall A (F : A -> gl -> Prop) (p : prog A) (f : A -> bool),
    @ok SP A l p (keeps F l) -> (forall r l', F r l' -> f r = true) -> @ok SP A l p (keeps (fun r _ => f r = true) l)).
  { intros A F p f H1 H2. eapply (ok_mono SP M); [|exact H1]. intros r l' [H3 H4]. split; [exact H3|]. eapply H2, H4. }
  destruct a; cbn [impl res_ok careful va no_connect] in *.
  1, 2: assert (Hcon : con = true) by (apply not_false_is_true; exact Hno).
  - apply Connect_ok; auto.
  - apply Connect_loop_ok; auto.
  - apply WaitConnect_ok; tauto.
  - eapply Hw; [apply Namespace_ok; auto|auto].
  - apply DisconnectAll_ok; auto.
  - eapply Hw; [apply Write_ok; auto|auto].
  - apply Ask_ok; auto.
  - eapply Hw; [apply Close_ok; auto|auto].
  - st. o1. ret.
  - st. o1. ret.
  - st. o1. ret.
  - st. o1. ret.
  - eapply Hw; [apply add_counter_ok; auto|auto].
  - eapply Hw; [apply add_counter_ok; auto|auto].
  - apply HandlePayload_ok; auto.
  - destruct n as [n|]; [|st; ret]. eapply Hw; [apply Write_ok; [apply Hv|reflexivity]|auto].
  - destruct n as [n|]; [|st; ret]. eapply Hw; [apply Write_ok; [apply Hv|reflexivity]|auto].
  - destruct n as [n|]; [|st; ret]. apply Ask_ok; [apply Hv|reflexivity].
  - destruct n as [n|]; [|st; ret]. apply askRoomJoin_ok; auto.
  - destruct n as [n|]; [|st; ret]. eapply Hw; [apply Room_ok; auto|auto].
  - destruct n as [n|]; [|contradiction]. cbn [vo] in Hv. unfold Rooms. st. o1. o1. og. ret.
  - destruct n as [n|]; [|st; ret]. apply LeaveAll_ok; auto.
  - destruct n as [n|]; [|st; ret]. apply askDisconnect_ok; [apply Hv|exact Hca|reflexivity].
  - eapply Hw; [apply Write_ok; [apply Hv|reflexivity]|auto].
  - apply askRoomLeave_ok; auto.
  - destruct Hca as [(n' & -> & Hs) Hm]. cbn [vo] in Hv. unfold NSBroadcast, IsClient. rewrite Hs.
    eapply Hw; [apply Broadcast_ok; [|exact Hm]|auto]. destruct others; [apply Hv|exact I].
  - eapply Hw; [apply Broadcast_ok; auto|auto].
  - apply ServerAsk_ok; auto.
  - eapply Hw; [apply DoAct_ok|auto].
  - eapply Hw; [apply ServerClose_ok|auto].
  - st. o0. ret.
  - st. o0. last collect_conns_ok. ret.
  - st. o0. last collect_nss_ok. ret.
Qed.
End functions.
