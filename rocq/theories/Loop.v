(** * Loop.v : an invariant of the server loop and the goroutines around it.

    The ghost state of a goroutine says where it is: somewhere in the library
    or the application ([Other]), in Upgrade between the creation and the
    announcement of a connection ([Up]), or at some point of the server loop
    (all other labels). *)
From Coq Require Import ZArith.
From stdpp Require Import gmap strings list relations.
From RecordUpdate Require Import RecordUpdate.
From Verif Require Import Go Errors Message World Lang Code Sem ExecProofs Logic Spec_App Frame Spec_Loop.

Inductive lab : Type :=
| Other | Up (c : cid)
| Boot | Idle | Took (x : srvmsg) | Got (x : srvmsg)
| Added (c : cid) | Known (c : cid) | Deleted (c : cid) | Gone (c : cid)
| Cast (msgs : list message) (todo : list cid)
| Acting (a : act) (todo : list cid).
Definition loopl (l : lab) : bool := match l with Other | Up _ => false | _ => true end.

Section loop.
Context (G : cfg) (cl : option bool) (pa : option act).

(** The loop may turn to the next thing. *)
Definition rests (l : lab) : Prop :=
  match l with
  | Idle | Cast _ [] | Acting _ [] => True
  | Gone _ => ~ always_told G
  | _ => False
  end.

Definition lrule (l : lab) (o : op) : (res o -> lab -> Prop) -> Prop :=
  match o as o return (res o -> lab -> Prop) -> Prop with
  | OSClosedReset => fun P => l = Boot /\ P tt Idle
  | OSrvSelect => fun P => rests l /\ forall x, P x (Took x)
  | OLog (LSrv x) => fun P => l = Took x /\ P tt (Got x)
  | OSAdd c => fun P => l = Got (SConnect c) /\ P tt (Added c)
  | OSCountAdd z => fun P => (exists c, l = Added c /\ z = 1%Z /\ P tt Idle) \/ (exists c, l = Deleted c /\ z = (-1)%Z /\ P tt (Gone c))
  | OSMem c => fun P => l = Got (SDisconnect c) /\ P true (Known c) /\ P false Idle
  | OSDel c => fun P => l = Known c /\ P tt (Deleted c)
  | OLog (LOnDisconnect c) => fun P => l = Gone c /\ P tt Idle
  | OSRange => fun P => (forall r, P r l) \/ (exists msgs, l = Got (SBroadcast msgs) /\ forall cs, P cs (Cast msgs cs))
                      \/ (exists a, l = Got (SAction a) /\ forall cs, P cs (Acting a cs))
  | OLog (LBatch c msgs) => fun P => (g_sync G = false /\ loopl l = false /\ P tt l) \/ (exists todo, l = Cast msgs (c :: todo) /\ P tt (Cast msgs todo))
  | OLog (LDo k c) => fun P => exists a todo, l = Acting a (c :: todo) /\ a_fn a = ActUser k /\ P tt (Acting a todo)
  | OCasClosed c => fun P => (forall r, P r l) \/ (exists a todo, l = Acting a (c :: todo) /\ a_fn a = ActClose /\ forall r, P r (Acting a todo))
  | OActDone k => fun P => exists a, l = Acting a [] /\ k = a_ticket a /\ P tt Idle
  | ONewConn c _ _ => fun P => l = Other /\ (P tt (Up c) \/ P tt Other)
  | OSConnSend c => fun P => l = Up c /\ P tt Other
  | OSpawn x => fun P => match x with TServer | TServerLoop => False | TWaitMessages _ => g_sync G = false | _ => True end /\ P tt l
  | _ => fun P => forall r, P r l
  end.

Definition lstart (t : tcode) (l : lab) : Prop :=
  match t with
  | TServer => l = Boot
  | TServerLoop => rests l
  | TWaitMessages _ => l = Other /\ g_sync G = false
  | _ => l = Other
  end.

Definition LS : lspec := {|
  ls_L := lab; ls_rule := lrule; ls_cpre := fun _ _ => True; ls_cpost := fun l a r l' => l = l';
  ls_crash := fun _ => True; ls_start := lstart; ls_fin := fun l => l = Other |}.

Lemma lmono : rule_mono LS.
Proof.
  intros l o P P' H. destruct o; try match goal with x : tcode |- _ => destruct x | x : event |- _ => destruct x end; cbn in *; intros HP;
    repeat match goal with H : _ /\ _ |- _ => destruct H | H : ex _ |- _ => destruct H | H : _ \/ _ |- _ => destruct H end; eauto 12.
Qed.

(** ** The code follows the rules. *)
Context (A : user_app (fun _ => True) G).
Notation any := (fun _ _ => True).
Lemma lrules : @rules G LS (fun _ => True) eq any any any any any any any any any any (fun _ _ _ _ => True) (fun _ _ => True).
Proof.
  constructor; cbn; unfold stable; auto using lmono; try congruence; try (intros; eauto; fail);
    [|intros c s l P H r; apply H; [reflexivity|destruct r; repeat split]|intros o n l P Ho _ H; destruct o; try discriminate Ho; cbn; intros; apply H; reflexivity].
  intros o l P Hp H.
  destruct o; cbn in *; try discriminate; eauto; try match goal with x : tcode |- _ => destruct x | x : event |- _ => destruct x end; try discriminate; cbn; eauto.
Qed.
Notation kp := (@kp LS eq _).
Definition neutral (o : op) : bool :=
  match o with
  | OSClosedReset | OSrvSelect | OSAdd _ | OSCountAdd _ | OSMem _ | OSDel _ | OActDone _ | ONewConn _ _ _ | OSConnSend _
  | OLog (LSrv _) | OLog (LOnDisconnect _) | OLog (LBatch _ _) | OLog (LDo _ _)
  | OSpawn TServer | OSpawn TServerLoop | OSpawn (TWaitMessages _) => false
  | _ => true
  end.
Lemma l_free o : neutral o = true -> kp (opr o).
Proof. intros H l. cbn. unfold neutral in H. destruct o; try discriminate; cbn; intros; auto;
  match goal with x : tcode |- _ => destruct x | x : event |- _ => destruct x end; try discriminate; cbn; auto. Qed.
Ltac kf := repeat first
  [ apply (kp_ret lrules) | apply (kp_crash lrules) | match goal with |- @Frame.kp _ _ _ (opr ?o) => exact (l_free o eq_refl) end | assumption
  | match goal with H : forall _, _ |- _ => apply H; fail end
  | apply (kp_for_all lrules); intros | apply (kp_bind lrules); [|intros]
  | match goal with |- @Frame.kp _ _ _ ?p => match p with context [match ?x with _ => _ end] => destruct x eqn:? end end ].
Lemma l_gates : @gates G LS eq (fun _ _ => True) (fun _ => True).
Proof.
  constructor; intros.
  - unfold wait. kf.
  - unfold unwait. kf.
  - unfold proc_get. kf.
  - apply (kpp_kp lrules). unfold proc_Done. kf.
  - unfold proc_Wait. kf.
  - apply (kq_any lrules); [auto|]. unfold proc_Start. kf.
Qed.
Lemma l_ask c x m nx : kp (ask G c x m nx).
Proof. pose proof (Write_kp lrules l_gates) as HW. unfold ask. kf. Qed.
Lemma l_send ch m : kp (send ch m).
Proof. unfold send. kf. Qed.
Notation kpp := (@kpp LS eq _ (fun _ => True)).
Lemma kpp_kp1 {X} (p : prog X) : kpp p <-> kp p.
Proof. split; [intros H l; apply H; exact Logic.I|intros H l _; apply H]. Qed.
Lemma l_reply c m : kpp (handle_event G c m) -> kpp (handle_reply_or_event G c m).
Proof. rewrite !kpp_kp1. intros H. pose proof l_send as HS. unfold handle_reply_or_event. kf. Qed.
Lemma l_message c m : (forall m', kpp (handle_event G c m')) -> kpp (handle_reply_or_event G c m) ->
  (forall (n : nsref) m', True -> @Frame.kpp LS eq _ (fun _ => True /\ True /\ True) (fireEvent G n m')) -> kpp (handleMessage G c m).
Proof.
  rewrite !kpp_kp1. intros He Hr Hf. assert (He' : forall m', kp (handle_event G c m')) by (intros; apply kpp_kp1, He).
  assert (Hf' : forall n m', kp (fireEvent G n m')) by (intros n m' l; apply Hf; auto). clear He Hf.
  pose proof l_send as HS. pose proof (Namespace_kp lrules l_gates) as HN. unfold handleMessage. kf.
Qed.
Lemma l_ack c typ b : kpp (handleQueue G c) -> (forall s bin, kp (write G c s bin)) -> kp (wait c) -> (forall e, kp (unwait c e)) ->
  kpp (handleACK G c typ b).
Proof. rewrite !kpp_kp1. intros H1 H2 H3 H4. unfold handleACK. kf. Qed.
Lemma l_waitm c l : lstart (TWaitMessages c) l -> (forall msgs, kp (publishMessages G c msgs)) -> ok (S := LS) l (waitMessages G c) (fun r l' => if r : bool then lstart (TWaitMessages c) l' else l' = Other).
Proof.
  intros [-> Hs] HP. unfold waitMessages, publish. cbn. intros _ g _ [|]; cbn; [|auto]. intros msgs _. left. split; [exact Hs|]. split; [reflexivity|].
  eapply (ok_seq LS lmono); [apply HP|]. intros r l' <-. cbn. intros _. destruct r; auto.
Qed.
Lemma l_broadcast msgs : kp (broadcast msgs).
Proof. unfold broadcast. kf. Qed.
Lemma l_srvask x m : (forall e msgs, kp (Broadcast G e msgs)) -> kp (ServerAsk G x m).
Proof. intros HB. unfold ServerAsk. kf. Qed.
Lemma l_upgrade c l : l = Other -> (forall e, kp (unwait c e)) -> (forall f, g_onconnect G = Some f -> kp (f c)) -> ok (S := LS) l (Upgrade G c) (fun _ l' => l = l').
Proof.
  intros -> H1 H2. unfold Upgrade, newConn. cbn. intros [|]; cbn; [reflexivity|]. split; [reflexivity|]. left.
  assert (Hrest : kp (bind (opr (OSpawn (TReader c))) (fun _ =>
    bind (match g_exch G with None => Ret None | Some x => bind (opr (OLog (LExch (XOnConnect c)))) (fun _ => Ret (x_onconnect x c)) end) (fun xerr =>
    match xerr with
    | Some e => bind (unwait c (Some e)) (fun _ => opr (OLog (LUpgraded c (Some e))))
    | None =>
        bind (match g_onconnect G with None => Ret None | Some f => bind (opr (OLog (LOnConnect c))) (fun _ => f c) end) (fun err =>
        match err with
        | Some e => bind (unwait c (Some e)) (fun _ => opr (OLog (LUpgraded c (Some e))))
        | None => bind (unwait c None) (fun _ => opr (OLog (LUpgraded c None)))
        end)
    end)))).
  { destruct (g_onconnect G) as [f|] eqn:E; [pose proof (H2 f eq_refl)|]; kf. }
  destruct (negb (usesStackExchange G) && negb (g_sync G)) eqn:E; cbn.
  - split; [apply andb_true_iff in E as [_ E]; destruct (g_sync G); [discriminate|reflexivity]|]. split; [reflexivity|]. apply (Hrest Other).
  - split; [reflexivity|]. apply (Hrest Other).
Qed.
Lemma l_dial c l : l = Other -> kp (sendClientACK G c) -> ok (S := LS) l (Dial G c) (fun _ l' => l = l').
Proof.
  intros -> H. unfold Dial, newConn. cbn. split; [reflexivity|]. right. split; [exact Logic.I|].
  eapply (ok_seq LS lmono); [apply H|]. intros [e|] l' <-; cbn; auto.
Qed.
Lemma ok_kp {X} l (p : prog X) (Q : X -> lab -> Prop) : kp p -> (forall r, Q r l) -> ok (S := LS) l p Q.
Proof. intros H HQ. eapply (ok_mono LS lmono); [|apply H]. intros r l' <-. apply HQ. Qed.
Lemma kp_ok {X Y} l (p : prog X) (f : X -> prog Y) Q : kp p -> (forall r, ok (S := LS) l (f r) Q) -> ok (S := LS) l (bind p f) Q.
Proof. intros H HQ. eapply (ok_seq LS lmono); [apply H|]. intros r l' <-. apply HQ. Qed.
Lemma l_server l : rests l -> (forall c msgs, kp (publishMessages G c msgs)) ->
  (forall c, exists f, Close G c = bind (opr (OCasClosed c)) f /\ forall r : bool, @Frame.kpp LS eq _ (fun _ => r = true -> True) (f r)) -> (forall k c, kp (g_do G k c)) ->
  (forall x, kp (exch_call G x)) -> (forall f c, g_ondisconnect G = Some f -> kp (f c)) -> ok (S := LS) l (server_step G) (fun _ l' => rests l').
Proof.
  intros Hl HP HC HD HX HO. unfold server_step. cbn. split; [exact Hl|]. intros x. split; [reflexivity|]. destruct x as [c|c|msgs|a]; cbn.
  - split; [reflexivity|]. left. exists c. auto.
  - split; [reflexivity|]. split; [|exact Logic.I]. cbn. split; [reflexivity|]. right. exists c. split; [reflexivity|]. split; [reflexivity|].
    destruct (g_ondisconnect G) as [f|] eqn:E; cbn; [|apply ok_kp; [apply HX|intros _; cbn; intros [H _]; rewrite E in H; contradiction]].
    assert (Hlast : ok (S := LS) (Gone c) (Do (OLog (LOnDisconnect c)) (fun _ => bind (bind (f c) (fun _ => Ret false)) (fun skip : bool => if skip then Ret tt else exch_call G (XOnDisconnect c)))) (fun _ l' => rests l')).
    { cbn. split; [reflexivity|]. apply kp_ok; [apply (kp_bind lrules); [apply (HO f c eq_refl)|intros; apply (kp_ret lrules)]|].
      intros [|]; [exact Logic.I|]. apply ok_kp; [apply HX|]. intros; exact Logic.I. }
    destruct (g_firealways G) eqn:Ef; [exact Hlast|]. cbn. intros [|]; cbn; [|intros [_ H]; congruence]. intros [e|]; [cbn; intros [_ H]; congruence|]. exact Hlast.
  - right; left. exists msgs. split; [reflexivity|]. intros cs. induction cs as [|c cs IH]; cbn; [exact Logic.I|].
    right. exists cs. split; [reflexivity|]. apply kp_ok; [apply (kp_bind lrules); [apply HP|intros; apply (kp_ret lrules)]|]. intros _. exact IH.
  - right; right. exists a. split; [reflexivity|]. intros cs. apply (ok_seq LS lmono _ _ _ (fun _ l' => l' = Acting a [])).
    + induction cs as [|c cs IH]; cbn [for_all]; [reflexivity|]. eapply (ok_seq LS lmono) with (P := fun _ l' => l' = Acting a cs); [|intros r l' ->; exact IH].
      unfold act_call. destruct (a_fn a) as [k|] eqn:Ea.
      * cbn. exists a, cs. split; [reflexivity|]. split; [exact Ea|]. apply ok_kp; [apply HD|reflexivity].
      * destruct (HC c) as (f & -> & Hf). cbn. right. exists a, cs. split; [reflexivity|]. split; [exact Ea|]. intros r. apply ok_kp; [intros l0; apply (Hf r); auto|reflexivity].
    + intros r l' ->. destruct (a_sync a); cbn; [|exact Logic.I]. exists a. auto.
Qed.

(** ** The invariant. *)
Definition mute (e : event) : Prop :=
  match e with
  | LSrv _ | LOnDisconnect _ | LDo _ _ => False
  | LBatch _ _ => g_sync G = false
  | _ => True
  end.

Definition coming (l : lab) : list cid := match l with Took (SConnect c) => [c] | _ => [] end.
Definition tickets (w : world) (l : lab) : list cid := coming l ++ s_connbuf (w_srv w) ++ announced (w_log w).
Definition seen (s : gset cid) (l : lab) : gset cid :=
  match l with
  | Got (SConnect c) => {[c]} ∪ s
  | Got (SDisconnect c) | Known c => s ∖ {[c]}
  | _ => s
  end.
Definition lag (l : lab) : Z := match l with Added _ => -1 | Deleted _ => 1 | _ => 0 end%Z.
Definition owed (s : gset cid) (l : lab) : list cid :=
  match l with
  | Got (SDisconnect c) => if decide (c ∈ s) then [c] else []
  | Known c | Deleted c | Gone c => [c]
  | _ => []
  end.
Definition owedB (s : gset cid) (l : lab) (c : cid) : list (list message) :=
  match l with
  | Got (SBroadcast msgs) => if decide (c ∈ s) then [msgs] else []
  | Cast msgs todo => if decide (c ∈ todo) then [msgs] else []
  | _ => []
  end.
Definition owedD (s : gset cid) (l : lab) (c : cid) : list nat :=
  match l with
  | Got (SAction (Act (ActUser k) _ _)) => if decide (c ∈ s) then [k] else []
  | Acting (Act (ActUser k) _ _) todo => if decide (c ∈ todo) then [k] else []
  | _ => []
  end.
Definition current (l : lab) : option act :=
  match l with Took (SAction a) | Got (SAction a) | Acting a _ => Some a | _ => None end.

Record LInv (w : world) (l0 : lab) : Prop := MkLInv {
  li_loop : loopl l0 = true;
  li_mem : members (w_log w) = seen (s_conns (w_srv w)) l0;
  li_count : s_count (w_srv w) = (Z.of_nat (size (s_conns (w_srv w))) + lag l0)%Z;
  li_tick : NoDup (tickets w l0);
  li_dom : forall c, c ∈ tickets w l0 -> is_Some (w_conns w !! c);
  li_lab : match l0 with
           | Got (SConnect c) => c ∉ s_conns (w_srv w)
           | Known c => c ∈ s_conns (w_srv w)
           | Cast _ todo | Acting _ todo => NoDup todo
           | _ => True
           end;
  li_told : sublist (owed (s_conns (w_srv w)) l0 ++ told (w_log w)) (withdrawn (w_log w));
  li_always : always_told G -> withdrawn (w_log w) = owed (s_conns (w_srv w)) l0 ++ told (w_log w);
  li_cast : g_sync G = true -> forall c, casts_for c (w_log w) = owedB (s_conns (w_srv w)) l0 c ++ offered c (w_log w);
  li_do : forall c, dos_for c (w_log w) = owedD (s_conns (w_srv w)) l0 c ++ done_for c (w_log w);
  li_acts : a_ticket <$> s_acts (w_srv w) = seq (S (s_actaccepted (w_srv w))) (s_actsent (w_srv w) - s_actaccepted (w_srv w))
            /\ s_actaccepted (w_srv w) <= s_actsent (w_srv w);
  li_cur : forall a, current l0 = Some a -> a_ticket a = s_actaccepted (w_srv w) /\ a_ticket a ∉ s_actdone (w_srv w);
  li_done : forall k, k ∈ s_actdone (w_srv w) -> exists a, LSrv (SAction a) ∈ w_log w /\ a_ticket a = k;
  li_old : forall a, LSrv (SAction a) ∈ w_log w -> a_ticket a <= s_actaccepted (w_srv w) /\
            match l0 with Took (SAction _) => a_ticket a < s_actaccepted (w_srv w) | _ => True end;
  li_served : forall l2 a l1, w_log w = l2 ++ LSrv (SAction a) :: l1 -> a_ticket a ∈ s_actdone (w_srv w) ->
            forall c, c ∈ members l1 -> served w l2 a c;
  li_serving : forall l2 a l1, w_log w = l2 ++ LSrv (SAction a) :: l1 ->
            match l0 with
            | Got (SAction a') => a_ticket a = a_ticket a' -> a = a' /\ members l1 = s_conns (w_srv w)
            | Acting a' todo => a_ticket a = a_ticket a' -> a = a' /\ forall c, c ∈ members l1 -> c ∉ todo -> served w l2 a c
            | _ => True
            end;
  li_boot : forall x, l0 = Boot -> LSrv x ∉ w_log w;
  li_in : match l0 with Got (SAction a) | Acting a _ => LSrv (SAction a) ∈ w_log w | _ => True end }.

(** Steps that matter to nobody. *)
Record aside (w w' : world) : Prop := Aside {
  as_conns : s_conns (w_srv w') = s_conns (w_srv w);
  as_count : s_count (w_srv w') = s_count (w_srv w);
  as_buf : s_connbuf (w_srv w') = s_connbuf (w_srv w);
  as_acts : s_acts (w_srv w') = s_acts (w_srv w);
  as_sent : s_actsent (w_srv w') = s_actsent (w_srv w);
  as_acc : s_actaccepted (w_srv w') = s_actaccepted (w_srv w);
  as_done : s_actdone (w_srv w') = s_actdone (w_srv w);
  as_dom : forall c, is_Some (w_conns w !! c) -> is_Some (w_conns w' !! c);
  as_closed : forall c, c_closed (conn_of w c) = true -> c_closed (conn_of w' c) = true;
  as_log : w_log w' = w_log w \/ exists e, mute e /\ w_log w' = e :: w_log w }.

Lemma served_mono w w' l2 a c : (forall c, c_closed (conn_of w c) = true -> c_closed (conn_of w' c) = true) -> served w l2 a c -> served w' l2 a c.
Proof. unfold served. destruct (a_fn a); auto. Qed.
Lemma served_cons w e l2 a c : served w l2 a c -> served w (e :: l2) a c.
Proof. unfold served. destruct (a_fn a); auto. intros H. constructor. exact H. Qed.
Lemma cons_split {X} (e : X) l l2 x l1 : e :: l = l2 ++ x :: l1 -> (l2 = [] /\ e = x /\ l = l1) \/ exists l2', l2 = e :: l2' /\ l = l2' ++ x :: l1.
Proof. destruct l2 as [|y l2]; cbn; intros [= -> ->]; [left; auto|right; eexists; eauto]. Qed.

Lemma done_cons (e : event) (D : gset nat) log : (forall k, k ∈ D -> exists a, LSrv (SAction a) ∈ log /\ a_ticket a = k) ->
  forall k, k ∈ D -> exists a, LSrv (SAction a) ∈ e :: log /\ a_ticket a = k.
Proof. intros H k Hk. destruct (H k Hk) as (a & H1 & H2). exists a. split; [constructor; exact H1|exact H2]. Qed.

Lemma linv_aside w w' l0 : LInv w l0 -> aside w w' -> LInv w' l0.
Proof.
  intros [I1 I2 I3 I4 I5 I6 I7 I8 I9 I10 I11 I12 I13 I14 I15 I16 I17 I18] [F1 F2 F3 F4 F5 F6 F7 F8 F9 F10].
  assert (Hm : forall e, mute e -> w_log w' = e :: w_log w ->
    members (w_log w') = members (w_log w) /\ announced (w_log w') = announced (w_log w) /\ withdrawn (w_log w') = withdrawn (w_log w) /\
    told (w_log w') = told (w_log w) /\ (g_sync G = true -> forall c, casts_for c (w_log w') = casts_for c (w_log w) /\ offered c (w_log w') = offered c (w_log w)) /\
    (forall c, dos_for c (w_log w') = dos_for c (w_log w) /\ done_for c (w_log w') = done_for c (w_log w)) /\
    (forall x, LSrv x ∈ w_log w' <-> LSrv x ∈ w_log w) /\
    forall l2 a l1, w_log w' = l2 ++ LSrv (SAction a) :: l1 -> exists l2', l2 = e :: l2' /\ w_log w = l2' ++ LSrv (SAction a) :: l1).
  { intros e He El. rewrite El. repeat split; try (destruct e; try contradiction; reflexivity).
    - destruct e; try contradiction; auto. cbn in He. congruence.
    - rewrite elem_of_cons. intros [H|H]; [|exact H]. subst e. contradiction.
    - intros H. constructor. exact H.
    - intros l2 a l1 H. apply cons_split in H as [(-> & -> & _)|H]; [contradiction|exact H]. }
  assert (Hl : members (w_log w') = members (w_log w) /\ announced (w_log w') = announced (w_log w) /\ withdrawn (w_log w') = withdrawn (w_log w) /\
    told (w_log w') = told (w_log w) /\ (g_sync G = true -> forall c, casts_for c (w_log w') = casts_for c (w_log w) /\ offered c (w_log w') = offered c (w_log w)) /\
    (forall c, dos_for c (w_log w') = dos_for c (w_log w) /\ done_for c (w_log w') = done_for c (w_log w)) /\
    (forall x, LSrv x ∈ w_log w' <-> LSrv x ∈ w_log w) /\
    forall l2 a l1, w_log w' = l2 ++ LSrv (SAction a) :: l1 -> exists l2', (forall c, served w l2' a c -> served w' l2 a c) /\ w_log w = l2' ++ LSrv (SAction a) :: l1).
  { destruct F10 as [E|(e & He & E)].
    - rewrite E. repeat split; auto. intros l2 a l1 H. exists l2. split; [|exact H]. intros c. apply served_mono, F9.
    - destruct (Hm e He E) as (H1 & H2 & H3 & H4 & H5 & H6 & H7 & H8). do 7 (split; [assumption|]).
      intros l2 a l1 H. destruct (H8 l2 a l1 H) as (l2' & -> & H'). exists l2'. split; [|exact H']. intros c Hc. apply served_cons. revert Hc. apply served_mono, F9. }
  clear Hm F10. destruct Hl as (L1 & L2 & L3 & L4 & L5 & L6 & L7 & L8).
  assert (Ht : tickets w' l0 = tickets w l0) by (unfold tickets; rewrite F3, L2; reflexivity).
  constructor; rewrite ?F1, ?F2, ?F4, ?F5, ?F6, ?F7, ?L1, ?L3, ?L4, ?Ht; auto.
  - intros Hs c. destruct (L5 Hs c) as [-> ->]. apply I9, Hs.
  - intros c. destruct (L6 c) as [-> ->]. apply I10.
  - intros k Hk. destruct (I13 k Hk) as (a & H1 & H2). exists a. split; [apply L7, H1|exact H2].
  - intros a Ha. apply I14, L7, Ha.
  - intros l2 a l1 H Hk c Hc. destruct (L8 l2 a l1 H) as (l2' & Hs & H'). apply Hs. eapply I15; eassumption.
  - intros l2 a l1 H. destruct (L8 l2 a l1 H) as (l2' & Hs & H'). specialize (I16 l2' a l1 H'). destruct l0; auto.
    intros Heq. destruct (I16 Heq) as [H1 H2]. split; [exact H1|]. intros c Hc Ht'. apply Hs, H2; assumption.
  - intros x Hx. rewrite L7. apply I17, Hx.
  - destruct l0 as [| | | | |[]| | | | | |]; auto; apply L7; exact I18.
Qed.

Lemma members_announced l c : c ∈ members l -> c ∈ announced l.
Proof.
  induction l as [|e l IH]; cbn [members announced]; [set_solver|]. destruct e; try exact IH. destruct x; cbn; try exact IH; set_solver.
Qed.

(** ** The steps of the loop. *)
Lemma linv_rest w l0 : LInv w l0 -> rests l0 -> LInv w Idle.
Proof.
  intros [I1 I2 I3 I4 I5 I6 I7 I8 I9 I10 I11 I12 I13 I14 I15 I16 I17 I18] Hr.
  destruct l0 as [| | | | | | | | |c|msgs [|]|a [|]]; cbn in Hr; try contradiction;
    (constructor; cbn in *; try assumption; auto; try (intros; discriminate); try (intros ? ?; split; [apply I14; assumption|exact Logic.I]);
     try (intros; exact Logic.I)).
  - etransitivity; [|exact I7]. apply sublist_cons. reflexivity.
  - intros Ha. contradiction.
  - intros c. destruct a as [[k|] s' k']; cbn in *; apply I10.
Qed.

Lemma linv_boot w : LInv w Boot -> LInv (upd_srv (fun s => s <| s_closed := false |>) w) Idle.
Proof.
  intros [I1 I2 I3 I4 I5 I6 I7 I8 I9 I10 I11 I12 I13 I14 I15 I16 I17 I18]. constructor; cbn in *; auto; intros; discriminate.
Qed.

Lemma ready_take s x : x ∈ srv_ready s ->
  match x with
  | SConnect c => exists r, s_connbuf s = c :: r
  | SDisconnect c => exists r, s_disc s = c :: r
  | SBroadcast m => exists r, s_bcast s = m :: r
  | SAction a => exists r, s_acts s = a :: r
  end.
Proof.
  unfold srv_ready. rewrite !elem_of_app. destruct (s_connbuf s), (s_disc s), (s_bcast s), (s_acts s); cbn; rewrite ?elem_of_list_singleton, ?elem_of_nil;
    intros [H|[H|[H|H]]]; try contradiction; subst x; eauto.
Qed.
Lemma linv_take w x : LInv w Idle -> x ∈ srv_ready (w_srv w) -> LInv (upd_srv (srv_take x) (pop_seed w)) (Took x).
Proof.
  intros [I1 I2 I3 I4 I5 I6 I7 I8 I9 I10 I11 I12 I13 I14 I15 I16 I17 I18] Hx. apply ready_take in Hx. cbn in *.
  destruct x as [c|c|msgs|a]; destruct Hx as [r Hx]; (constructor; cbn in *; try assumption; auto; try (intros; discriminate)).
  - unfold tickets in *; cbn in *. rewrite Hx in *. exact I4.
  - unfold tickets in *; cbn in *. rewrite Hx in *. exact I5.
  - destruct I11 as [I11 I11']. rewrite Hx in *. cbn in I11 |- *.
    destruct (s_actsent (w_srv w) - s_actaccepted (w_srv w)) as [|n] eqn:En; [discriminate|]. cbn in I11. injection I11 as H1 H2.
    split; [|lia]. rewrite H2. f_equal. lia.
  - intros a0 [= <-]. destruct I11 as [I11 I11']. rewrite Hx in I11. cbn in I11.
    destruct (s_actsent (w_srv w) - s_actaccepted (w_srv w)) as [|n] eqn:En; [discriminate|]. cbn in I11. injection I11 as H1 H2.
    split; [exact H1|]. intros H. apply I13 in H as (a1 & H3 & H4). apply I14 in H3 as [H3 _]. lia.
  - intros a0 Ha. apply I14 in Ha as [Ha _]. lia.
Qed.

Lemma linv_log w x : LInv w (Took x) -> LInv (w <| w_log ::= cons (LSrv x) |>) (Got x).
Proof.
  intros [I1 I2 I3 I4 I5 I6 I7 I8 I9 I10 I11 I12 I13 I14 I15 I16 I17 I18]. cbn in I2, I4, I7, I8, I9, I10.
  assert (Hsplit : forall l2 a l1, LSrv x :: w_log w = l2 ++ LSrv (SAction a) :: l1 -> (l2 = [] /\ x = SAction a /\ l1 = w_log w) \/
     exists l2', l2 = LSrv x :: l2' /\ w_log w = l2' ++ LSrv (SAction a) :: l1).
  { intros l2 a l1 H. apply cons_split in H as [(-> & H & <-)|H]; [left|right; exact H]. injection H as ->. auto. }
  assert (Hserved : forall l2 a l1, LSrv x :: w_log w = l2 ++ LSrv (SAction a) :: l1 -> a_ticket a ∈ s_actdone (w_srv w) ->
            forall c, c ∈ members l1 -> served w l2 a c).
  { intros l2 a l1 H Hd c Hc. apply Hsplit in H as [(-> & -> & ->)|(l2' & -> & H)].
    - exfalso. apply (I12 a eq_refl). exact Hd.
    - apply served_cons. eapply I15; eassumption. }
  pose proof (done_cons (LSrv x) _ _ I13) as Hdone. cbn in Hdone.
  destruct x as [c|c|msgs|a]; (constructor; cbn in *; try assumption; auto; try (intros; discriminate)).
  - rewrite I2. reflexivity.
  - unfold tickets in *; cbn in *. apply NoDup_app. apply NoDup_cons in I4 as [H1 H2]. apply NoDup_app in H2 as (H2 & H3 & H4). split; [exact H2|].
    split; [|apply NoDup_cons; split; [set_solver|exact H4]]. intros y Hy. apply not_elem_of_cons. split; [|apply H3, Hy]. intros ->. set_solver.
  - intros c0. unfold tickets in *; cbn in *. intros H. apply I5. set_solver.
  - rewrite <- I2. intros H. apply members_announced in H. unfold tickets in I4. cbn in I4. apply NoDup_cons in I4 as [H1 _]. apply H1, elem_of_app. auto.
  - intros a Ha. apply elem_of_cons in Ha as [Ha|Ha]; [discriminate|]. split; [apply I14, Ha|exact Logic.I].
  - rewrite I2. reflexivity.
  - rewrite I2. destruct (decide (c ∈ s_conns (w_srv w))); cbn; [|exact I7]. apply sublist_skip, I7.
  - intros Ha. rewrite I2. destruct (decide (c ∈ s_conns (w_srv w))); cbn; [f_equal|]; apply I8, Ha.
  - intros a Ha. apply elem_of_cons in Ha as [Ha|Ha]; [discriminate|]. split; [apply I14, Ha|exact Logic.I].
  - intros Hs c. rewrite I2. destruct (decide (c ∈ s_conns (w_srv w))); cbn; [f_equal|]; apply I9, Hs.
  - intros a Ha. apply elem_of_cons in Ha as [Ha|Ha]; [discriminate|]. split; [apply I14, Ha|exact Logic.I].
  - intros c. rewrite I2. destruct a as [[k|] b t]; cbn; [|apply I10]. destruct (decide (c ∈ s_conns (w_srv w))); cbn; [f_equal|]; apply I10.
  - intros a0 Ha. apply elem_of_cons in Ha as [[= ->]|Ha]; [|split; [apply I14, Ha|exact Logic.I]]. split; [|exact Logic.I].
    destruct (I12 a eq_refl) as [-> _]. lia.
  - intros l2 a0 l1 H Hk. apply Hsplit in H as [(-> & [= ->] & ->)|(l2' & -> & H)]; [split; [reflexivity|exact I2]|]. exfalso.
    assert (Hin : LSrv (SAction a0) ∈ w_log w) by (rewrite H; set_solver). apply I14 in Hin as [_ Hin].
    destruct (I12 a eq_refl) as [E _]. lia.
  - constructor.
Qed.

Lemma linv_add w c : LInv w (Got (SConnect c)) -> LInv (upd_srv (fun s => s <| s_conns ::= fun d => {[c]} ∪ d |>) w) (Added c).
Proof.
  intros [I1 I2 I3 I4 I5 I6 I7 I8 I9 I10 I11 I12 I13 I14 I15 I16 I17 I18]. constructor; cbn in *; auto; try (intros; discriminate).
  rewrite I3. rewrite size_union by set_solver. rewrite size_singleton. lia.
Qed.
Lemma linv_added w c : LInv w (Added c) -> LInv (upd_srv (fun s => s <| s_count ::= fun n => (n + 1)%Z |>) w) Idle.
Proof.
  intros [I1 I2 I3 I4 I5 I6 I7 I8 I9 I10 I11 I12 I13 I14 I15 I16 I17 I18]. constructor; cbn in *; auto; try (intros; discriminate). lia.
Qed.
Lemma linv_known w c : LInv w (Got (SDisconnect c)) -> c ∈ s_conns (w_srv w) -> LInv w (Known c).
Proof.
  intros [I1 I2 I3 I4 I5 I6 I7 I8 I9 I10 I11 I12 I13 I14 I15 I16 I17 I18] Hc. constructor; cbn in *; auto; try (intros; discriminate).
  - rewrite decide_True in I7 by exact Hc. exact I7.
  - intros Ha. rewrite decide_True in I8 by exact Hc. apply I8, Ha.
Qed.
Lemma linv_unknown w c : LInv w (Got (SDisconnect c)) -> c ∉ s_conns (w_srv w) -> LInv w Idle.
Proof.
  intros [I1 I2 I3 I4 I5 I6 I7 I8 I9 I10 I11 I12 I13 I14 I15 I16 I17 I18] Hc. constructor; cbn in *; auto; try (intros; discriminate).
  - rewrite I2. set_solver.
  - rewrite decide_False in I7 by exact Hc. exact I7.
  - intros Ha. rewrite decide_False in I8 by exact Hc. apply I8, Ha.
Qed.
Lemma linv_del w c : LInv w (Known c) -> LInv (upd_srv (fun s => s <| s_conns ::= fun d => d ∖ {[c]} |>) w) (Deleted c).
Proof.
  intros [I1 I2 I3 I4 I5 I6 I7 I8 I9 I10 I11 I12 I13 I14 I15 I16 I17 I18]. constructor; cbn in *; auto; try (intros; discriminate).
  rewrite I3. rewrite (union_difference_L {[c]} (s_conns (w_srv w))) at 1 by set_solver. rewrite size_union by set_solver. rewrite size_singleton. lia.
Qed.
Lemma linv_deleted w c : LInv w (Deleted c) -> LInv (upd_srv (fun s => s <| s_count ::= fun n => (n + -1)%Z |>) w) (Gone c).
Proof.
  intros [I1 I2 I3 I4 I5 I6 I7 I8 I9 I10 I11 I12 I13 I14 I15 I16 I17 I18]. constructor; cbn in *; auto; try (intros; discriminate). lia.
Qed.
Lemma linv_tell w c : LInv w (Gone c) -> LInv (w <| w_log ::= cons (LOnDisconnect c) |>) Idle.
Proof.
  intros [I1 I2 I3 I4 I5 I6 I7 I8 I9 I10 I11 I12 I13 I14 I15 I16 I17 I18]. pose proof (done_cons (LOnDisconnect c) _ _ I13) as Hdone. constructor; cbn in *; auto; try (intros; discriminate).
  - intros a Ha. apply elem_of_cons in Ha as [Ha|Ha]; [discriminate|]. apply I14, Ha.
  - intros l2 a l1 H Hd c' Hc. apply cons_split in H as [(_ & H & _)|(l2' & -> & H)]; [discriminate|]. apply served_cons. eapply I15; eassumption.
Qed.
Lemma perm_elements w : forall c, c ∈ permute (seed w) (elements (s_conns (w_srv w))) <-> c ∈ s_conns (w_srv w).
Proof. intros c. rewrite permute_perm. apply elem_of_elements. Qed.
Lemma linv_pop w l0 : LInv w l0 -> LInv (pop_seed w) l0.
Proof. intros H. eapply linv_aside; [exact H|]. constructor; cbn; auto. Qed.
Lemma linv_range w msgs : LInv w (Got (SBroadcast msgs)) -> LInv (pop_seed w) (Cast msgs (permute (seed w) (elements (s_conns (w_srv w))))).
Proof.
  intros H. apply linv_pop in H as H'. revert H'. generalize (perm_elements w). set (cs := permute _ _). intros Hcs.
  assert (Hnd : NoDup cs) by (unfold cs; rewrite permute_perm; apply NoDup_elements). change (s_conns (w_srv w)) with (s_conns (w_srv (pop_seed w))) in Hcs.
  generalize dependent (pop_seed w).
  intros w' Hcs [I1 I2 I3 I4 I5 I6 I7 I8 I9 I10 I11 I12 I13 I14 I15 I16 I17 I18]. constructor; cbn in *; auto; try (intros; discriminate).
  intros Hs c. rewrite I9 by exact Hs. f_equal. destruct (decide (c ∈ s_conns (w_srv w'))) as [H1|H1]; destruct (decide (c ∈ cs)) as [H2|H2]; auto; exfalso; rewrite Hcs in H2; contradiction.
Qed.
Lemma linv_range_act w a : LInv w (Got (SAction a)) -> LInv (pop_seed w) (Acting a (permute (seed w) (elements (s_conns (w_srv w))))).
Proof.
  intros H. apply linv_pop in H as H'. revert H'. generalize (perm_elements w). set (cs := permute _ _). intros Hcs.
  assert (Hnd : NoDup cs) by (unfold cs; rewrite permute_perm; apply NoDup_elements). change (s_conns (w_srv w)) with (s_conns (w_srv (pop_seed w))) in Hcs.
  generalize dependent (pop_seed w).
  intros w' Hcs [I1 I2 I3 I4 I5 I6 I7 I8 I9 I10 I11 I12 I13 I14 I15 I16 I17 I18]. constructor; cbn in *; auto; try (intros; discriminate).
  - intros c. rewrite I10. f_equal. destruct a as [[k|] b t]; [|reflexivity].
    destruct (decide (c ∈ s_conns (w_srv w'))) as [H1|H1]; destruct (decide (c ∈ cs)) as [H2|H2]; auto; exfalso; rewrite Hcs in H2; contradiction.
  - intros l2 a0 l1 E Ht. destruct (I16 l2 a0 l1 E Ht) as [H1 H2]. split; [exact H1|]. intros c Hc Hn. exfalso. apply Hn, Hcs. rewrite <- H2. exact Hc.
Qed.
Lemma linv_batch w c msgs todo : LInv w (Cast msgs (c :: todo)) -> LInv (w <| w_log ::= cons (LBatch c msgs) |>) (Cast msgs todo).
Proof.
  intros [I1 I2 I3 I4 I5 I6 I7 I8 I9 I10 I11 I12 I13 I14 I15 I16 I17 I18]. cbn in I6. apply NoDup_cons in I6 as [I6 I6'].
  pose proof (done_cons (LBatch c msgs) _ _ I13) as Hdone. constructor; cbn in *; auto; try (intros; discriminate).
  - intros Hs c0. rewrite I9 by exact Hs. destruct (decide (c = c0)) as [<-|Hne].
    + rewrite decide_True by constructor. rewrite decide_False by exact I6. reflexivity.
    + f_equal. destruct (decide (c0 ∈ todo)) as [H1|H1]; destruct (decide (c0 ∈ c :: todo)) as [H2|H2]; auto; set_solver.
  - intros a Ha. apply elem_of_cons in Ha as [Ha|Ha]; [discriminate|]. apply I14, Ha.
  - intros l2 a l1 H Hd c' Hc. apply cons_split in H as [(_ & H & _)|(l2' & -> & H)]; [discriminate|]. apply served_cons. eapply I15; eassumption.
Qed.
Lemma linv_do w k c a todo : LInv w (Acting a (c :: todo)) -> a_fn a = ActUser k -> LInv (w <| w_log ::= cons (LDo k c) |>) (Acting a todo).
Proof.
  intros [I1 I2 I3 I4 I5 I6 I7 I8 I9 I10 I11 I12 I13 I14 I15 I16 I17 I18] Ea. cbn in I6. apply NoDup_cons in I6 as [I6 I6']. destruct a as [f b t]. cbn in Ea. subst f.
  pose proof (done_cons (LDo k c) _ _ I13) as Hdone. constructor; cbn in *; auto; try (intros; discriminate).
  - intros c0. rewrite I10. destruct (decide (c = c0)) as [<-|Hne].
    + rewrite decide_True by constructor. rewrite decide_False by exact I6. reflexivity.
    + f_equal. destruct (decide (c0 ∈ todo)) as [H1|H1]; destruct (decide (c0 ∈ c :: todo)) as [H2|H2]; auto; set_solver.
  - intros a Ha. apply elem_of_cons in Ha as [Ha|Ha]; [discriminate|]. apply I14, Ha.
  - intros l2 a l1 H Hd c' Hc. apply cons_split in H as [(_ & H & _)|(l2' & -> & H)]; [discriminate|]. apply served_cons. eapply I15; eassumption.
  - intros l2 a l1 H Ht. apply cons_split in H as [(_ & H & _)|(l2' & -> & H)]; [discriminate|]. destruct (I16 l2' a l1 H Ht) as [-> H2]. split; [reflexivity|].
    intros c' Hc Hn. destruct (decide (c' = c)) as [->|Hne]; [unfold served; cbn; constructor|]. apply served_cons, H2; [exact Hc|]. set_solver.
  - constructor. exact I18.
Qed.
Lemma linv_close w c a todo : LInv w (Acting a (c :: todo)) -> a_fn a = ActClose -> c_closed (conn_of w c) = true -> LInv w (Acting a todo).
Proof.
  intros [I1 I2 I3 I4 I5 I6 I7 I8 I9 I10 I11 I12 I13 I14 I15 I16 I17 I18] Ea Hc. cbn in I6. apply NoDup_cons in I6 as [I6 I6']. destruct a as [f b t]. cbn in Ea. subst f.
  constructor; cbn in *; auto; try (intros; discriminate).
  intros l2 a l1 H Ht. destruct (I16 l2 a l1 H Ht) as [-> H2]. split; [reflexivity|].
  intros c' Hc' Hn. destruct (decide (c' = c)) as [->|Hne]; [exact Hc|]. apply H2; [exact Hc'|]. set_solver.
Qed.
Lemma linv_done w a : LInv w (Acting a []) -> LInv (upd_srv (fun s => s <| s_actdone ::= fun d => {[a_ticket a]} ∪ d |>) w) Idle.
Proof.
  intros HI. pose proof (linv_rest w _ HI Logic.I) as [I1 I2 I3 I4 I5 I6 I7 I8 I9 I10 I11 I12 I13 I14 I15 I16 I17 I18].
  constructor; cbn in *; auto; try (intros; discriminate).
  - intros k. rewrite elem_of_union, elem_of_singleton. intros [->|H]; [|apply I13, H]. exists a. split; [exact (li_in _ _ HI)|reflexivity].
  - intros l2 a0 l1 H. rewrite elem_of_union, elem_of_singleton. intros [Ht|Ht] c Hc; [|eapply I15; eassumption].
    destruct (li_serving _ _ HI l2 a0 l1 H Ht) as [-> H2]. apply H2; [exact Hc|]. apply not_elem_of_nil.
Qed.
Lemma linv_send w l0 c : LInv w l0 -> s_connbuf (w_srv w) = [] -> c ∉ tickets w l0 -> is_Some (w_conns w !! c) ->
  LInv (upd_srv (fun s => s <| s_connbuf := [c] |>) w) l0.
Proof.
  intros [I1 I2 I3 I4 I5 I6 I7 I8 I9 I10 I11 I12 I13 I14 I15 I16 I17 I18] Hb Hc Hd. unfold tickets in *. rewrite Hb in *. cbn in *.
  constructor; unfold tickets; cbn in *; auto.
  - apply NoDup_app in I4 as (H1 & H2 & H3). apply NoDup_app. split; [exact H1|]. split; [|apply NoDup_cons; split; [set_solver|exact H3]].
    intros x Hx. apply not_elem_of_cons. split; [|apply H2, Hx]. intros ->. set_solver.
  - intros x Hx. destruct (decide (x = c)) as [->|Hne]; [exact Hd|]. apply I5. set_solver.
Qed.
Lemma linv_actsend w l0 f b : LInv w l0 ->
  LInv (upd_srv (fun s => s <| s_acts ::= fun l => l ++ [Act f b (S (s_actsent (w_srv w)))] |> <| s_actsent := S (s_actsent (w_srv w)) |>) w) l0.
Proof.
  intros [I1 I2 I3 I4 I5 I6 I7 I8 I9 I10 I11 I12 I13 I14 I15 I16 I17 I18]. constructor; cbn in *; auto.
  destruct I11 as [H1 H2]. split; [|lia]. rewrite fmap_app, H1. cbn.
  replace (S (s_actsent (w_srv w)) - s_actaccepted (w_srv w)) with (S (s_actsent (w_srv w) - s_actaccepted (w_srv w))) by lia.
  rewrite seq_S. do 2 f_equal. lia.
Qed.

(** ** All goroutines. *)
Definition around (w : world) (l : lab) (a : act) : Prop :=
  a ∈ s_acts (w_srv w) \/ l = Took (SAction a) \/ LSrv (SAction a) ∈ w_log w.
Definition offer (w : world) (l : lab) : Prop := forall a0, pa = Some a0 ->
  a_ticket a0 <= s_actsent (w_srv w) /\ forall a, around w l a -> a_ticket a = a_ticket a0 -> a = a0.

Record Inv (w : world) (Ls : gmap tid lab) : Prop := MkInv {
  in_loop : exists l0, Ls !! (0 : tid) = Some l0 /\ LInv w l0 /\
    (forall (t : tid) c, Ls !! t = Some (Up c) -> is_Some (w_conns w !! c) /\ c ∉ tickets w l0) /\
    (forall b, cl = Some b -> (b = true -> s_closed (w_srv w) = true) /\ l0 <> Boot) /\ offer w l0;
  in_other : forall (t : tid) l, Ls !! t = Some l -> t <> 0 -> loopl l = false;
  in_up : forall (t t' : tid) c, Ls !! t = Some (Up c) -> Ls !! t' = Some (Up c) -> t = t';
  in_spawn : forall x, x ∈ w_spawn w -> match x with TServer | TServerLoop => False | TWaitMessages _ => g_sync G = false | _ => True end }.

Lemma aside_tickets w w' l0 : aside w w' -> tickets w' l0 = tickets w l0.
Proof.
  intros F. unfold tickets. rewrite (as_buf _ _ F). destruct (as_log _ _ F) as [-> |(e & He & ->)]; [reflexivity|]. do 2 f_equal. destruct e; try contradiction; reflexivity.
Qed.
Lemma aside_around w w' l0 a : aside w w' -> around w' l0 a -> around w l0 a.
Proof.
  intros F. unfold around. rewrite (as_acts _ _ F). intros [Hr|[Hr|Hr]]; auto. right; right.
  destruct (as_log _ _ F) as [E|(e & He & E)]; rewrite E in Hr; [exact Hr|]. apply elem_of_cons in Hr as [Hr|Hr]; [|exact Hr]. subst e. contradiction.
Qed.
Lemma aside_offer w w' l0 : aside w w' -> offer w l0 -> offer w' l0.
Proof.
  intros F H a0 Ha. destruct (H a0 Ha) as [H1 H2]. rewrite (as_sent _ _ F). split; [exact H1|]. intros a Hr. apply H2.
  eapply aside_around; eassumption.
Qed.
Lemma inv_aside w w' Ls : Inv w Ls -> aside w w' -> (s_closed (w_srv w) = true -> s_closed (w_srv w') = true) -> w_spawn w' = w_spawn w -> Inv w' Ls.
Proof.
  intros [(l0 & H0 & HI & HU & HC & HF) Ho Hu Hs] F Hcl Hsp. constructor; auto; [|rewrite Hsp; exact Hs].
  exists l0. split; [exact H0|]. split; [eapply linv_aside; eassumption|]. rewrite (aside_tickets w w' l0 F). split.
  - intros t c Ht. destruct (HU t c Ht) as [H1 H2]. split; [apply (as_dom _ _ F), H1|exact H2].
  - split; [|eapply aside_offer; eassumption]. intros b Hc. destruct (HC b Hc). auto.
Qed.
(** A step of the loop. *)
Lemma inv_loop t w w' Ls l0 l1 : Inv w Ls -> Ls !! t = Some l0 -> loopl l0 = true -> LInv w' l1 ->
  (forall c, is_Some (w_conns w !! c) -> is_Some (w_conns w' !! c)) ->
  (forall c, c ∈ tickets w' l1 -> c ∈ tickets w l0) ->
  (s_closed (w_srv w) = true -> l0 <> Boot -> s_closed (w_srv w') = true) -> (l1 = Boot -> False) -> w_spawn w' = w_spawn w ->
  (forall a, around w' l1 a -> around w l0 a) -> s_actsent (w_srv w') = s_actsent (w_srv w) -> Inv w' (<[t := l1]> Ls).
Proof.
  intros [(l & H0 & HI & HU & HC & HF) Ho Hu Hs] Ht Hl HI' Hd Htk Hcl Hb Hsp Har Hse.
  assert (t = 0) as -> by (destruct (decide (t = 0)) as [E|E]; [exact E|]; pose proof (Ho t l0 Ht E); congruence).
  rewrite H0 in Ht. injection Ht as ->.
  assert (Hup : forall (t : tid) c, <[0 := l1]> Ls !! t = Some (Up c) -> Ls !! t = Some (Up c)).
  { intros t c Ht. apply lookup_insert_Some in Ht as [[_ ->]|[_ Ht]]; [|exact Ht]. pose proof (li_loop _ _ HI'). discriminate. }
  constructor.
  - exists l1. rewrite lookup_insert. split; [reflexivity|]. split; [exact HI'|]. split.
    + intros t c Ht. apply Hup in Ht. destruct (HU t c Ht) as [H1 H2]. split; [apply Hd, H1|]. intros H. apply H2, Htk, H.
    + split; [|intros a0 Ha; destruct (HF a0 Ha) as [H1 H2]; rewrite Hse; auto]. intros b Hc. destruct (HC b Hc) as [H1 H2]. split; [intros Eb; apply Hcl; auto|]. intros E. apply Hb, E.
  - intros t l Ht Hn. rewrite lookup_insert_ne in Ht by congruence. eauto.
  - intros t t' c H1 H2. apply Hup in H1, H2. eauto.
  - rewrite Hsp. exact Hs.
Qed.

Lemma conn_upd c f w c' : conn_of (upd_conn c f w) c' = if decide (c' = c) then f (conn_of w c) else conn_of w c'.
Proof. unfold conn_of at 1, upd_conn. cbn. case_decide as E; [subst; rewrite lookup_insert|rewrite lookup_insert_ne by congruence]; reflexivity. Qed.

Record unmoved (w w' : world) : Prop := Still {
  st_aside : aside w w';
  st_closed : s_closed (w_srv w) = true -> s_closed (w_srv w') = true;
  st_spawn : w_spawn w' = w_spawn w }.
Lemma still_refl w : unmoved w w.
Proof. repeat constructor; auto. Qed.
Lemma still_pop w : unmoved w (pop_seed w).
Proof. repeat constructor; auto. Qed.
Lemma still_trans w1 w2 w3 : unmoved w1 w2 -> unmoved w2 w3 -> w_log w2 = w_log w1 -> unmoved w1 w3.
Proof.
  intros [[] ? ?] [[] ? ?] E. constructor; [constructor; try congruence; auto|auto|congruence]. rewrite <- E. assumption.
Qed.
Lemma still_conn c f w : (c_closed (conn_of w c) = true -> c_closed (f (conn_of w c)) = true) -> unmoved w (upd_conn c f w).
Proof.
  intros H. constructor; [constructor|..]; cbn; auto.
  - intros c' [k Hk]. destruct (decide (c' = c)) as [->|Hne]; [rewrite lookup_insert|rewrite lookup_insert_ne by congruence]; eauto.
  - intros c'. rewrite conn_upd. case_decide as E; [subst; exact H|auto].
Qed.
Lemma still_log e w : mute e -> unmoved w (w <| w_log ::= cons e |>).
Proof. intros H. constructor; [constructor|..]; cbn; auto. right. eauto. Qed.

Definition bland (o : op) : bool :=
  match o with OActSend _ _ | OSpawn _ => false | _ => neutral o end.
Lemma bland_still t w o w' r : bland o = true -> ostep t w o = Goes w' r -> unmoved w w'.
Proof.
  intros Hb H. destruct o; try discriminate Hb; cbn [ostep] in H;
    repeat match goal with
    | H : match ?x with _ => _ end = Goes _ _ |- _ => destruct x eqn:?; try discriminate H
    end; try discriminate H; injection H as <- <-;
    first [apply still_refl | apply still_pop
      | apply still_conn; cbn; auto; fail
      | (apply still_log; destruct e; try discriminate Hb; exact Logic.I)
      | (constructor; [constructor; cbn; auto; fail|cbn; auto; fail|cbn; reflexivity])
      | (eapply still_trans; [apply still_pop|first [apply still_conn; cbn; auto; fail|constructor; [constructor; cbn; auto; fail|cbn; auto; fail|cbn; reflexivity]]|reflexivity])
      | idtac].
  - eapply (still_trans _ (w <| w_procs ::= <[w_next w:=proc0]> |> <| w_next ::= S |>)); [constructor; [constructor; cbn; auto|cbn; auto|reflexivity]|apply still_conn; cbn; auto|reflexivity].
  - apply still_conn. destruct typ; auto.
  - apply still_conn. destruct typ; auto.
  - constructor; [constructor; cbn; auto|cbn; auto|reflexivity]. right. exists (LBcast msgs). split; [exact Logic.I|reflexivity].
Qed.
Lemma bland_rule l o P r : bland o = true -> (forall c, o <> OCasClosed c) -> o <> OSRange -> lrule l o P -> P r l.
Proof.
  intros Hn H1 H2. destruct o; try discriminate; cbn; auto; try (exfalso; eapply H1; reflexivity); try contradiction.
  destruct e; try discriminate; cbn; auto.
Qed.
Lemma inv_still w w' Ls : Inv w Ls -> unmoved w w' -> Inv w' Ls.
Proof. intros H [F1 F2 F3]. eapply inv_aside; eassumption. Qed.
Lemma inv_spawned w Ls x : Inv w Ls -> match x with TServer | TServerLoop => False | TWaitMessages _ => g_sync G = false | _ => True end ->
  Inv (w <| w_spawn ::= fun l => l ++ [x] |>) Ls.
Proof.
  intros [(l0 & H0 & HI & HU & HC & HF) Ho Hu Hs] Hx. constructor; auto.
  - exists l0. split; [exact H0|]. split; [eapply linv_aside; [exact HI|constructor; cbn; auto]|]. auto.
  - cbn. intros y. rewrite elem_of_app, elem_of_list_singleton. intros [Hy| ->]; [apply Hs, Hy|exact Hx].
Qed.
Lemma loop_zero (t : tid) w Ls l : Inv w Ls -> Ls !! t = Some l -> loopl l = true -> LInv w l.
Proof.
  intros [(l0 & H0 & HI & HU & HC & HF) Ho Hu Hs] Ht Hl.
  assert (t = 0) as -> by (destruct (decide (t = 0)) as [E|E]; [exact E|]; pose proof (Ho t l Ht E); congruence). congruence.
Qed.
Lemma rests_loop l : rests l -> loopl l = true.
Proof. destruct l; cbn; auto. Qed.
Lemma pick_in {X} w (l : list X) x : pick w l = Some x -> x ∈ l.
Proof. unfold pick. intros H. apply nth_error_In in H. apply elem_of_list_In, H. Qed.

Ltac near := intros ?; unfold around; cbn; intros [?|[?|?]]; auto; try discriminate;
  try match goal with H : _ ∈ _ :: _ |- _ => apply elem_of_cons in H as [H|H]; [|auto] end; try discriminate;
  try match goal with H : LSrv _ = LSrv _ |- _ => injection H as <-; auto end.

Lemma loop_op t w Ls l o (P : res o -> lab -> Prop) : Inv w Ls -> Ls !! t = Some l -> lrule l o P ->
  match ostep t w o with
  | Goes w' r => exists l', Inv w' (<[t := l']> Ls) /\ P r l'
  | Blocked => True
  | Panics why => True
  end.
Proof.
  intros HI Ht HP. destruct (ostep t w o) as [w' r| |why] eqn:E; auto.
  assert (Hcasrange : bland o = true -> (forall r', P r' l) -> exists l', Inv w' (<[t := l']> Ls) /\ P r l').
  { intros Hb HP'. exists l. rewrite insert_id by exact Ht. split; [|apply HP']. eapply inv_still; [exact HI|]. eapply bland_still; eassumption. }
  destruct (bland o) eqn:Eb.
  - assert (Hd : (exists c, o = OCasClosed c) \/ o = OSRange \/ ((forall c, o <> OCasClosed c) /\ o <> OSRange)).
    { destruct o; eauto; right; right; split; congruence. }
    destruct Hd as [[c ->]|[->|[H1 H2]]].
    + cbn in HP. destruct HP as [HP|(a & todo & -> & Ea & HP)]; [apply Hcasrange; auto|].
      exists (Acting a todo). split; [|apply HP]. pose proof (bland_still t w _ _ _ Eb E) as Hst.
      pose proof (loop_zero _ _ _ _ HI Ht eq_refl) as HL.
      eapply inv_loop; [exact HI|exact Ht|reflexivity| |apply (as_dom _ _ (st_aside _ _ Hst))| |intros; apply (st_closed _ _ Hst); assumption|discriminate|apply (st_spawn _ _ Hst)| |apply (as_sent _ _ (st_aside _ _ Hst))].
      * apply (linv_close _ c); [eapply linv_aside; [exact HL|apply (st_aside _ _ Hst)]|exact Ea|].
        cbn in E. destruct (c_closed (conn_of w c)) eqn:Ec; injection E as <- <-; [exact Ec|]. rewrite conn_upd, decide_True by reflexivity. reflexivity.
      * intros c'. pose proof (aside_tickets w w' (Acting a todo) (st_aside _ _ Hst)) as ->. auto.
      * intros a' Ha'. apply (aside_around _ _ _ _ (st_aside _ _ Hst)) in Ha'. unfold around in *. destruct Ha' as [?|[?|?]]; auto; discriminate.
    + cbn in HP. destruct HP as [HP|[(msgs & -> & HP)|(a & -> & HP)]]; [apply Hcasrange; auto| |]; cbn in E; injection E as <- <-;
        pose proof (loop_zero _ _ _ _ HI Ht eq_refl) as HL; (eexists; split; [|apply HP]);
        (eapply inv_loop; [exact HI|exact Ht|reflexivity|first [apply linv_range, HL|apply linv_range_act, HL]|auto|auto|auto|discriminate|reflexivity|near|reflexivity]).
    + apply Hcasrange; [reflexivity|]. intros r'. eapply bland_rule; eassumption.
  - destruct o; try discriminate Eb; cbn in HP, E; repeat match type of HP with _ /\ _ => destruct HP as [? HP] end.
    + (* OSClosedReset *) injection E as <- <-. subst l. exists Idle. split; [|exact HP].
      pose proof (loop_zero _ _ _ _ HI Ht eq_refl) as HL. eapply inv_loop; [exact HI|exact Ht|reflexivity|apply linv_boot, HL|auto|auto|congruence|discriminate|reflexivity|near|reflexivity].
    + (* OSConnSend *) subst l. destruct (s_connbuf (w_srv w)) eqn:Ebuf; [|discriminate]. injection E as <- <-. exists Other. split; [|exact HP].
      destruct HI as [(l0 & H0 & HI & HU & HC & HF) Ho Hu Hs]. destruct (HU t c Ht) as [Hd Hn].
      assert (Ht0 : t <> 0) by (intros ->; rewrite H0 in Ht; injection Ht as ->; pose proof (li_loop _ _ HI); discriminate).
      assert (Hups : forall (t' : tid) c', <[t := Other]> Ls !! t' = Some (Up c') -> t' <> t /\ Ls !! t' = Some (Up c')).
      { intros t' c' H. apply lookup_insert_Some in H as [[_ H]|[Hne H]]; [discriminate|]. split; [congruence|exact H]. }
      constructor.
      * exists l0. rewrite lookup_insert_ne by congruence. split; [exact H0|]. split; [apply linv_send; assumption|]. split; [|split; [exact HC|exact HF]].
        intros t' c' H'. apply Hups in H' as [Hne H']. destruct (HU t' c' H') as [H1 H2]. split; [exact H1|].
        assert (c' <> c) by (intros ->; apply Hne; eapply Hu; eassumption).
        unfold tickets in *. cbn. rewrite Ebuf in H2. cbn in H2. set_solver.
      * intros t' l' H' Hne. apply lookup_insert_Some in H' as [[_ <-]|[_ H']]; [reflexivity|eauto].
      * intros t1 t2 c' H1 H2. apply Hups in H1 as [_ H1]. apply Hups in H2 as [_ H2]. eauto.
      * exact Hs.
    + (* OActSend *) injection E as <- <-. exists l. rewrite insert_id by exact Ht. split; [|apply HP].
      destruct HI as [(l0 & H0 & HI & HU & HC & HF) Ho Hu Hs]. constructor; auto. exists l0. split; [exact H0|]. split; [apply linv_actsend, HI|]. split; [auto|]. split; [auto|].
      intros a0 Ha. destruct (HF a0 Ha) as [H1 H2]. split; [cbn; lia|]. intros a'. unfold around. cbn. rewrite elem_of_app, elem_of_list_singleton.
      intros [[H| ->]|H] Ek; [apply H2; [left; exact H|exact Ek]|cbn in Ek; lia|apply H2; [right; exact H|exact Ek]].
    + (* OActDone *) injection E as <- <-. destruct HP as (a & -> & -> & HP). exists Idle. split; [|exact HP].
      pose proof (loop_zero _ _ _ _ HI Ht eq_refl) as HL. eapply inv_loop; [exact HI|exact Ht|reflexivity|apply linv_done, HL|auto|auto|auto|discriminate|reflexivity|near|reflexivity].
    + (* OSrvSelect *) destruct (pick w (srv_ready (w_srv w))) as [x|] eqn:Ep; [|discriminate]. injection E as <- <-. exists (Took x). split; [|apply HP].
      apply rests_loop in H as Hl. pose proof (loop_zero _ _ _ _ HI Ht Hl) as HL. apply pick_in in Ep.
      eapply inv_loop; [exact HI|exact Ht|exact Hl|apply linv_take; [eapply linv_rest; eassumption|exact Ep]|auto| |destruct x; auto|discriminate|destruct x; reflexivity| |destruct x; reflexivity].
      2: { intros a'. unfold around. apply ready_take in Ep. destruct x as [c|c|m|a]; cbn; try (intros [?|[?|?]]; [auto|discriminate|auto]).
        destruct Ep as [rest Ep]. rewrite Ep. cbn. intros [Ha|[[= <-]|Ha]]; auto; left; constructor; exact Ha. }
      intros c'. destruct x as [c| | |]; unfold tickets; cbn; try (intros; apply elem_of_app; auto; fail).
      apply ready_take in Ep as [rest Ep]. rewrite Ep. cbn. set_solver.
    + (* OSAdd *) injection E as <- <-. subst l. exists (Added c). split; [|exact HP].
      pose proof (loop_zero _ _ _ _ HI Ht eq_refl) as HL. eapply inv_loop; [exact HI|exact Ht|reflexivity|apply linv_add, HL|auto|auto|auto|discriminate|reflexivity|near|reflexivity].
    + (* OSMem *) injection E as <- <-. subst l.
      pose proof (loop_zero _ _ _ _ HI Ht eq_refl) as HL. case_bool_decide as Ec.
      * exists (Known c). split; [|assumption]. eapply inv_loop; [exact HI|exact Ht|reflexivity|apply linv_known; assumption|auto|auto|auto|discriminate|reflexivity|near|reflexivity].
      * exists Idle. split; [|assumption]. eapply inv_loop; [exact HI|exact Ht|reflexivity|eapply linv_unknown; eassumption|auto|auto|auto|discriminate|reflexivity|near|reflexivity].
    + (* OSDel *) injection E as <- <-. subst l. exists (Deleted c). split; [|exact HP].
      pose proof (loop_zero _ _ _ _ HI Ht eq_refl) as HL. eapply inv_loop; [exact HI|exact Ht|reflexivity|apply linv_del, HL|auto|auto|auto|discriminate|reflexivity|near|reflexivity].
    + (* OSCountAdd *) injection E as <- <-. destruct HP as [(c & -> & -> & HP)|(c & -> & -> & HP)]; pose proof (loop_zero _ _ _ _ HI Ht eq_refl) as HL.
      * exists Idle. split; [|exact HP]. eapply inv_loop; [exact HI|exact Ht|reflexivity|eapply linv_added, HL|auto|auto|auto|discriminate|reflexivity|near|reflexivity].
      * exists (Gone c). split; [|exact HP]. eapply inv_loop; [exact HI|exact Ht|reflexivity|eapply linv_deleted, HL|auto|auto|auto|discriminate|reflexivity|near|reflexivity].
    + (* ONewConn *) subst l.
      assert (Hst : unmoved w w' /\ w_conns w !! c = None /\ is_Some (w_conns w' !! c)).
      { destruct (w_conns w !! c) eqn:Ec; [discriminate|].
        assert (Hconn : forall k : conn, (forall c0, is_Some (w_conns w !! c0) -> is_Some (<[c := k]> (w_conns w) !! c0)) /\
          forall c0, c_closed (conn_of w c0) = true -> c_closed (default conn0 (<[c := k]> (w_conns w) !! c0)) = true).
        { intros k. split.
          - intros c0 H. destruct (decide (c = c0)) as [->|Hne]; [rewrite lookup_insert; eauto|rewrite lookup_insert_ne by exact Hne; exact H].
          - intros c0. unfold conn_of. destruct (decide (c = c0)) as [->|Hne]; [rewrite Ec; discriminate|rewrite lookup_insert_ne by exact Hne; auto]. }
        destruct native_only; injection E as <- <-; (split; [constructor; [constructor; cbn; auto; apply Hconn|cbn; auto|reflexivity]|split; [reflexivity|cbn; rewrite lookup_insert; eauto]]). }
      destruct Hst as (Hst & Hnew & Hin).
      assert (HI' : Inv w' Ls) by (eapply inv_still; eassumption).
      destruct HP as [HP|HP]; [exists (Up c)|exists Other; rewrite insert_id by exact Ht; split; [exact HI'|destruct r; exact HP]]. split; [|destruct r; exact HP].
      destruct HI as [(l0' & H0' & HI0 & HU' & HC' & HF') Ho' Hu' Hs'].
      destruct HI' as [(l0 & H0 & HI & HU & HC & HF) Ho Hu Hs].
      assert (l0' = l0) as -> by congruence.
      assert (Ht0 : t <> 0) by (intros ->; rewrite H0 in Ht; injection Ht as ->; pose proof (li_loop _ _ HI); discriminate).
      assert (Hno : forall t' : tid, Ls !! t' <> Some (Up c)).
      { intros t' H. apply HU' in H as [[k Hk] _]. congruence. }
      constructor.
      * exists l0. rewrite lookup_insert_ne by congruence. split; [exact H0|]. split; [exact HI|]. split; [|split; [exact HC|exact HF]].
        intros t' c' H'. apply lookup_insert_Some in H' as [[_ [= <-]]|[_ H']]; [|apply (HU t' c' H')]. split; [exact Hin|].
        rewrite (aside_tickets w w' l0 (st_aside _ _ Hst)). intros Hc. apply (li_dom _ _ HI0) in Hc as [k Hk]. congruence.
      * intros t' l' H' Hne. apply lookup_insert_Some in H' as [[_ <-]|[_ H']]; [reflexivity|eauto].
      * intros t1 t2 c' H1 H2. apply lookup_insert_Some in H1 as [[<- E1]|[N1 H1]]; apply lookup_insert_Some in H2 as [[<- E2]|[N2 H2]]; auto;
          [injection E1 as <-|injection E2 as <-|eapply Hu; eassumption]; exfalso; eapply Hno; eassumption.
      * exact Hs.
    + (* OSpawn *) injection E as <- <-. exists l. rewrite insert_id by exact Ht. split; [|exact HP]. apply inv_spawned; assumption.
    + (* OLog *) injection E as <- <-. destruct e; try discriminate Eb; cbn in HP; repeat match type of HP with _ /\ _ => destruct HP as [? HP] end.
      * subst l. exists Idle. split; [|exact HP]. pose proof (loop_zero _ _ _ _ HI Ht eq_refl) as HL.
        eapply inv_loop; [exact HI|exact Ht|reflexivity|apply linv_tell, HL|auto|auto|auto|discriminate|reflexivity|near|reflexivity].
      * destruct HP as (a & todo & -> & Ea & HP). exists (Acting a todo). split; [|exact HP]. pose proof (loop_zero _ _ _ _ HI Ht eq_refl) as HL.
        eapply inv_loop; [exact HI|exact Ht|reflexivity|eapply linv_do; eassumption|auto|auto|auto|discriminate|reflexivity|near|reflexivity].
      * subst l. exists (Got x). split; [|exact HP]. pose proof (loop_zero _ _ _ _ HI Ht eq_refl) as HL.
        eapply inv_loop; [exact HI|exact Ht|reflexivity|apply linv_log, HL|auto| |auto|discriminate|reflexivity|near|reflexivity].
        intros c'. destruct x; unfold tickets; cbn; auto. set_solver.
      * destruct HP as [(Hs & Hl & HP)|(todo & -> & HP)].
        -- exists l. rewrite insert_id by exact Ht. split; [|exact HP]. eapply inv_still; [exact HI|]. apply still_log. exact Hs.
        -- exists (Cast msgs todo). split; [|exact HP]. pose proof (loop_zero _ _ _ _ HI Ht eq_refl) as HL.
           eapply inv_loop; [exact HI|exact Ht|reflexivity|apply linv_batch, HL|auto|auto|auto|discriminate|reflexivity|near|reflexivity].
Qed.
Lemma env_still w e : unmoved w (env_step e w).
Proof.
  destruct e; cbn [env_step]; repeat match goal with |- context [match ?x with _ => _ end] => destruct x eqn:? end;
    first [apply still_refl | apply still_conn; cbn; auto; fail | constructor; [constructor; cbn; auto|cbn; auto|reflexivity]].
Qed.
Lemma inv_new (t : tid) w Ls : Inv w Ls -> Ls !! t = None -> Inv w (<[t := Other]> Ls).
Proof.
  intros [(l0 & H0 & HI & HU & HC & HF) Ho Hu Hs] Ht. assert (Ht0 : t <> 0) by (intros ->; congruence). constructor; auto.
  - exists l0. rewrite lookup_insert_ne by congruence. split; [exact H0|]. split; [exact HI|]. split; [|split; [exact HC|exact HF]].
    intros t' c' H. apply lookup_insert_Some in H as [[_ H]|[_ H]]; [discriminate|eauto].
  - intros t' l' H Hne. apply lookup_insert_Some in H as [[_ <-]|[_ H]]; [reflexivity|eauto].
  - intros t1 t2 c H1 H2. apply lookup_insert_Some in H1 as [[_ H1]|[_ H1]]; [discriminate|]. apply lookup_insert_Some in H2 as [[_ H2]|[_ H2]]; [discriminate|]. eauto.
Qed.

Lemma inv_end (t : tid) w Ls : Inv w Ls -> Ls !! t = Some Other -> Inv w (delete t Ls).
Proof.
  intros [(l0 & H0 & HI & HU & HC & HF) Ho Hu Hs] Ht.
    assert (Ht0 : t <> 0) by (intros ->; rewrite H0 in Ht; injection Ht as ->; pose proof (li_loop _ _ HI); discriminate). constructor; auto.
    + exists l0. rewrite lookup_delete_ne by congruence. split; [exact H0|]. split; [exact HI|]. split; [|split; [exact HC|exact HF]]. intros t' c H. apply lookup_delete_Some in H as [_ H]. eauto.
    + intros t' l' H. apply lookup_delete_Some in H as [_ H]. eauto.
    + intros t1 t2 c H1 H2. apply lookup_delete_Some in H1 as [_ H1]. apply lookup_delete_Some in H2 as [_ H2]. eauto.
Qed.

Lemma loop_respects : respects LS G Inv.
Proof.
  constructor.
  - intros t w Ls l o P HI Ht HP. pose proof (loop_op t w Ls l o P HI Ht HP) as H. destruct (ostep t w o); auto.
  - intros t w Ls l a HI Ht _ _. exists l. rewrite insert_id by exact Ht. split; [exact HI|].
    apply (impl_kp lrules l_gates); auto using l_ask, l_reply, l_message, l_ack, l_waitm, l_broadcast, l_srvask. destruct a; cbn; auto; destruct n; auto.
  - intros t l Hs. apply (code_kp lrules l_gates); auto using l_ask, l_reply, l_message, l_ack, l_waitm, l_broadcast, l_srvask, l_server, l_upgrade, l_dial.
    + cbn. intros l1 ->. auto.
    + intros c ch l1 Hl1. cbn in Hl1. subst l1. unfold read_next. cbn. intros [e|[typ b]]; cbn; auto.
    + intros x l1 l2 Hx Hf <-. destruct x; try discriminate; cbn in *; try exact Hx; apply Hx.
    + intros c l1 l2 H <-. exact H.
    + intros c l1 l2 H <-. exact H.
  - intros t w Ls l HI Ht Hl. cbn in Hl. subst l. apply inv_end; assumption.
  - intros t w Ls x rest HI Hsp Ht. exists Other. pose proof (in_spawn _ _ HI) as Hs. rewrite Hsp in Hs. split.
    + specialize (Hs x ltac:(constructor)). destruct x; cbn; auto; contradiction.
    + apply inv_new; [|exact Ht]. destruct HI as [(l0 & H0 & HI & HU & HC & HF) Ho Hu _]. constructor; auto.
      * exists l0. split; [exact H0|]. split; [eapply linv_aside; [exact HI|constructor; cbn; auto]|]. auto.
      * cbn. intros y Hy. apply Hs. constructor. exact Hy.
  - intros t w Ls x HI Hx Ht. exists Other. split; [destruct x; try discriminate; reflexivity|]. apply inv_new; assumption.
  - intros w Ls e HI _. eapply inv_still; [exact HI|apply env_still].
Qed.
End loop.

Lemma loop_init G : Inv G None None world0 {[0 := Boot]}.
Proof.
  constructor.
  - exists Boot. rewrite lookup_singleton. split; [reflexivity|]. split; [|split; [|split; discriminate]].
    + constructor; cbn; auto; try (intros; discriminate).
      * constructor.
      * intros c H. inversion H.
      * intros k H. set_solver.
      * intros x _ H. inversion H.
    + intros t c H. apply lookup_singleton_Some in H as [_ H]. discriminate.
  - intros t l H Hn. apply lookup_singleton_Some in H as [H _]. congruence.
  - intros t1 t2 c H. apply lookup_singleton_Some in H as [_ H]. discriminate.
  - intros x H. inversion H.
Qed.
Lemma loop_reachable G s : user_app (fun _ => True) G -> reachable G s -> holds (LS G) (Inv G None None) s.
Proof.
  intros A H. apply (reachable_holds (LS G) (lmono G) G (Inv G None None) (loop_respects G None None A)); [|exact H].
  exists Boot. split; [reflexivity|]. apply loop_init.
Qed.
