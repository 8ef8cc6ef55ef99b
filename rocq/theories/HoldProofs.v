(** * HoldProofs.v : C32, the waiting for a Connect. *)
From Coq Require Import ZArith Lia.
From stdpp Require Import gmap strings list relations.
From RecordUpdate Require Import RecordUpdate.
From Verif Require Import Go Errors Message World Lang Code Sem ExecProofs Spec_Conn Spec_View SeqProofs ConnProofs Examples.
From Verif Require Import Spec_App Scenes Spec_Stuck StuckProofs Spec_Cross CrossProofs.

Lemma event_exec G c t w typ b : onlyNative G c = false -> let m := received G c typ b in m_isInvalid m = false -> unasked G w c m ->
  exec t (HandlePayload G c typ b) w = exec t (handle_event G c m) w.
Proof.
  intros Hon m Hi Hu. unfold HandlePayload. change (deserialize G c typ b) with m. unfold handleMessage. rewrite Hi, Hon, andb_false_r.
  change (IsClient G c) with (g_client G c). destruct Hu as [->|[[Hp1 Hp2] Hx]]; [reflexivity|].
  destruct (IsWait (g_client G c) m); [|reflexivity].
  assert (Hr : exec t (handle_reply_or_event G c m) w = exec t (handle_event G c m) w).
  { unfold handle_reply_or_event. cbn [opr bind exec ostep]. rewrite Hp1. reflexivity. }
  destruct (g_client G c) eqn:Ec; [exact Hr|].
  assert (Hs : exec t (bind (opr (OSWaitGet (m_wait m))) (fun w => match w with Some ch => bind (send ch m) (fun _ => Ret None) | None => handle_reply_or_event G c m end)) w = exec t (handle_event G c m) w).
  { cbn [opr bind exec ostep]. rewrite (Hp2 eq_refl). exact Hr. }
  destruct Hx as [Hx|[Hx|Hx]]; [rewrite Hx|rewrite Hx|discriminate]; [destruct (g_exch G)|]; exact Hs.
Qed.

Lemma ostep_woken t w p g : ostep t w (OProcWoken p g) = if g <? p_gen (proc_of w p) then
  match p_count (proc_of w p), p_waiters (proc_of w p) with O, O => Goes w tt | _, _ => Panics "sync: WaitGroup is reused before previous Wait has returned" end else Blocked.
Proof. reflexivity. Qed.
Lemma woken_blocked {B} t w p g (k : unit -> prog B) : p_gen (proc_of w p) <= g -> exec t (Do (OProcWoken p g) k) w = XBlocked w (OProcWoken p g) k.
Proof.
  intros H. change (exec t (Do (OProcWoken p g) k) w) with (match ostep t w (OProcWoken p g) with Goes w' r => exec t (k r) w' | Blocked => XBlocked w (OProcWoken p g) k | Panics why => XPanic w why end).
  rewrite ostep_woken, (proj2 (Nat.ltb_ge _ _)) by exact H. reflexivity.
Qed.
Lemma woken_goes {B} t w p g (k : unit -> prog B) : g < p_gen (proc_of w p) -> p_count (proc_of w p) = 0 -> p_waiters (proc_of w p) = 0 -> exec t (Do (OProcWoken p g) k) w = exec t (k tt) w.
Proof.
  intros H1 H2 H3. change (exec t (Do (OProcWoken p g) k) w) with (match ostep t w (OProcWoken p g) with Goes w' r => exec t (k r) w' | Blocked => XBlocked w (OProcWoken p g) k | Panics why => XPanic w why end).
  rewrite ostep_woken, H2, H3, (proj2 (Nat.ltb_lt _ _)) by exact H1. reflexivity.
Qed.
(** What tryNamespace does after the wait. *)
Definition rest_of (G : cfg) (c : cid) (m : message) : prog (option nsref) :=
  bind (Namespace c (m_namespace m)) (fun ns => match ns with
    | None => bind (Write G c (set_err (Some EBadNamespace) m)) (fun _ => Ret None)
    | Some n => Ret (Some n) end).
Definition slept (p : pid) (w : world) : world := upd_proc p (fun k => k <| p_waiters ::= S |>) w.
Lemma try_sleeps {B} G c t w m p (f : option nsref -> prog B) : c_procs (conn_of w c) !! m_namespace m = Some p -> p_done (proc_of w p) = false -> 0 < p_count (proc_of w p) ->
  exists k, exec t (bind (tryNamespace G c m) f) w = XBlocked (slept p w) (OProcWoken p (p_gen (proc_of w p))) k /\
    forall w2, exec t (k tt) w2 = exec t (bind (rest_of G c m) f) w2.
Proof.
  intros Hp Hd Hc. unfold tryNamespace, proc_get, proc_Wait. cbn [bind opr exec ostep]. rewrite Hp. cbn [bind opr exec ostep]. rewrite Hd. cbn [bind opr exec ostep].
  destruct (p_count (proc_of w p)) as [|q] eqn:Eq; [lia|]. cbn [bind opr exec ostep].
  assert (Hb : (p_gen (proc_of w p) <? p_gen (proc_of (upd_proc p (fun k => k <| p_waiters ::= S |>) w) p)) = false).
  { rewrite proc_upd_eq. cbn. apply Nat.ltb_irrefl. }
  rewrite Hb. eexists. split; [reflexivity|]. intros w2. cbn beta. reflexivity.
Qed.
Lemma try_done {B} G c t w m p (f : option nsref -> prog B) : c_procs (conn_of w c) !! m_namespace m = Some p -> p_done (proc_of w p) = true ->
  exec t (bind (tryNamespace G c m) f) w = exec t (bind (rest_of G c m) f) w.
Proof.
  intros Hp Hd. unfold tryNamespace, proc_get, proc_Wait. cbn [bind opr exec ostep]. rewrite Hp. cbn [bind opr exec ostep]. rewrite Hd. reflexivity.
Qed.
(** Every event but connect and disconnect requests begins with tryNamespace. *)
Lemma event_try G c m : m_event m <> OnNamespaceConnect -> m_event m <> OnNamespaceDisconnect -> exists f, handle_event G c m = bind (tryNamespace G c m) f.
Proof.
  intros H1 H2. unfold handle_event. rewrite (proj2 (String.eqb_neq _ _) H1), (proj2 (String.eqb_neq _ _) H2).
  destruct (String.eqb (m_event m) OnRoomJoin); [eexists; reflexivity|]. destruct (String.eqb (m_event m) OnRoomLeave); eexists; reflexivity.
Qed.

(*@file Prop_Hold.v
From Coq Require Import ZArith.
From stdpp Require Import gmap strings list relations.
From Verif Require Import Go Errors Message World Lang Code Sem Spec_App Spec_Conn Spec_View Examples Scenes Spec_Stuck Spec_Cross CrossProofs HoldProofs.
@*)

(*@prop C32 (missing: overlapping and later Connects, see C32_refuted).  While the first Connect of a namespace is under
    way ([p] is its process, started and not done), a message for that namespace is not handled: whoever handles
    it sleeps ([OProcWoken]), and till then nothing has been written, no callback has run and no namespace or room
    has changed, of any connection.  As soon as that Connect is done and nobody else connects ([proc_Done] from a
    count of 1), the message is handled exactly as if it arrived then. @*)
Lemma l_C32_waits_partial : forall G c t w typ b p,
  let m := received G c typ b in
  onlyNative G c = false -> m_isInvalid m = false -> unasked G w c m ->
  m_event m <> OnNamespaceConnect -> m_event m <> OnNamespaceDisconnect ->
  c_procs (conn_of w c) !! m_namespace m = Some p -> p_done (proc_of w p) = false -> 0 < p_count (proc_of w p) ->
  exists w' g k, exec t (HandlePayload G c typ b) w = XBlocked w' (OProcWoken p g) k /\
    w_log w' = w_log w /\ (forall c', view w' c' = view w c') /\
    p_count (proc_of w' p) = p_count (proc_of w p) /\ p_gen (proc_of w' p) = g /\ 0 < p_waiters (proc_of w' p) /\
    forall w2 u, unasked G w2 c m -> c_procs (conn_of w2 c) !! m_namespace m = Some p ->
      p_done (proc_of w2 p) = false -> p_count (proc_of w2 p) = 1 -> p_gen (proc_of w2 p) = g -> 0 < p_waiters (proc_of w2 p) ->
      exec t (Do (OProcWoken p g) k) w2 = XBlocked w2 (OProcWoken p g) k /\
      exists w3, exec u (proc_Done p) w2 = XDone w3 tt /\ (forall c', view w3 c' = view w2 c') /\
        exec t (Do (OProcWoken p g) k) w3 = exec t (HandlePayload G c typ b) w3.
Proof.
  intros G c t w typ b p m Hon Hi Hu H1 H2 Hp Hd Hc.
  destruct (event_try G c m H1 H2) as [f Ef].
  destruct (try_sleeps G c t w m p f Hp Hd Hc) as (k & Ek & Hk).
  exists (slept p w), (p_gen (proc_of w p)), k.
  split; [rewrite event_exec by assumption; fold m; rewrite Ef; exact Ek|].
  split; [reflexivity|]. split; [intros; reflexivity|]. assert (Es : proc_of (slept p w) p = proc_of w p <| p_waiters ::= S |>) by apply proc_upd_eq. rewrite Es. split; [reflexivity|]. split; [reflexivity|]. split; [cbn; lia|].
  intros w2 u Hu2 Hp2 Hd2 Hc2 Hg2 Hw2. split.
  { apply woken_blocked. rewrite Hg2. lia. }
  set (wd := upd_proc p (fun k => k <| p_done := true |>) w2).
  assert (Ed : proc_of wd p = proc_of w2 p <| p_done := true |>) by apply proc_upd_eq.
  set (w3 := upd_proc p (fun k => match p_waiters k with O => k <| p_count := 0 |> | S _ => k <| p_count := 0 |> <| p_waiters := 0 |> <| p_gen ::= S |> end) wd).
  assert (E3 : proc_of w3 p = proc_of w2 p <| p_done := true |> <| p_count := 0 |> <| p_waiters := 0 |> <| p_gen ::= S |>).
  { unfold w3. rewrite proc_upd_eq, Ed. cbn. destruct (p_waiters (proc_of w2 p)); [lia|reflexivity]. }
  exists w3. split; [|split].
  - unfold proc_Done. cbn [bind opr exec ostep]. rewrite Hd2. cbn [bind opr exec ostep]. fold wd. rewrite Ed. cbn. rewrite Hc2. reflexivity.
  - reflexivity.
  - rewrite woken_goes; [|rewrite E3; cbn; lia|rewrite E3; reflexivity|rewrite E3; reflexivity]. rewrite Hk.
    rewrite event_exec by assumption. fold m. rewrite Ef. symmetry. apply (try_done _ _ _ _ _ p).
    + exact Hp2.
    + rewrite E3. reflexivity.
Qed.

Lemma gen_kept t w o w' r p : ostep t w o = Goes w' r -> o = OProcDone p \/ p_gen (proc_of w' p) <= p_gen (proc_of w p).
Proof.
  intros H.
  assert (Hu : forall q f, p_gen (f (proc_of w q)) = p_gen (proc_of w q) -> p_gen (proc_of (upd_proc q f w) p) <= p_gen (proc_of w p)).
  { intros q f E. destruct (decide (p = q)) as [->|Hne]; [rewrite proc_upd_eq, E; lia|rewrite proc_upd_ne by exact Hne; lia]. }
  destruct o; cbn [ostep] in H;
    repeat match goal with
    | H : match ?x with _ => _ end = Goes _ _ |- _ => destruct x eqn:?; try discriminate H
    end; try discriminate H; injection H as <- <-; try (right; reflexivity); try (right; apply Hu; reflexivity).
  - right. match goal with |- p_gen (proc_of ?w1 p) <= _ => change (proc_of w1 p) with (proc_of (upd_proc (w_next w) (fun _ => proc0) w) p) end.
    destruct (decide (p = w_next w)) as [->|Hne]; [rewrite proc_upd_eq; cbn; lia|rewrite proc_upd_ne by exact Hne; lia].
  - match goal with |- OProcDone ?q = _ \/ _ => destruct (decide (q = p)) as [->|Hne]; [left; reflexivity|right] end. rewrite proc_upd_ne by congruence. lia.
Qed.
Lemma gen_env e w p : p_gen (proc_of (env_step e w) p) = p_gen (proc_of w p).
Proof. destruct e; cbn [env_step]; repeat match goal with |- context [match ?x with _ => _ end] => destruct x eqn:? end; reflexivity. Qed.
Lemma hold_step G s s' (t : tid) p g k : sstep G s s' -> s_th s !! t = Some (Do (OProcWoken p g) k) -> p_gen (proc_of (s_w s) p) <= g -> t < s_next s ->
  (s_th s' !! t = Some (Do (OProcWoken p g) k) /\ p_gen (proc_of (s_w s') p) <= g /\ t < s_next s') \/ exists u, at_op s u (OProcDone p) /\ step G (Step u) s = Some s'.
Proof.
  intros [a E] Ht Hg Hn. pose proof E as E0. unfold step in E. destruct (s_crash s) eqn:Ec; [discriminate|]. destruct a as [u| |e].
  - destruct (s_th s !! u) as [q|] eqn:Eu; [|discriminate]. destruct (tstep G u (s_w s) q) as [w' q'|w'| |why] eqn:Et; [| |discriminate|].
    + destruct (decide (u = t)) as [->|Hne].
      { pose proof (eq_trans (eq_sym Ht) Eu) as X. injection X as <-. unfold tstep in Et. rewrite ostep_woken, (proj2 (Nat.ltb_ge _ _)) in Et by exact Hg. discriminate. }
      injection E as <-. cbn. rewrite lookup_insert_ne by congruence.
      destruct q as [x|o kk|a kk|y]; cbn in Et.
      * destruct x; [injection Et as <- <-; left; auto|discriminate].
      * destruct (ostep u (s_w s) o) as [w'' r| |] eqn:Eo; [|discriminate|discriminate]. injection Et as <- <-.
        destruct (gen_kept _ _ _ _ _ p Eo) as [->|H]; [right; exists u; split; [exists kk; exact Eu|exact E0]|left; split; [exact Ht|split; [lia|exact Hn]]].
      * destruct (valid_api (s_w s) a); [injection Et as <- <-; left; auto|discriminate].
      * discriminate.
    + injection E as <-. cbn. assert (w' = s_w s /\ u <> t) as [-> Hne].
      { destruct q as [[x|]|o kk|a kk|y]; cbn in Et; try discriminate; [injection Et as <-; split; [reflexivity|intros ->; pose proof (eq_trans (eq_sym Ht) Eu) as X; discriminate X]| |].
        - destruct (ostep u (s_w s) o); discriminate. - destruct (valid_api (s_w s) a); discriminate. }
      left. rewrite lookup_delete_ne by congruence. auto.
    + injection E as <-. left. auto.
  - destruct (w_spawn (s_w s)) as [|x rest]; [discriminate|]. injection E as <-. cbn. left. split; [rewrite lookup_insert_ne by lia; exact Ht|split; [exact Hg|lia]].
  - assert (He : forall b : bool, (if b then Some (Sys (env_step e (s_w s)) (s_th s) (s_next s) None) else None) = Some s' -> s_th s' !! t = Some (Do (OProcWoken p g) k) /\ p_gen (proc_of (s_w s') p) <= g /\ t < s_next s').
    { intros [|] H; [|discriminate]. injection H as <-. cbn [s_th s_w s_next]. rewrite gen_env. auto. }
    left. destruct e; try (match type of E with (if ?b then _ else _) = _ => exact (He b E) end; fail). destruct (startable G _) in E; [|discriminate]. injection E as <-. cbn.
    split; [rewrite lookup_insert_ne by lia; exact Ht|split; [exact Hg|lia]].
Qed.

(*@prop C32 (missing: overlapping and later Connects, see C32_refuted).  In every schedule: a goroutine [t] that sleeps because a namespace
    is being connected ([p] is that process, [g] the generation of its sleepers) stays where it is until some goroutine does the
    WaitGroup.Done that ends a Connect (conn.go:661, process.go:69). @*)
Lemma l_C32_until_partial : forall G s s' t p g k,
  reachable G s -> s_th s !! t = Some (Do (OProcWoken p g) k) -> p_gen (proc_of (s_w s) p) <= g -> steps G s s' ->
  s_th s' !! t = Some (Do (OProcWoken p g) k) \/
  exists s1 s2 u, steps G s s1 /\ at_op s1 u (OProcDone p) /\ step G (Step u) s1 = Some s2 /\ steps G s2 s'.
Proof.
  intros G s s' t p g k Hr Ht Hg Hs.
  assert (Hn : t < s_next s) by (destruct (le_lt_dec (s_next s) t) as [H|H]; [rewrite (th_fresh G s Hr t H) in Ht; discriminate|exact H]).
  clear Hr. induction Hs as [s|s s1 s' H1 H2 IH]; [left; exact Ht|].
  destruct (hold_step _ _ _ _ _ _ _ H1 Ht Hg Hn) as [(H & H' & H'')|(u & Hu & Es)].
  - destruct (IH H H' H'') as [Hx|(a & b & u & Ha & Hb & Hc & Hd)]; [left; exact Hx|right]. exists a, b, u. split; [eapply rtc_l; eassumption|auto].
  - right. exists s, s1, u. split; [apply rtc_refl|auto].
Qed.

(** The client (connection 2) has sent its request for "chat" and waits for the answer. *)
Definition connecting_run : list cmd := take 17 crossed_run.
(*@exl The client has sent its connect request for "chat"; an event for "chat" would have to wait.  In the second state the
    event came before the answer, and the reader (goroutine 4) sleeps. @*)
Lemma x_C32_waits_example : let s := play crossed connecting_run (init crossed) in let s' := play crossed crossed_run (init crossed) in
  let m := received crossed 2 TextMessage ";chat;;echo;0;0;hi" in
  reachable crossed s /\ c_out (conn_of (s_w s) 2) = [(TextMessage, "M"); (TextMessage, "$0;chat;;_OnNamespaceConnect;0;0;")] /\
  onlyNative crossed 2 = false /\ m_isInvalid m = false /\ unasked crossed (s_w s) 2 m /\
  m_event m = "echo" /\ c_procs (conn_of (s_w s) 2) !! m_namespace m = Some 1 /\
  p_done (proc_of (s_w s) 1) = false /\ p_count (proc_of (s_w s) 1) = 1 /\
  reachable crossed s' /\ at_op s' 4 (OProcWoken 1 0) /\ p_gen (proc_of (s_w s') 1) <= 0 /\ p_count (proc_of (s_w s') 1) = 1.
Proof.
  cbv zeta. split; [apply play_reachable|]. split; [vm_compute; reflexivity|]. split; [reflexivity|]. split; [reflexivity|].
  split; [left; vm_compute; reflexivity|]. split; [reflexivity|]. do 3 (split; [vm_compute; reflexivity|]). split; [apply play_reachable|].
  split; [at_op_tac|]. split; [apply Nat.leb_le; vm_compute; reflexivity|vm_compute; reflexivity].
Qed.
