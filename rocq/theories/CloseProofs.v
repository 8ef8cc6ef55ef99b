(** * CloseProofs.v : C21, closing a connection. *)
From Coq Require Import ZArith.
From stdpp Require Import gmap strings list relations.
From RecordUpdate Require Import RecordUpdate.
From Verif Require Import Go Errors Message World Lang Code Sem ExecProofs Spec_Conn Spec_View Spec_Wire CodecProofs SeqProofs ConnProofs.

Section close.
Context (G : cfg) (c : cid) (A : app) (Hlift : g_namespaces G c = lift A).

Lemma leave_world_mu n local order w : o_mu (ns_of (leave_world A n local order w) n) = o_mu (ns_of w n).
Proof.
  revert w; induction order as [|r order IH]; intros w; [reflexivity|]. cbn [leave_world].
  rewrite IH, fire_world_ns. unfold rooms_world. rewrite ns_upd_eq. cbn. rewrite fire_world_ns. reflexivity.
Qed.
Lemma leave_world_in n local order w : w_nss w !! n_id n = Some (ns_of w n) ->
  w_nss (leave_world A n local order w) !! n_id n = Some (ns_of (leave_world A n local order w) n).
Proof.
  revert w; induction order as [|r order IH]; intros w H; [exact H|]. cbn [leave_world].
  apply IH. rewrite fire_world_ns. unfold rooms_world. rewrite ns_upd_eq.
  destruct (fire_world_eqs A n (set_event OnRoomLeft (leave_msg n local r))
    (upd_ns n (fun k => k <| o_rooms ::= fun s => s ∖ {[r]} |>) (fire_world A n (set_event OnRoomLeave (leave_msg n local r)) w))) as (_ & -> & _).
  unfold upd_ns at 1. cbn. apply lookup_insert.
Qed.

Lemma forceLeaveAll_exec t w n local : n_conn n = c -> w_nss w !! n_id n = Some (ns_of w n) -> o_mu (ns_of w n) = rw0 ->
  exec t (forceLeaveAll G n local) w =
  XDone (leave_world A n local (permute (seed w) (elements (o_rooms (ns_of w n)))) (pop_seed w)) tt.
Proof.
  intros Hc H1 H2. set (order := permute _ _). unfold forceLeaveAll.
  rewrite (exec_opb t (ORoomLock n) _ _ (mu_world n (RW (Some t) []) w) tt) by (cbn [ostep]; rewrite H2; reflexivity).
  rewrite (exec_opb t (ORoomRange n) _ _ (mu_world n (RW (Some t) []) (pop_seed w)) order).
  2:{ cbn [ostep]. unfold mu_world at 3. rewrite ns_upd_eq. reflexivity. }
  rewrite (exec_bind_done _ _ _ _ _ _ (leave_loop_exec G c A Hlift t n local order _ Hc)).
  rewrite leave_mu.
  cbn [opr exec ostep]. unfold mu_world at 1. rewrite ns_upd_eq. cbn. rewrite Nat.eqb_refl. f_equal.
  unfold mu_world. rewrite upd_ns_twice.
  apply upd_ns_id; [apply leave_world_in; exact H1|].
  pose proof (leave_world_mu n local order (pop_seed w)) as H3.
  change (ns_of (pop_seed w) n) with (ns_of w n) in H3. rewrite H2 in H3.
  destruct (ns_of (leave_world A n local order (pop_seed w)) n) as [a b d]; cbn in *. unfold set; cbn. subst. reflexivity.
Qed.

(** What commutes with the worlds of the loop. *)
Record flags (g : conn -> conn) : Prop := Flags {
  g_get : forall k, c_nss (g k) = c_nss k;
  g_put : forall k f, g (k <| c_nss ::= f |>) = g k <| c_nss ::= f |> }.

Lemma fire_flags n m g w : fire_world A n m (upd_conn c g w) = upd_conn c g (fire_world A n m w).
Proof. unfold fire_world. destruct (callback _ _ _) as [[? ?]|]; reflexivity. Qed.
Lemma rooms_flags n f g w : rooms_world n f (upd_conn c g w) = upd_conn c g (rooms_world n f w).
Proof. reflexivity. Qed.
Lemma leave_flags n local order g w : leave_world A n local order (upd_conn c g w) = upd_conn c g (leave_world A n local order w).
Proof.
  revert w; induction order as [|r order IH]; intros w; [reflexivity|]. cbn [leave_world].
  rewrite fire_flags, rooms_flags, fire_flags. apply IH.
Qed.
Lemma delns_flags name g w : flags g -> delns_world c name (upd_conn c g w) = upd_conn c g (delns_world c name w).
Proof.
  intros H. unfold delns_world. rewrite !upd_conn_twice. apply upd_conn_ext. symmetry. apply (g_put _ H).
Qed.

Definition close_ns (e : string * list string) (s : cstate) : cstate :=
  fire A (fst e) (bye (fst e)) (leave_rooms A (fst e) true (snd e) s) <| cs_rooms ::= delete (fst e) |>.

Definition close_loop (l : list (string * nsref)) : prog unit :=
  for_all l (fun e =>
       let '(namespace, ns) := e in
       bind (forceLeaveAll G ns true) (fun _ =>
       bind (fireEvent G ns (set_namespace (n_name ns)
          (set_isLocal true (set_isForced true (set_event OnNamespaceDisconnect no_message))))) (fun _ =>
       opr (ODelNs c namespace)))).

Lemma close_loop_exec t g l w s nm : flags g -> at_ G c w s nm -> NoDup (fst <$> l) ->
  (forall name n, (name, n) ∈ l -> nm !! name = Some n) ->
  exists w' orders,
    exec t (close_loop l) (upd_conn c g w) = XDone (upd_conn c g w') tt /\
    at_ G c w' (fold_left (fun s e => close_ns e s) orders s) (fold_left (fun m e => delete (fst e) m) l nm) /\ only c w w' /\
    map fst orders = map fst l /\
    forall ns order, (ns, order) ∈ orders -> exists rs, cs_rooms s !! ns = Some rs /\ Permutation order (elements rs).
Proof.
  intros Hg. revert w s nm; induction l as [|[name n] l IH]; intros w s nm H Hnd Hin.
  - exists w, []. cbn. split; [reflexivity|]. split; [exact H|]. split; [apply only_refl|]. split; [reflexivity|].
    intros ns order Hx. apply elem_of_nil in Hx as [].
  - cbn [fmap list_fmap] in Hnd. apply NoDup_cons in Hnd as [Hn1 Hn2].
    assert (E : nm !! name = Some n) by (apply Hin; constructor).
    destruct (at_ns _ _ _ _ _ _ _ H E) as (Hc & Hname & E1 & H1 & H2 & H3).
    set (order := permute (seed w) (elements (o_rooms (ns_of w n)))).
    assert (E' : nm !! n_name n = Some n) by (rewrite Hname; exact E).
    destruct (at_leave G c A n true order (pop_seed w) s nm (at_pop G c _ _ _ H) E') as [H4 O4].
    pose proof (at_fire G c A n (bye name) _ _ _ H4 Hc) as H5.
    pose proof (only_fire c A n (bye name) (leave_world A n true order (pop_seed w)) Hc) as O5.
    pose proof (at_delns G c _ _ _ name H5) as H6.
    pose proof (only_delns c (fire_world A n (bye name) (leave_world A n true order (pop_seed w))) name) as O6.
    rewrite Hname in H6.
    destruct (IH _ _ _ H6 Hn2) as (w' & orders & EX & H7 & O7 & Hmap & Hord).
    { intros name' n' Hi. rewrite lookup_delete_ne; [apply Hin; constructor; exact Hi|].
      intros <-. apply Hn1. apply elem_of_list_fmap. exists (name, n'). auto. }
    exists w', ((name, order) :: orders).
    split; [|split; [exact H7|split; [|split; [cbn; rewrite Hmap; reflexivity|]]]].
    + unfold close_loop in *. cbn [for_all].
      rewrite (bind_assoc_exec _ _ _ _ _ _ _ (forceLeaveAll_exec t (upd_conn c g w) n true Hc E1 H2)).
      change (seed (upd_conn c g w)) with (seed w). change (ns_of (upd_conn c g w) n) with (ns_of w n). fold order.
      change (pop_seed (upd_conn c g w)) with (upd_conn c g (pop_seed w)). rewrite leave_flags.
      rewrite (bind_assoc_exec _ _ _ _ _ _ _ (fireEvent_exec G c A Hlift t n _ _ Hc)).
      rewrite fire_flags. rewrite Hname.
      rewrite (exec_opb t (ODelNs c name) _ _ (upd_conn c g (delns_world c name (fire_world A n (bye name) (leave_world A n true order (pop_seed w))))) tt).
      * exact EX.
      * rewrite <- delns_flags by exact Hg. reflexivity.
    + eapply only_trans; [apply only_pop|]. eapply only_trans; [exact O4|]. eapply only_trans; [exact O5|].
      eapply only_trans; [exact O6|exact O7].
    + intros ns o Hi. apply elem_of_cons in Hi as [Hi|Hi].
      * injection Hi as -> ->. exists (o_rooms (ns_of w n)). split; [exact H3|apply permute_perm].
      * destruct (Hord _ _ Hi) as (rs & Hrs & Hp). exists rs. split; [|exact Hp].
        assert (Hne : name <> ns).
        { intros <-. apply Hn1. apply (elem_of_list_fmap_1 fst) in Hi. cbn in Hi.
          change (fst <$> orders) with (map fst orders) in Hi. rewrite Hmap in Hi. exact Hi. }
        rewrite <- Hrs. unfold set; cbn. rewrite lookup_delete_ne by exact Hne.
        rewrite fire_calls, leave_rooms_calls. cbn. rewrite lookup_alter_ne by exact Hne. reflexivity.
Qed.

Lemma close_ns_calls e s : close_ns e s =
  s <| cs_rooms ::= delete (fst e) |> <| cs_fired ::= (fun l => close_calls A e ++ l) |>.
Proof.
  unfold close_ns, close_calls. rewrite fire_calls, leave_rooms_calls. destruct s as [M o f u]. unfold set; cbn.
  rewrite delete_alter, app_assoc. reflexivity.
Qed.
Lemma close_all_calls orders s : fold_left (fun s e => close_ns e s) orders s =
  s <| cs_rooms ::= (fun M => fold_left (fun M e => delete (fst e) M) orders M) |>
    <| cs_fired ::= (fun l => flat_map (close_calls A) (rev orders) ++ l) |>.
Proof.
  revert s; induction orders as [|e orders IH]; intros s; [destruct s; reflexivity|].
  cbn [fold_left]. rewrite IH, close_ns_calls. destruct s as [M o f u]. unfold set; cbn. f_equal.
  rewrite flat_map_app. cbn [flat_map]. rewrite app_nil_r, app_assoc. reflexivity.
Qed.
Lemma delete_all {V} (orders : list (string * list string)) (M : gmap string V) i :
  fold_left (fun M e => delete (fst e) M) orders M !! i = if bool_decide (i ∈ map fst orders) then None else M !! i.
Proof.
  revert M; induction orders as [|e orders IH]; intros M; [reflexivity|]. cbn [fold_left map]. rewrite IH.
  destruct (decide (i = fst e)) as [->|Hd].
  - rewrite lookup_delete. rewrite (bool_decide_true (fst e ∈ fst e :: _)) by constructor. destruct (bool_decide _); reflexivity.
  - rewrite lookup_delete_ne by congruence. destruct (decide (i ∈ map fst orders)) as [Hi|Hi].
    + rewrite !bool_decide_true by (try constructor; assumption). reflexivity.
    + rewrite !bool_decide_false; [reflexivity| |exact Hi]. intros Hx. apply elem_of_cons in Hx as [?|?]; contradiction.
Qed.
End close.

(** Nothing that [view] shows depends on the flags of a connection. *)
Lemma view_flags c g w : (forall k, c_nss (g k) = c_nss k) -> (forall k, c_out (g k) = c_out k) ->
  view (upd_conn c g w) c = view w c.
Proof. intros H1 H2. unfold view. rewrite conn_upd_eq, H1, H2. reflexivity. Qed.

(*@file Prop_Close.v
From Coq Require Import ZArith.
From stdpp Require Import gmap strings list relations.
From RecordUpdate Require Import RecordUpdate.
From Verif Require Import Go Errors Message World Lang Code Sem Spec_Conn Spec_View Examples.
@*)

(*@prop C21. Close runs, for each connected namespace in some order, the forced leave and left callbacks of
    each of its rooms and then the disconnect callback, each once; nothing stays connected; no frame is
    written; waiters are forgotten; the socket is closed; the server is told (by a new goroutine); other
    connections are untouched. @*)
Lemma l_C21_close : forall G c A t w,
  setting G c A -> quiet G w c -> c_closeCh (conn_of w c) = false ->
  let s := view w c in
  exists w' orders,
    exec t (Close G c) w = XDone w' tt /\
    Permutation (map fst orders) (elements (dom (cs_rooms s))) /\
    (forall ns order, (ns, order) ∈ orders -> exists rs, cs_rooms s !! ns = Some rs /\ Permutation order (elements rs)) /\
    let s' := view w' c in
    cs_rooms s' = ∅ /\ cs_sent s' = cs_sent s /\ cs_subs s' = cs_subs s /\
    cs_fired s' = flat_map (close_calls A) (rev orders) ++ cs_fired s /\
    c_closed (conn_of w' c) = true /\ c_sockclosed (conn_of w' c) = true /\
    c_acked (conn_of w' c) = false /\ c_waiting (conn_of w' c) = ∅ /\
    w_spawn w' = w_spawn w ++ (if g_client G c then [] else [TDisconnect c]) /\
    (forall c', c' <> c -> conn_of w' c' = conn_of w c') /\ w_srv w' = w_srv w.
Proof.
  intros G c A t w S Q Hch s.
  set (g1 := fun k : conn => k <| c_closed := true |> <| c_nsmu := RW (Some t) [] |>).
  assert (Hg1 : flags g1) by (split; reflexivity).
  set (l := permute (seed w) (map_to_list (c_nss (conn_of w c)))).
  assert (Hl : Permutation l (map_to_list (c_nss (conn_of w c)))) by apply permute_perm.
  pose proof (At G c w (view w c) (c_nss (conn_of w c)) Q eq_refl eq_refl) as Hat.
  destruct (close_loop_exec G c A (app_of _ _ _ S) t g1 l (pop_seed w) _ _ Hg1 (at_pop G c _ _ _ Hat))
    as (w1 & orders & EX & H1 & O1 & Hmap & Hord).
  { rewrite Hl. apply NoDup_fst_map_to_list. }
  { intros name n Hi. rewrite Hl in Hi. apply elem_of_map_to_list, Hi. }
  rewrite close_all_calls in H1.
  assert (Hperm : Permutation (map fst orders) (elements (dom (cs_rooms s)))).
  { rewrite Hmap. unfold s, view. cbn [cs_rooms]. rewrite dom_fmap_L.
    apply NoDup_Permutation.
    - change (map fst l) with (fst <$> l). rewrite Hl. apply NoDup_fst_map_to_list.
    - apply NoDup_elements.
    - intros i. rewrite elem_of_elements, elem_of_dom. change (map fst l) with (fst <$> l). rewrite Hl.
      rewrite elem_of_list_fmap. split.
      + intros ([a b] & -> & Hi). apply elem_of_map_to_list in Hi. eauto.
      + intros [n Hn]. exists (i, n). split; [reflexivity|]. apply elem_of_map_to_list, Hn. }
  assert (Hempty : fold_left (fun M e => delete (fst e) M) orders (cs_rooms s) = ∅).
  { apply map_eq. intros i. rewrite delete_all, lookup_empty.
    destruct (bool_decide (i ∈ map fst orders)) eqn:Eb; [reflexivity|].
    apply bool_decide_eq_false in Eb. rewrite Hperm in Eb. rewrite elem_of_elements, elem_of_dom in Eb.
    destruct (cs_rooms s !! i); [exfalso; apply Eb; eauto|reflexivity]. }
  set (g2 := fun k : conn => k <| c_closed := true |> <| c_nsmu := rw0 |> <| c_waiting := ∅ |> <| c_acked := false |>
     <| c_closeCh := true |> <| c_sockclosed := true |>).
  set (w2 := upd_conn c g2 (w1 <| w_spawn ::= fun l => l ++ (if g_client G c then [] else [TDisconnect c]) |>)).
  exists w2, orders.
  assert (Hch1 : c_closeCh (conn_of w1 c) = false) by (rewrite (y_closeCh _ _ _ O1); exact Hch).
  assert (HE : exec t (Close G c) w = XDone w2 tt).
  { unfold Close.
    rewrite (exec_opb t (OCasClosed c) _ _ (upd_conn c (fun k => k <| c_closed := true |>) w) true)
      by (cbn [ostep]; rewrite (q_open _ _ _ Q); reflexivity). cbn [negb].
    rewrite (app_mixed _ _ _ S).
    rewrite (bind_assoc_exec _ _ _ _ _ (upd_conn c g1 w) tt).
    2:{ cbn [opr exec ostep]. rewrite conn_upd_eq. cbn [c_nsmu set]. change (c_nsmu (conn_of w c <| c_closed := true |>)) with (c_nsmu (conn_of w c)).
        rewrite (q_nsmu _ _ _ Q). cbn. rewrite upd_conn_twice. reflexivity. }
    rewrite (bind_assoc_exec _ _ _ _ _ (upd_conn c g1 (pop_seed w)) l).
    2:{ cbn [opr exec ostep]. rewrite conn_upd_eq. reflexivity. }
    rewrite (bind_assoc_exec _ _ _ _ _ _ _ EX).
    rewrite (bind_assoc_exec _ _ _ _ _ (upd_conn c (fun k => g1 k <| c_nsmu := rw0 |>) w1) tt).
    2:{ cbn [opr exec ostep]. rewrite conn_upd_eq. cbn. rewrite Nat.eqb_refl. rewrite upd_conn_twice. reflexivity. }
    rewrite (exec_opb t (OWaitClear c) _ _ (upd_conn c (fun k => g1 k <| c_nsmu := rw0 |> <| c_waiting := ∅ |>) w1) tt).
    2:{ cbn [ostep]. rewrite upd_conn_twice. reflexivity. }
    rewrite (exec_opb t (OSetAcked c false) _ _ (upd_conn c (fun k => g1 k <| c_nsmu := rw0 |> <| c_waiting := ∅ |> <| c_acked := false |>) w1) tt).
    2:{ cbn [ostep]. rewrite upd_conn_twice. reflexivity. }
    rewrite (exec_bind_done t _ _ _ (upd_conn c (fun k => g1 k <| c_nsmu := rw0 |> <| c_waiting := ∅ |> <| c_acked := false |>)
       (w1 <| w_spawn ::= fun l => l ++ (if g_client G c then [] else [TDisconnect c]) |>)) tt).
    2:{ unfold IsClient. destruct (g_client G c); [|reflexivity]. cbn [exec]. f_equal. unfold upd_conn. destruct w1; unfold set; cbn.
        rewrite app_nil_r. reflexivity. }
    rewrite (exec_opb t (OCloseCh c) _ _ (upd_conn c (fun k => g1 k <| c_nsmu := rw0 |> <| c_waiting := ∅ |> <| c_acked := false |> <| c_closeCh := true |>)
       (w1 <| w_spawn ::= fun l => l ++ (if g_client G c then [] else [TDisconnect c]) |>)) tt).
    2:{ cbn [ostep]. rewrite conn_upd_eq. cbn. change (conn_of (w1 <| w_spawn ::= _ |>) c) with (conn_of w1 c). rewrite Hch1.
        rewrite upd_conn_twice. reflexivity. }
    cbn [opr exec ostep]. rewrite upd_conn_twice. reflexivity. }
  split; [exact HE|]. split; [exact Hperm|]. split; [exact Hord|].
  assert (HV : view w2 c = view w1 c) by (unfold w2; rewrite view_flags; reflexivity).
  cbv zeta. rewrite HV, (a_view _ _ _ _ _ H1).
  change (view (pop_seed w) c) with s. unfold set; cbn [cs_rooms cs_sent cs_subs cs_fired].
  unfold w2. rewrite !conn_upd_eq. cbn.
  split; [exact Hempty|]. do 7 (split; [reflexivity|]).
  split; [rewrite (y_spawn _ _ _ O1); reflexivity|]. split.
  - intros c' Hc'. rewrite conn_upd_ne by exact Hc'. apply (y_conn _ _ _ O1), Hc'.
  - apply (y_srv _ _ _ O1).
Qed.

(*@ex
Example C21_example : reachable exG exM /\ setting exG 1 exA /\ quiet exG (s_w exM) 1 /\
  c_closeCh (conn_of (s_w exM) 1) = false /\
  cs_rooms (view (s_w exM) 1) = {["chat" := {["open"; "jail"]}]} /\
  length (close_calls exA ("chat", ["open"; "jail"])) = 5.
Proof.
  split; [apply play_reachable|]. split; [apply ex_setting|]. split; [apply ex_calm; auto|].
  split; [vm_compute; reflexivity|]. split; [decide_eq|]. vm_compute. reflexivity.
Qed.
@*)

(*@prop C21. A second Close does nothing. @*)
Lemma l_C21_close_again : forall G c t w, c_closed (conn_of w c) = true -> exec t (Close G c) w = XDone w tt.
Proof.
  intros G c t w H. unfold Close. rewrite (exec_opb t (OCasClosed c) _ _ w false); [reflexivity|].
  cbn [ostep]. rewrite H. reflexivity.
Qed.
