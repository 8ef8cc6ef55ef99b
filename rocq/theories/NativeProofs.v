(** * NativeProofs.v : connections that exchange native messages only (C75). *)
From Coq Require Import ZArith.
From stdpp Require Import gmap strings list relations.
From RecordUpdate Require Import RecordUpdate.
From Verif Require Import Go Errors Message World Lang Code Sem ExecProofs Spec_Conn Spec_View Spec_Native ConnProofs ApiProofs CarelessProofs IdentProofs Examples.

(*@file Prop_Native.v
From Coq Require Import ZArith.
From stdpp Require Import gmap strings list relations.
From RecordUpdate Require Import RecordUpdate.
From Verif Require Import Go Errors Message World Lang Code Sem Spec_Conn Spec_View Spec_Native CarelessProofs Examples NativeProofs. @*)

Lemma natives_flag G c h : natives_only G c h -> onlyNative G c = true /\ allowNative G c = true.
Proof.
  intros H. unfold natives_only in H.
  assert (Ha : allowNative G c = true). { unfold allowNative. rewrite H, lookup_singleton, lookup_singleton. reflexivity. }
  split; [|exact Ha]. unfold onlyNative. rewrite Ha, H, lookup_singleton, !map_size_singleton. reflexivity.
Qed.
Lemma native_deserialize G c h f : natives_only G c h -> snd f <> "" -> deserialize G c (fst f) (snd f) = native_of f.
Proof.
  intros H Hb. destruct (natives_flag G c h H) as [H1 H2]. unfold deserialize. rewrite H1, H2. destruct f as [typ b]. destruct b as [|a b]; [destruct (Hb eq_refl)|].
  destruct typ; reflexivity.
Qed.

(*@prop C75.  On a connection that exchanges native messages only, each frame that is not empty, whatever its bytes (also those that
    mean something in the protocol of neffos), is taken from the socket and given to the callback once, as the body of a message without
    namespace, room, token and error; the reader goes on with the next frame whatever the callback returns. @*)
Lemma l_C75_frame : forall G c h t n w f rest,
  natives_only G c h -> native_ready G w c n -> c_in (conn_of w c) = f :: rest -> snd f <> "" ->
  exists w1, w_log w1 = LFire n OnNativeMessage (native_of f) :: w_log w /\ c_in (conn_of w1 c) = rest /\ c_out (conn_of w1 c) = c_out (conn_of w c) /\
    forall w2 e, exec t (h n (native_of f)) w1 = XDone w2 e ->
      exec t (reader_step G c) w = XDone (upd_conn c (fun k => k <| c_inside := false |>) w2) true.
Proof.
  intros G c h t n w [typ b] rest Hn (Q & Ha & Hns) Hi Hb. pose proof (natives_flag G c h Hn) as [Ho _]. cbn [snd] in Hb.
  pose proof (native_deserialize G c h (typ, b) Hn Hb) as Hd. cbn [fst snd] in Hd.
  destruct Q as [Hc Q]. pose proof (q_ns_ _ _ _ _ _ Q _ _ Hns) as (Hnc & Hnn & _).
  set (wr := upd_conn c (fun k => k <| c_in ::= @tl (mtype * string) |>) w).
  set (wi := upd_conn c (fun k => k <| c_inside := true |>) wr).
  set (w1 := wi <| w_log ::= cons (LFire n OnNativeMessage (native_of (typ, b))) |>).
  assert (Hci : conn_of wi c = conn_of w c <| c_in ::= @tl (mtype * string) |> <| c_inside := true |>).
  { unfold wi, wr. rewrite !conn_upd_eq. reflexivity. }
  exists w1. split; [reflexivity|]. change (conn_of w1 c) with (conn_of wi c). rewrite Hci. split; [cbn; rewrite Hi; reflexivity|]. split; [reflexivity|].
  intros w2 e Hh. unfold reader_step.
  rewrite (exec_opb t (ORead c) _ _ wr (inr (typ, b))) by (cbn [ostep]; rewrite (q_sock_ _ _ _ _ _ Q), Hi; reflexivity).
  assert (is_empty b = false) as -> by (destruct b; [destruct (Hb eq_refl)|reflexivity]).
  rewrite (exec_opb t (OIsAcked c) _ wr wr true) by (cbn [ostep]; unfold wr; rewrite conn_upd_eq; cbn; rewrite Ha; reflexivity).
  cbn [negb]. rewrite (exec_opb t (OSetInside c true) _ wr wi tt) by reflexivity.
  assert (E : exec t (HandlePayload G c typ b) wi = XDone w2 e).
  { unfold HandlePayload. rewrite Hd. unfold handleMessage. rewrite Ho. cbn [native_of m_isInvalid m_isNative set_setBinary set_isNative set_event set_body no_message andb fst snd].
    rewrite (exec_bind_done t (Namespace c "") _ wi wi (Some n)).
    - unfold fireEvent, ns_events. rewrite Hnc, Hnn, Hn. change (m_event _) with OnNativeMessage. rewrite lookup_singleton. cbn [default from_option id]. rewrite lookup_singleton.
      rewrite (exec_opb t (OLog (LFire n OnNativeMessage (native_of (typ, b)))) _ wi w1 tt) by reflexivity. exact Hh.
    - rewrite Namespace_reads; [rewrite Hci; cbn; rewrite Hns; reflexivity|rewrite Hci; exact (q_nsmu_ _ _ _ _ _ Q)|].
      unfold wi, upd_conn. cbn. rewrite lookup_insert. eauto. }
  rewrite (exec_bind_done t _ _ _ _ _ E). reflexivity.
Qed.

(*@prop C75.  A whole sequence of such frames: if the callback does nothing but return (anything it likes), then the callback is called
    exactly once for each frame, in the order of the frames, and nothing is written. @*)
Lemma l_C75_frames : forall G c h t n frames w,
  natives_only G c h -> native_ready G w c n -> (forall m, exists e, h n m = Ret e) ->
  c_in (conn_of w c) = frames -> Forall (fun f => snd f <> "") frames ->
  exists w', exec t (rounds (length frames) (reader_step G c)) w = XDone w' true /\ native_ready G w' c n /\ c_in (conn_of w' c) = [] /\
    w_log w' = rev (map (fun f => LFire n OnNativeMessage (native_of f)) frames) ++ w_log w /\ c_out (conn_of w' c) = c_out (conn_of w c).
Proof.
  intros G c h t n frames. induction frames as [|f frames IH]; intros w Hn Hr Hh Hi Hall.
  - exists w. cbn. auto.
  - apply Forall_cons in Hall as [Hf Hall]. destruct (Hh (native_of f)) as [e He]. destruct f as [typ b]. cbn [length rounds].
    destruct Hr as (Q & Ha & Hns). pose proof (natives_flag G c h Hn) as [Ho _]. pose proof (native_deserialize G c h (typ, b) Hn Hf) as Hd. cbn [fst snd] in Hd, Hf.
    destruct Q as [Hc Q]. pose proof (q_ns_ _ _ _ _ _ Q _ _ Hns) as (Hnc & Hnn & _).
    set (w1 := upd_conn c (fun k => k <| c_inside := false |>) (upd_conn c (fun k => k <| c_inside := true |>) (upd_conn c (fun k => k <| c_in ::= @tl (mtype * string) |>) w)
      <| w_log ::= cons (LFire n OnNativeMessage (native_of (typ, b))) |>)).
    assert (E1 : exec t (reader_step G c) w = XDone w1 true).
    { unfold reader_step. set (wr := upd_conn c (fun k => k <| c_in ::= @tl (mtype * string) |>) w) in *.
      rewrite (exec_opb t (ORead c) _ _ wr (inr (typ, b))) by (cbn [ostep]; rewrite (q_sock_ _ _ _ _ _ Q), Hi; reflexivity).
      assert (is_empty b = false) as -> by (destruct b; [destruct (Hf eq_refl)|reflexivity]).
      rewrite (exec_opb t (OIsAcked c) _ wr wr true) by (cbn [ostep]; unfold wr; rewrite conn_upd_eq; cbn; rewrite Ha; reflexivity).
      cbn [negb]. set (wi := upd_conn c (fun k => k <| c_inside := true |>) wr) in *. rewrite (exec_opb t (OSetInside c true) _ wr wi tt) by reflexivity.
      assert (Hci : conn_of wi c = conn_of w c <| c_in ::= @tl (mtype * string) |> <| c_inside := true |>) by (unfold wi, wr; rewrite !conn_upd_eq; reflexivity).
      rewrite (exec_bind_done t (HandlePayload G c typ b) _ wi (wi <| w_log ::= cons (LFire n OnNativeMessage (native_of (typ, b))) |>) e); [reflexivity|].
      unfold HandlePayload. rewrite Hd. unfold handleMessage. rewrite Ho. cbn [native_of m_isInvalid m_isNative set_setBinary set_isNative set_event set_body no_message andb fst snd].
      rewrite (exec_bind_done t (Namespace c "") _ wi wi (Some n)).
      - unfold fireEvent, ns_events. rewrite Hnc, Hnn, Hn. change (m_event _) with OnNativeMessage. rewrite lookup_singleton. cbn [default from_option id]. rewrite lookup_singleton.
        rewrite (exec_opb t (OLog (LFire n OnNativeMessage (native_of (typ, b)))) _ wi (wi <| w_log ::= cons (LFire n OnNativeMessage (native_of (typ, b))) |>) tt) by reflexivity.
        change (exec t (h n (native_of (typ, b))) (wi <| w_log ::= cons (LFire n OnNativeMessage (native_of (typ, b))) |>) = XDone (wi <| w_log ::= cons (LFire n OnNativeMessage (native_of (typ, b))) |>) e). rewrite He. reflexivity.
      - rewrite Namespace_reads; [rewrite Hci; cbn; rewrite Hns; reflexivity|rewrite Hci; exact (q_nsmu_ _ _ _ _ _ Q)|].
        unfold wi, upd_conn. cbn. rewrite lookup_insert. eauto. }
    assert (Hc1 : conn_of w1 c = conn_of w c <| c_in ::= @tl (mtype * string) |> <| c_inside := false |>).
    { unfold w1. rewrite conn_upd_eq. assert (Hlog : forall x e', conn_of (x <| w_log ::= cons e' |>) c = conn_of x c) by reflexivity. rewrite Hlog, !conn_upd_eq. reflexivity. }
    destruct (IH w1) as (w' & E' & R' & I' & L' & O'); auto.
    { split; [split|]. - unfold w1, upd_conn. cbn. rewrite !lookup_insert. f_equal. unfold conn_of. cbn. rewrite !lookup_insert. reflexivity.
      - rewrite Hc1. destruct Q. constructor; cbn; auto.
      - rewrite Hc1. cbn. auto. }
    { rewrite Hc1. cbn. rewrite Hi. reflexivity. }
    exists w'. rewrite (exec_bind_done t _ _ _ _ _ E1). split; [exact E'|]. split; [exact R'|]. split; [exact I'|]. split.
    + rewrite L'. cbn. rewrite <- app_assoc. reflexivity.
    + rewrite O', Hc1. reflexivity.
Qed.

(*@prop C75.  What is sent: a native message, written on such a connection, goes out as one frame that consists of its body and nothing else. @*)
Lemma l_C75_write : forall G c h t n w body (binary : bool),
  natives_only G c h -> native_ready G w c n ->
  exists w', exec t (impl G (AWrite c (native_of (if binary then BinaryMessage else TextMessage, body)))) w = XDone w' true /\ native_ready G w' c n /\
    c_out (conn_of w' c) = c_out (conn_of w c) ++ [(if binary then BinaryMessage else TextMessage, body)].
Proof.
  intros G c h t n w body binary Hn (Q & Ha & Hns). cbn [impl]. set (m := native_of _).
  destruct (SeqProofs.Write_runs G c t w (view w c) (c_nss (conn_of w c)) m (SeqProofs.At _ _ _ _ _ Q eq_refl eq_refl) Logic.I) as (w' & E & H' & O).
  assert (Hm : may_send (role_of G c w) (cs_rooms (view w c)) m = true).
  { unfold may_send, m, native_of. cbn. rewrite lookup_fmap, Hns. reflexivity. }
  rewrite Hm in E. exists w'. split; [exact E|]. split.
  { split; [apply H'|]. split; [rewrite (y_acked _ _ _ O); exact Ha|]. rewrite (SeqProofs.a_nm _ _ _ _ _ H'). exact Hns. }
  assert (Hv : cs_sent (view w' c) = cs_sent (view w c) ++ [wire_of m]) by (rewrite (SeqProofs.a_view _ _ _ _ _ H'); unfold try_send; rewrite Hm; reflexivity).
  cbn in Hv. rewrite Hv. unfold wire_of, m, native_of. destruct binary; reflexivity.
Qed.

(*@prop C75 is violated by Ask.  On such a connection it returns at once the empty message and no error, in every state of the process (also
    if the connection is closed and if the context is over); nothing is sent, so that no answer was given. @*)
Lemma l_C75_ask_refuted : forall G c h t w x m, natives_only G c h ->
  exec t (impl G (AAsk c x m)) w = XDone w (no_message, None).
Proof.
  intros G c h t w x m Hn. destruct (natives_flag G c h Hn) as [Ho _]. cbn [impl]. unfold Ask.
  rewrite (exec_opb t (OIsInside c) _ w w (c_inside (conn_of w c))) by reflexivity. unfold ask. rewrite Ho. reflexivity.
Qed.

(*@prop C75 is violated by JoinRoom too: the room is joined at this side, the call reports success, and the other side never hears of it. @*)
Lemma l_C75_join_refuted : forall G c h t n w x room, natives_only G c h -> native_ready G w c n -> room ∉ o_rooms (ns_of w n) ->
  exists w', exec t (impl G (AJoinRoom (Some n) x room)) w = XDone w' (Some (n, room), None) /\
    o_rooms (ns_of w' n) = {[room]} ∪ o_rooms (ns_of w n) /\ w_conns w' = w_conns w /\ w_log w' = w_log w.
Proof.
  intros G c h t n w x room Hn ([Hc Q] & Ha & Hns) Hr. destruct (natives_flag G c h Hn) as [Ho _].
  destruct (q_ns_ _ _ _ _ _ Q _ _ Hns) as (Hnc & Hnn & o & Eo & Hor & Hmu).
  assert (En : ns_of w n = o) by (unfold ns_of; rewrite Eo; reflexivity).
  eexists. split; [|split].
  - cbn [impl JoinRoom]. unfold askRoomJoin. rewrite SeqProofs.hasRoom_exec by (rewrite En; assumption). rewrite bool_decide_false by exact Hr. cbn beta iota zeta.
    rewrite Hnc. set (jm := set_isLocal true _). pose proof (l_C75_ask_refuted G c h t w x jm Hn) as Ea. cbn [impl] in Ea. rewrite (exec_bind_done t _ _ _ _ _ Ea). cbn [snd].
    assert (Hf : forall m, m_event m = OnRoomJoin \/ m_event m = OnRoomJoined -> fireEvent G n m = Ret None).
    { intros m Hm. unfold fireEvent, ns_events. rewrite !Hnc, !Hnn, !Hn, !lookup_singleton. cbn [default from_option id].
      rewrite lookup_singleton_ne by (destruct Hm as [-> | ->]; discriminate). 
      rewrite lookup_singleton_ne by discriminate. reflexivity. }
    rewrite Hf by (left; reflexivity). cbn [bind].
    rewrite SeqProofs.addRoom_exec by (rewrite En; exact Hmu). rewrite Hf by (right; reflexivity). reflexivity.
  - unfold ns_of, upd_ns. cbn. rewrite lookup_insert. reflexivity.
  - split; reflexivity.
Qed.

Definition nativeH : handler := fun _ _ => Ret (Some (EUser 0 "no")).
Definition nativeG : cfg := alone {["" := {[OnNativeMessage := nativeH]}]} (Ret tt).
Definition nativeF : list (mtype * string) := [(TextMessage, "M"); (BinaryMessage, ";chat;;news;0;0;x"); (TextMessage, "hello")].
Definition nativeS : sys := play nativeG ([Go 0; Act1 (Env (EGo (TDial 2))); Go 1; Act1 Start; Go 2] ++ map (fun f => Act1 (Env (EDeliver 2 (fst f) (snd f)))) nativeF) (init nativeG).
(*@exl C75.  The hypotheses hold: a client whose only callback is for native messages and returns an error each time, just dialled, with three
    frames to read, two of which look like parts of the protocol. @*)
Lemma x_C75_example : reachable nativeG nativeS /\ natives_only nativeG 2 nativeH /\
  (exists n, native_ready nativeG (s_w nativeS) 2 n /\ "lobby" ∉ o_rooms (ns_of (s_w nativeS) n)) /\
  (forall n m, exists e, nativeH n m = Ret e) /\ c_in (conn_of (s_w nativeS) 2) = nativeF /\ Forall (fun f => snd f <> "") nativeF.
Proof.
  split; [apply play_reachable|]. split; [reflexivity|]. split.
  { exists (NsRef 2 "" 1). split; [|assert (E : elements (o_rooms (ns_of (s_w nativeS) (NsRef 2 "" 1))) = []) by (vm_compute; reflexivity); intros H; apply elem_of_elements in H; rewrite E in H; inversion H]. split; [split|].
    - vm_compute. reflexivity.
    - constructor; [vm_compute; reflexivity..|intros _; vm_compute; reflexivity|vm_compute; reflexivity| | ].
      + assert (E : map_to_list (c_nss (conn_of (s_w nativeS) 2)) = [("", NsRef 2 "" 1)]) by (vm_compute; reflexivity).
        intros name n H. apply elem_of_map_to_list in H. rewrite E in H. apply elem_of_list_singleton in H as [= -> ->].
        split; [reflexivity|]. split; [reflexivity|]. exists (nsobj0 (NsRef 2 "" 1)). split; [vm_compute; reflexivity|]. split; reflexivity.
      + assert (E : fst <$> map_to_list (w_nss (s_w nativeS)) = [1]) by (vm_compute; reflexivity).
        intros id o H. apply elem_of_map_to_list in H. apply (elem_of_list_fmap_1 fst) in H.
        rewrite E in H. apply elem_of_list_singleton in H. cbn [fst] in H. rewrite H. clear H E. vm_compute. apply le_n.
    - split; vm_compute; reflexivity. }
  split; [intros; eexists; reflexivity|]. split; [vm_compute; reflexivity|]. repeat constructor; discriminate.
Qed.
