(** * AdmitProofs.v : nobody is in a namespace or room without the consent of
    its callback (C57). *)
From Coq Require Import ZArith.
From stdpp Require Import gmap strings list relations.
From RecordUpdate Require Import RecordUpdate.
From Verif Require Import Go Errors Message World Lang Code Sem Logic Spec_App Spec_Admit FrameW Admit.
From Verif Require Import Spec_Conn Spec_View Examples Scenes.

(*@file Prop_Admit.v
From Coq Require Import ZArith.
From stdpp Require Import gmap strings list relations.
From RecordUpdate Require Import RecordUpdate.
From Verif Require Import Go Errors Message World Lang Code Sem Spec_App Spec_Admit Spec_Conn Spec_View Examples Scenes AdmitProofs. @*)

Lemma rooms_view w c ns rooms : cs_rooms (view w c) !! ns = Some rooms ->
  exists n, c_nss (conn_of w c) !! ns = Some n /\ rooms = o_rooms (ns_of w n).
Proof.
  intros H. change (cs_rooms (view w c)) with ((fun n => o_rooms (ns_of w n)) <$> c_nss (conn_of w c)) in H. rewrite lookup_fmap in H.
  destruct (c_nss (conn_of w c) !! ns) as [n|]; [|discriminate H]. injection H as <-. eauto.
Qed.

(*@prop C57.  In every reachable state of any application, whatever its goroutines and callbacks do with the API, whatever the peers
    send and in whatever order things happen: a connection that is in a namespace was admitted to it: the namespace is declared on
    this side, and if it has a callback that is responsible for OnNamespaceConnect, the callback has run for this connection and
    this namespace with a message for which it can return no error.  (The only exception is the nameless namespace of a
    connection whose handler has native messages only: Upgrade and Dial connect it.) @*)
Lemma l_C57_namespace : forall G s c ns rooms,
  user_app (fun _ => True) G -> reachable G s -> cs_rooms (view (s_w s) c) !! ns = Some rooms ->
  (onlyNative G c = true /\ ns = "") \/ exists n, admitted G (w_log (s_w s)) c ns n.
Proof.
  intros G s c ns rooms A Hr H. destruct (admit_reachable G A s Hr) as [Ls HI]. apply rooms_view in H as (n & H & _).
  destruct (iv_conn _ _ _ HI c ns n H) as [_ [H1|(H1 & H2 & _)]]; eauto.
Qed.

(*@prop C57.  The same for rooms: every room that a connection is in has been joined with the consent of OnRoomJoin. @*)
Lemma l_C57_room : forall G s c ns rooms room,
  user_app (fun _ => True) G -> reachable G s -> cs_rooms (view (s_w s) c) !! ns = Some rooms -> room ∈ rooms ->
  exists n, n_conn n = c /\ n_name n = ns /\ let_in G (w_log (s_w s)) n room.
Proof.
  intros G s c ns rooms room A Hr H Hm. destruct (admit_reachable G A s Hr) as [Ls HI]. apply rooms_view in H as (n & H & ->).
  destruct (iv_conn _ _ _ HI c ns n H) as [(o & H1 & H2) H3]. rewrite (ns_of_good _ _ _ H1) in Hm. destruct (iv_rooms _ _ _ HI _ _ H1) as (_ & _ & H4).
  specialize (H4 room Hm). rewrite H2 in H4. exists n. destruct H3 as [(H5 & H6 & _)|(_ & _ & H5 & H6)]; auto.
Qed.

Lemma chosen_own G n ev evs (h : handler) : g_namespaces G (n_conn n) !! n_name n = Some evs -> evs !! ev = Some h -> chosen G n ev = Some (ev, h).
Proof. intros He Hh. unfold chosen. rewrite He. match goal with |- context [match ?x with _ => _ end] => change x with (evs !! ev) end. rewrite Hh. reflexivity. Qed.
(*@prop C57.  So a namespace that is not declared, or whose OnNamespaceConnect callback never returns nil, is never entered. @*)
Lemma l_C57_barred : forall G s c ns,
  user_app (fun _ => True) G -> reachable G s -> onlyNative G c = false \/ ns <> "" ->
  (forall evs, g_namespaces G c !! ns = Some evs -> exists h, evs !! OnNamespaceConnect = Some h /\ forall n m, m_namespace m = ns -> ~ agrees (h n m)) ->
  cs_rooms (view (s_w s) c) !! ns = None.
Proof.
  intros G s c ns A Hr Hnat Hb. destruct (cs_rooms (view (s_w s) c) !! ns) as [rooms|] eqn:E; [|reflexivity]. exfalso.
  destruct (l_C57_namespace G s c ns rooms A Hr E) as [[H1 H2]|(n & <- & <- & [evs He] & m & H1 & H2 & H3)].
  - destruct Hnat as [H|H]; [congruence|auto].
  - destruct (Hb evs He) as (h & Hh & Hn). unfold permitted in H3. rewrite H1, (chosen_own G n _ evs h He Hh) in H3. destruct H3 as [_ H3]. apply (Hn n m H2 H3).
Qed.
Lemma custom_inside m : custom m -> inside m.
Proof. unfold custom, inside. generalize (String.eqb (m_event m)). intros f. cbn [existsb]. rewrite !orb_false_iff. tauto. Qed.
(*@prop C57.  Callbacks for the events of the application ([custom]: all but the seven of the protocol of namespaces and rooms) ran only in
    namespaces that the connection had been admitted to before ([l1] is the part of the history that came before the call). @*)
Lemma l_C57_events : forall G s l2 n key m l1,
  user_app (fun _ => True) G -> reachable G s -> w_log (s_w s) = l2 ++ LFire n key m :: l1 -> custom m ->
  (onlyNative G (n_conn n) = true /\ n_name n = "") \/ admitted G l1 (n_conn n) (n_name n) n.
Proof.
  intros G s l2 n key m l1 A Hr H Hm. destruct (admit_reachable G A s Hr) as [Ls HI].
  destruct (iv_log _ _ _ HI l2 n key m l1 H (custom_inside m Hm)) as [H1|(H1 & H2 & _)]; auto.
Qed.
(*@prop C66, the part that holds in every schedule: a disconnect event comes only for a namespace that the connection had been
    admitted to before ([l1] is the part of the history that came before the call): the namespace is declared, and if a callback is
    responsible for OnNamespaceConnect in it, that callback had run for this very NSConn with a message for which it can return no error.
    Missing: that it comes exactly once for every admission, which is false (C66_missing_refuted, C66_twice_refuted). @*)
Lemma l_C66_only_admitted_partial : forall G s l2 n key m l1,
  user_app (fun _ => True) G -> reachable G s -> w_log (s_w s) = l2 ++ LFire n key m :: l1 -> m_event m = OnNamespaceDisconnect ->
  (onlyNative G (n_conn n) = true /\ n_name n = "") \/ admitted G l1 (n_conn n) (n_name n) n.
Proof.
  intros G s l2 n key m l1 A Hr H Hm. destruct (admit_reachable G A s Hr) as [Ls HI].
  assert (Hi : inside m) by (unfold inside; rewrite Hm; reflexivity).
  destruct (iv_log _ _ _ HI l2 n key m l1 H Hi) as [H1|(H1 & H2 & _)]; auto.
Qed.
(*@prop C66.  So a namespace whose OnNamespaceConnect always refuses has no disconnect events. @*)
Lemma l_C66_refused_partial : forall G s c ns n key m,
  user_app (fun _ => True) G -> reachable G s -> onlyNative G c = false \/ ns <> "" ->
  (forall evs, g_namespaces G c !! ns = Some evs -> exists h, evs !! OnNamespaceConnect = Some h /\ forall n m, m_namespace m = ns -> ~ agrees (h n m)) ->
  LFire n key m ∈ w_log (s_w s) -> m_event m = OnNamespaceDisconnect -> ~ (n_conn n = c /\ n_name n = ns).
Proof.
  intros G s c ns n key m A Hr Hnat Hb Hin Hm [<- <-]. apply elem_of_list_split in Hin as (l2 & l1 & E).
  destruct (l_C66_only_admitted_partial G s l2 n key m l1 A Hr E Hm) as [[H1 H2]|(_ & _ & [evs He] & m' & H1 & H2 & H3)].
  - destruct Hnat as [H|H]; [congruence|auto].
  - destruct (Hb evs He) as (h & Hh & Hn). unfold permitted in H3. rewrite H1, (chosen_own G n _ evs h He Hh) in H3. destruct H3 as [_ H3]. apply (Hn n m' H2 H3).
Qed.
(*@prop C57.  So whatever the other side sends, no callback for such an event of a namespace whose OnNamespaceConnect always refuses ever runs. @*)
Lemma l_C57_barred_events : forall G s c ns n key m,
  user_app (fun _ => True) G -> reachable G s -> onlyNative G c = false \/ ns <> "" ->
  (forall evs, g_namespaces G c !! ns = Some evs -> exists h, evs !! OnNamespaceConnect = Some h /\ forall n m, m_namespace m = ns -> ~ agrees (h n m)) ->
  LFire n key m ∈ w_log (s_w s) -> custom m -> ~ (n_conn n = c /\ n_name n = ns).
Proof.
  intros G s c ns n key m A Hr Hnat Hb Hin Hm [<- <-]. apply elem_of_list_split in Hin as (l2 & l1 & E).
  destruct (l_C57_events G s l2 n key m l1 A Hr E Hm) as [[H1 H2]|(_ & _ & [evs He] & m' & H1 & H2 & H3)].
  - destruct Hnat as [H|H]; [congruence|auto].
  - destruct (Hb evs He) as (h & Hh & Hn). unfold permitted in H3. rewrite H1, (chosen_own G n _ evs h He Hh) in H3. destruct H3 as [_ H3]. apply (Hn n m' H2 H3).
Qed.
(*@prop C57.  And a room that OnRoomJoin refuses for every message that names it is never joined. @*)
Lemma l_C57_barred_room : forall G s c ns rooms room evs h,
  user_app (fun _ => True) G -> reachable G s -> g_namespaces G c !! ns = Some evs -> evs !! OnRoomJoin = Some h ->
  (forall n m, m_namespace m = ns -> m_room m = room -> ~ agrees (h n m)) ->
  cs_rooms (view (s_w s) c) !! ns = Some rooms -> room ∉ rooms.
Proof.
  intros G s c ns rooms room evs h A Hr He Hh Hn H Hm. destruct (l_C57_room G s c ns rooms room A Hr H Hm) as (n & <- & <- & m & H1 & H2 & H3 & H4).
  unfold permitted in H4. rewrite H1, (chosen_own G n _ evs h He Hh) in H4. destruct H4 as [_ H4]. apply (Hn n m H2 H3 H4).
Qed.

Lemma frame_kinds who hr b : frame_ok who (fun n s => n_name n = s) hr b ->
  handshake_frame b \/ empty_reply b \/
  exists m, bytes_of m b /\ (about_admission m \/ exists n, who n /\ n_name n = m_namespace m /\ (to_room m -> hr n (m_room m))).
Proof.
  intros [H|[H|(m & Hm & H)]]; [left; exact H|right; left; exact H|right; right].
  exists (set_fromExplicit "" m). split; [split; [reflexivity|exact Hm]|].
  destruct H as [H|(n & H1 & H2 & H3)].
  - left. apply orb_true_iff in H as [H|H]; apply String.eqb_eq in H; [left|right]; exact H.
  - right. exists n. split; [exact H1|]. split; [exact H2|]. intros (T1 & T2 & T3). apply H3.
    rewrite !andb_true_iff, !negb_true_iff. repeat split.
    + unfold is_empty. cbn in T1. destruct (m_room m); [destruct T1; reflexivity|reflexivity].
    + apply String.eqb_neq. exact T2.
    + apply String.eqb_neq. exact T3.
Qed.
(*@prop C68.  In every reachable state of any application, whatever its goroutines and callbacks do with the API (emit, broadcast, ask, ...), whatever the peers
    send and in whatever order things happen: every frame that went out on a connection is a frame of the handshake, an empty reply, a message about connecting or
    disconnecting a namespace, or a message of a namespace which this connection had been admitted to, by its OnNamespaceConnect callback, and, if it is for a
    room, of a room which it had been let into by OnRoomJoin.  (As in C57 there is the nameless namespace of native-only connections.) @*)
Lemma l_C68_frames : forall G s c typ b,
  user_app (fun _ => True) G -> reachable G s -> (typ, b) ∈ c_out (conn_of (s_w s) c) ->
  handshake_frame b \/ empty_reply b \/
  exists m, bytes_of m b /\
    (about_admission m \/
     exists n, (admitted G (w_log (s_w s)) c (m_namespace m) n \/ onlyNative G c = true /\ m_namespace m = "" /\ n_conn n = c /\ n_name n = "") /\
       (to_room m -> let_in G (w_log (s_w s)) n (m_room m))).
Proof.
  intros G s c typ b A Hr H. destruct (admit_reachable G A s Hr) as [Ls HI]. pose proof (iv_out _ _ _ HI c typ b H) as HS.
  apply frame_kinds in HS as [HS|[HS|(m & Hm & HS)]]; [left; exact HS|right; left; exact HS|right; right]. exists m. split; [exact Hm|].
  destruct HS as [HS|(n & [Hj Hc] & Hn & Hroom)]; [left; exact HS|right]. exists n. split; [|exact Hroom].
  destruct Hj as [Hj|(Hj1 & Hj2 & Hj3 & Hj4)]; [left|right].
  - rewrite Hc, Hn in Hj. exact Hj.
  - rewrite Hc in Hj1. rewrite Hn in Hj2. split; [exact Hj1|]. split; [exact Hj2|]. split; [exact Hc|]. congruence.
Qed.
(*@prop C68.  So nothing of a namespace that is not declared, or whose OnNamespaceConnect callback never returns nil, ever goes out on the connection, whatever is broadcast or emitted. @*)
Lemma l_C68_barred : forall G s c ns typ b,
  user_app (fun _ => True) G -> reachable G s -> onlyNative G c = false \/ ns <> "" ->
  (forall evs, g_namespaces G c !! ns = Some evs -> exists h, evs !! OnNamespaceConnect = Some h /\ forall n m, m_namespace m = ns -> ~ agrees (h n m)) ->
  (typ, b) ∈ c_out (conn_of (s_w s) c) ->
  handshake_frame b \/ empty_reply b \/ exists m, bytes_of m b /\ (about_admission m \/ m_namespace m <> ns).
Proof.
  intros G s c ns typ b A Hr Hnat Hb H. destruct (l_C68_frames G s c typ b A Hr H) as [H1|[H1|(m & Hm & H1)]]; [auto|auto|]. right. right. exists m. split; [exact Hm|].
  destruct H1 as [H1|(n & H1 & _)]; [auto|right]. intros <-. destruct H1 as [(<- & E & [evs He] & m' & H1 & H2 & H3)|(H1 & H2 & _)].
  - destruct (Hb evs He) as (h & Hh & Hn). unfold permitted in H3. rewrite <- E in He. rewrite H1, (chosen_own G n _ evs h He Hh) in H3. destruct H3 as [_ H3]. apply (Hn n m' H2 H3).
  - destruct Hnat as [Hnat|Hnat]; [congruence|auto].
Qed.
(*@prop C68.  And no message for the members of a room that OnRoomJoin refuses. @*)
Lemma l_C68_barred_room : forall G s c ns room evs h typ b,
  user_app (fun _ => True) G -> reachable G s -> g_namespaces G c !! ns = Some evs -> evs !! OnRoomJoin = Some h ->
  (forall n m, m_namespace m = ns -> m_room m = room -> ~ agrees (h n m)) ->
  (typ, b) ∈ c_out (conn_of (s_w s) c) ->
  handshake_frame b \/ empty_reply b \/ exists m, bytes_of m b /\ (about_admission m \/ ~ (m_namespace m = ns /\ m_room m = room /\ to_room m)).
Proof.
  intros G s c ns room evs h typ b A Hr He Hh Hn H. destruct (l_C68_frames G s c typ b A Hr H) as [H1|[H1|(m & Hm & H1)]]; [auto|auto|]. right. right. exists m. split; [exact Hm|].
  destruct H1 as [H1|(n & H1 & H2)]; [auto|right]. intros (<- & <- & T). destruct (H2 T) as (m' & H3 & H4 & H5 & H6).
  assert (E : n_conn n = c /\ n_name n = m_namespace m) by (destruct H1 as [(E1 & E2 & _)|(_ & E1 & E2 & E3)]; split; congruence). destruct E as [<- E].
  unfold permitted in H6. rewrite <- E in He. rewrite H3, (chosen_own G n _ evs h He Hh) in H6. destruct H6 as [_ H6]. apply (Hn n m'); [congruence|exact H5|exact H6].
Qed.

Definition admit_scene : cfg := scene false (fun _ => Ret tt).
Definition admit_run : list cmd :=
  handshake1 ++ member1 ++ [Act1 (Env (EDeliver 1 TextMessage "$4;chat;closed;_OnRoomJoin;0;0;")); Act1 (Env (EDeliver 1 TextMessage "$5;vip;;_OnNamespaceConnect;0;0;"));
    Act1 (Env (EDeliver 1 TextMessage ";vip;;secret;0;0;x")); Act1 (Env (EDeliver 1 TextMessage ";chat;;echo;0;0;x")); Go 3].
(*@exl C57.  A reachable state of the example application: connection 1 asked for namespace "chat" and its rooms "open", "jail" and "closed", and
    for namespace "vip", and sent an event to "vip" and one to "chat".  It is in "chat", "open" and "jail", the callback for the event in "chat" has run, and the
    callbacks satisfy the hypotheses of the theorems about refusals for "vip" and for room "closed". @*)
Lemma x_C57_example : let s := play admit_scene admit_run (init admit_scene) in
  user_app (fun _ => True) admit_scene /\ reachable admit_scene s /\
  (exists rooms, cs_rooms (view (s_w s) 1) !! "chat" = Some rooms /\ "open" ∈ rooms /\ "jail" ∈ rooms) /\
  (exists l2 n m l1, w_log (s_w s) = l2 ++ LFire n "echo" m :: l1 /\ custom m /\ n_conn n = 1 /\ n_name n = "chat") /\
  (exists evs h, g_namespaces admit_scene 1 !! "vip" = Some evs /\ evs !! OnNamespaceConnect = Some h /\ forall n m, ~ agrees (h n m)) /\
  (exists evs h, g_namespaces admit_scene 1 !! "chat" = Some evs /\ evs !! OnRoomJoin = Some h /\ forall n m, m_room m = "closed" -> ~ agrees (h n m)).
Proof.
  cbv zeta. assert (A : user_app (fun _ => True) admit_scene) by (apply scene_app; intros; constructor). split; [exact A|]. split; [apply play_reachable|].
  split; [|split; [|split]].
  - set (w := s_w (play admit_scene admit_run (init admit_scene))).
    assert (H : match cs_rooms (view w 1) !! "chat" with Some r => bool_decide ("open" ∈ r /\ "jail" ∈ r) | None => false end = true) by (vm_compute; reflexivity).
    destruct (cs_rooms (view w 1) !! "chat") as [r|]; [|discriminate H]. apply bool_decide_eq_true in H. eauto.
  - set (w := s_w (play admit_scene admit_run (init admit_scene))).
    assert (H : match w_log w with LFire n k m :: _ => custom m /\ k = "echo" /\ n_conn n = 1 /\ n_name n = "chat" | _ => False end) by (vm_compute; repeat split).
    destruct (w_log w) as [|[n k m| | | | | | | | | | | | |] l]; try destruct H. destruct H0 as (-> & H1). exists [], n, m, l. split; [reflexivity|]. auto.
  - eexists _, _. split; [vm_compute; reflexivity|]. split; [vm_compute; reflexivity|]. intros n m H. cbn in H. discriminate H.
  - eexists _, _. split; [vm_compute; reflexivity|]. split; [vm_compute; reflexivity|]. intros n m Hm H. destruct m; cbn in Hm; subst m_room. vm_compute in H. discriminate H.
Qed.
Definition bye_run : list cmd := admit_run ++ [Act1 (Env (EDeliver 1 TextMessage "$6;chat;;_OnNamespaceDisconnect;0;0;")); Go 3].
(*@exl C66.  The same application, and then the client leaves "chat": the last callback that ran is the one for OnNamespaceDisconnect. @*)
Lemma x_C66_admitted_example : let s := play admit_scene bye_run (init admit_scene) in
  user_app (fun _ => True) admit_scene /\ reachable admit_scene s /\
  (exists l2 n key m l1, w_log (s_w s) = l2 ++ LFire n key m :: l1 /\ m_event m = OnNamespaceDisconnect /\ n_conn n = 1 /\ n_name n = "chat") /\
  (exists evs h, g_namespaces admit_scene 1 !! "vip" = Some evs /\ evs !! OnNamespaceConnect = Some h /\ forall n m, ~ agrees (h n m)).
Proof.
  cbv zeta. split; [apply scene_app; intros; constructor|]. split; [apply play_reachable|]. split.
  - set (w := s_w (play admit_scene bye_run (init admit_scene))).
    assert (H : existsb (fun e : event => match e with LFire n k m => (m_event m =? OnNamespaceDisconnect)%string && (n_conn n =? 1) && (n_name n =? "chat")%string | _ => false end) (w_log w) = true) by (vm_compute; reflexivity).
    apply existsb_exists in H as (e & Hin & He). apply elem_of_list_In, elem_of_list_split in Hin as (l2 & l1 & E). destruct e; try discriminate He.
    apply andb_true_iff in He as [He H3]. apply andb_true_iff in He as [H1 H2]. apply String.eqb_eq in H1, H3. apply Nat.eqb_eq in H2.
    exists l2, n, key, m, l1. split; [exact E|]. split; [exact H1|]. split; [exact H2|exact H3].
  - eexists _, _. split; [vm_compute; reflexivity|]. split; [vm_compute; reflexivity|]. intros n m H. cbn in H. discriminate H.
Qed.

(** The server broadcasts to namespace "vip", to room "closed" of "chat" and to room "open" of "chat". *)
Definition secret (ns room body : string) : message := set_body body (set_event "news" (set_room room (set_namespace ns no_message))).
Definition leak_scene : cfg := scene false (fun k => call (ABroadcast None [match k with 0 => secret "vip" "" "a" | 1 => secret "chat" "closed" "b" | _ => secret "chat" "open" "c" end])).
Definition leak_run : list cmd := admit_run ++
  [Act1 (Env (EGo (TUser 0))); Go 4; Go 2; Act1 (Env (EGo (TUser 1))); Go 5; Go 2; Act1 (Env (EGo (TUser 2))); Go 6; Go 2].
(*@exl C68.  Connection 1 is in "chat" and room "open", and was refused "vip" and room "closed".  The server broadcasts one message to each of "vip", "closed" and "open": only
    the last one goes out. @*)
Lemma x_C68_example : let s := play leak_scene leak_run (init leak_scene) in
  user_app (fun _ => True) leak_scene /\ reachable leak_scene s /\
  c_out (conn_of (s_w s) 1) = [(TextMessage, "Aid-1"); (TextMessage, "$1;;;;;;"); (TextMessage, "$2;;;;;;"); (TextMessage, "$3;;;;;;");
    (TextMessage, "$4;chat;closed;_OnRoomJoin;1;0;closed room"); (TextMessage, "$5;vip;;_OnNamespaceConnect;1;0;members only");
    (TextMessage, ";chat;;echo;0;0;x"); (TextMessage, ";chat;open;news;0;0;c")] /\
  bytes_of (secret "chat" "open" "c") ";chat;open;news;0;0;c" /\ ~ about_admission (secret "chat" "open" "c") /\ to_room (secret "chat" "open" "c") /\
  (exists evs h, g_namespaces leak_scene 1 !! "vip" = Some evs /\ evs !! OnNamespaceConnect = Some h /\ forall n m, ~ agrees (h n m)) /\
  (exists evs h, g_namespaces leak_scene 1 !! "chat" = Some evs /\ evs !! OnRoomJoin = Some h /\ forall n m, m_room m = "closed" -> ~ agrees (h n m)).
Proof.
  cbv zeta. split; [apply scene_app; intros [|[|k]]; cbn; auto|]. split; [apply play_reachable|]. split; [vm_compute; reflexivity|].
  split; [split; vm_compute; reflexivity|]. split; [intros [H|H]; discriminate H|]. split; [split; [discriminate|split; discriminate]|]. split.
  - eexists _, _. split; [vm_compute; reflexivity|]. split; [vm_compute; reflexivity|]. intros n m H. cbn in H. discriminate H.
  - eexists _, _. split; [vm_compute; reflexivity|]. split; [vm_compute; reflexivity|]. intros n m Hm H. destruct m; cbn in Hm; subst m_room. vm_compute in H. discriminate H.
Qed.
