(** * SliceProofs.v : C81, broadcasting a slice of messages again. *)
From Coq Require Import ZArith Ascii.
From stdpp Require Import gmap strings list relations.
From RecordUpdate Require Import RecordUpdate.
From Verif Require Import Go Errors Message World Lang Code Sem ExecProofs Spec_Conn Spec_View Examples Spec_Cast CastProofs Slice Spec_Slice.

(*@file Prop_Slice.v
From stdpp Require Import gmap strings list relations.
From Verif Require Import Go Errors Message World Lang Code Sem Spec_Conn Spec_View Examples Spec_Cast CastProofs Slice Spec_Slice.
@*)

(*@prop C81. For a caller that does not use the slice again the call is Broadcast (C35, C36), and without a sender the
    slice is left as it was. @*)
Lemma l_C81_once_partial : forall G A slice,
  (forall except (p : prog A), BroadcastSlice G except slice (fun _ => p) = bind (Broadcast G except slice) (fun _ => p)) /\
  (forall k : list message -> prog A, BroadcastSlice G None slice k = bind (Broadcast G None slice) (fun _ => k slice)).
Proof. intros G A slice. split; [intros [[c|n|n|x]|] p|intros k]; reflexivity. Qed.

Lemma mark_conn G A c s slice (k : list message -> prog A) : is_connection c s ->
  BroadcastSlice G (Some s) slice k = bind (Broadcast G (Some s) slice) (fun _ => k (map (set_fromExplicit (serverConnID G c)) slice)).
Proof. intros [->|(n & -> & <-)]; reflexivity. Qed.
Lemma exclude_id x m : x <> "" -> exclude "" x m = set_from x m.
Proof. intros H. unfold exclude. destruct x; [congruence|reflexivity]. Qed.

Lemma map_over (f g : message -> message) l : (forall m, f (g m) = f m) -> map f (map g l) = map f l.
Proof. intros H. rewrite map_map. apply map_ext, H. Qed.

(*@prop C81. A slice that was broadcast with a connection as sender may be broadcast again with another connection as
    sender, and one broadcast with an Exclude value again with another one: the second call does what it would do with
    the slice as it was at first, and so does the rest of the program. @*)
Lemma l_C81_kind_partial : forall G A slice s1 s2 (k : list message -> prog A),
  (exists c1 c2, is_connection c1 s1 /\ is_connection c2 s2) \/
  (exists x1 x2, s1 = SendExclude x1 /\ s2 = SendExclude x2 /\ x1 <> "" /\ x2 <> "") ->
  BroadcastSlice G (Some s1) slice (fun l => BroadcastSlice G (Some s2) l k) =
  BroadcastSlice G (Some s1) slice (fun _ => BroadcastSlice G (Some s2) slice k).
Proof.
  intros G A slice s1 s2 k [(c1 & c2 & H1 & H2)|(x1 & x2 & -> & -> & H1 & H2)].
  - rewrite (mark_conn G A c1 s1 slice (fun l => _) H1), (mark_conn G A c1 s1 slice (fun _ => _) H1). 
    assert (E : BroadcastSlice G (Some s2) (map (set_fromExplicit (serverConnID G c1)) slice) k = BroadcastSlice G (Some s2) slice k); [|rewrite E; reflexivity].
    destruct H2 as [->|(n & -> & <-)]; unfold BroadcastSlice; cbn [mark_slice exclusion bind fst snd];
      rewrite map_over by (intros m; destruct m; reflexivity); reflexivity.
  - unfold BroadcastSlice. cbn [mark_slice exclusion bind fst snd].
    rewrite (map_over (exclude "" x2) (exclude "" x1)); [reflexivity|].
    intros m. rewrite !exclude_id by assumption. destruct m; reflexivity.
Qed.

(*@prop C81. Violated: a slice that was broadcast with a connection as sender and then without a sender is the second
    time broadcast exactly as if that connection were the sender again. @*)
Lemma l_C81_again_refuted : forall G A slice c s (k : list message -> prog A),
  is_connection c s ->
  BroadcastSlice G (Some s) slice (fun l => BroadcastSlice G None l k) =
  BroadcastSlice G (Some s) slice (fun _ => BroadcastSlice G (Some s) slice k).
Proof. intros G A slice c s k [->|(n & -> & <-)]; reflexivity. Qed.

(*@prop C81. What this means for the connection: the second broadcast has no sender and the connection may get the
    message, which as a fresh one it would be sent, but it is not sent. @*)
Lemma l_C81_missed_refuted : forall G c s m,
  g_client G c = false -> is_connection c s -> speakable m -> fresh m ->
  exists m', (forall A (k : list message -> prog A),
    BroadcastSlice G (Some s) [m] (fun l => BroadcastSlice G None l k) =
    bind (Broadcast G (Some s) [m]) (fun _ => bind (Broadcast G None [m']) (fun _ => k [m']))) /\
  (forall t w, caster_free w -> exists w1, gets_to t (Broadcast G None [m']) w w1 /\ handed_over G [m'] w w1) /\
  forall t w, quiet G w c -> c_id (conn_of w c) <> "" ->
    (m_to m = "" \/ m_to m = c_id (conn_of w c)) -> passes (cs_rooms (view w c)) m ->
    (exists w1, exec t (publishMessages G c [m]) w = XDone w1 true /\ view w1 c = push (wire_of m) (view w c)) /\
    (exists w1, exec t (publishMessages G c [m']) w = XDone w1 true /\ view w1 c = view w c).
Proof.
  intros G c s m Hc Hs Hm [Hf Hfe]. exists (set_fromExplicit (serverConnID G c) m).
  split; [intros A k; exact (mark_conn G A c s [m] _ Hs)|]. split; [intros t w Hw; exact (hand_over t G w _ Hw)|].
  intros t w Q Hid Hto Hp. split.
  - destruct (cast_from G c t w "" m Q Hm Hfe) as (w1 & E & _ & _ & Hy & _).
    assert (Em : set_from "" m = m) by (destruct m; cbn in *; subst; reflexivity). rewrite Em in E.
    exists w1. split; [exact E|]. apply Hy. split; [exact Hid|]. split; assumption.
  - destruct (cast_excluded G c t w (serverConnID G c) m Q Hm Hc (serverConnID_nonempty _ _ Hc)) as (w1 & E & _ & _ & _ & Hn).
    exists w1. split; [exact E|]. apply Hn. intros (_ & _ & H). apply H. reflexivity.
Qed.

(*@prop C81. Violated too if the second call excludes an ID: neither that connection, although its ID is another one, nor
    the connections with the ID are sent the message. @*)
Lemma l_C81_both_refuted : forall G c s x m,
  g_client G c = false -> is_connection c s -> x <> "" -> speakable m -> fresh m ->
  exists m', (forall A (k : list message -> prog A),
    BroadcastSlice G (Some s) [m] (fun l => BroadcastSlice G (Some (SendExclude x)) l k) =
    bind (Broadcast G (Some s) [m]) (fun _ => bind (Broadcast G None [m']) (fun _ => k [m']))) /\
  forall c' t w, quiet G w c' -> c' = c \/ c_id (conn_of w c') = x ->
    exists w1, exec t (publishMessages G c' [m']) w = XDone w1 true /\ view w1 c' = view w c'.
Proof.
  intros G c s x m Hc Hs Hx Hm [Hf Hfe]. exists (set_from x (set_fromExplicit (serverConnID G c) m)). split.
  - intros A k. rewrite (mark_conn G A c s [m] _ Hs). unfold BroadcastSlice. cbn [map mark_slice exclusion bind fst snd].
    rewrite exclude_id by exact Hx. reflexivity.
  - intros c' t w Q Hw.
    destruct (l_C35_one_partial G c' t w (set_from x (set_fromExplicit (serverConnID G c) m)) Q Hm) as (w1 & E & _ & _ & _ & Hn).
    exists w1. split; [exact E|]. apply Hn. intros [[H1 _] [_ H2]]. destruct Hw as [->|Hw].
    + rewrite Hc in H2. cbn in H2. destruct H2 as [H2|H2]; [exact (serverConnID_nonempty _ _ Hc H2)|apply H2; reflexivity].
    + apply H1. cbn. symmetry. exact Hw.
Qed.

(*@exl C81. The server of the example of C35: connection 2 (ID bob) is the sender of a fresh message in its namespace.
    It may be sent the message when the slice is broadcast without a sender. @*)
Lemma x_C81_example :
  let m := set_event "hi" (set_namespace "chat" no_message) in
  reachable (castG true) castS /\ g_client (castG true) 2 = false /\ is_connection 2 (SendConn 2) /\ speakable m /\ fresh m /\
  caster_free (s_w castS) /\ quiet (castG true) (s_w castS) 2 /\ c_id (conn_of (s_w castS) 2) = "bob" /\ m_to m = "" /\
  passes (cs_rooms (view (s_w castS) 2)) m /\
  (quiet (castG true) (s_w castS) 1 /\ c_id (conn_of (s_w castS) 1) = "ann").
Proof.
  cbv zeta. split; [apply cast_reachable|]. split; [reflexivity|]. split; [left; reflexivity|]. split; [exact Logic.I|].
  split; [split; reflexivity|]. split; [split; [vm_compute; reflexivity|apply (bool_decide_eq_false_1 _); vm_compute; reflexivity]|].
  split; [apply cast_quiet; lia|]. split; [vm_compute; reflexivity|]. split; [reflexivity|].
  split; [|split; [apply cast_quiet; lia|vm_compute; reflexivity]].
  split; [|left; reflexivity]. right. right. exists ∅. split; [vm_compute; reflexivity|left; reflexivity].
Qed.
