(** * ErrProofs.v : C51, classification of errors and failed writes. *)
From Coq Require Import ZArith.
From stdpp Require Import gmap strings list relations.
From RecordUpdate Require Import RecordUpdate.
From Verif Require Import Go Errors Message World Lang Code Sem ExecProofs Spec_Err Spec_Conn Spec_View Examples.

(*@file Prop_Err.v
From Coq Require Import ZArith.
From stdpp Require Import gmap strings list relations.
From RecordUpdate Require Import RecordUpdate.
From Verif Require Import Go Errors Message World Lang Code Sem Spec_Err Spec_Conn Spec_View Examples. @*)

Lemma substring_all s : String.substring 0 (String.length s) s = s.
Proof. induction s as [|a s IH]; cbn; [reflexivity|]. rewrite IH. reflexivity. Qed.
Lemma substring_tail n s : n <= String.length s ->
  exists r, s = (r ++ String.substring n (String.length s - n) s)%string /\ String.length r = n.
Proof.
  revert s; induction n as [|n IH]; intros s Hn.
  - exists ""%string. rewrite Nat.sub_0_r, substring_all. auto.
  - destruct s as [|a s]; cbn in Hn; [lia|]. destruct (IH s) as (r & E & Hr); [lia|]. exists (String a r). cbn.
    rewrite Hr. split; [exact (f_equal (String a) E)|reflexivity].
Qed.
Lemma substring_app r p : String.substring (String.length r) (String.length p) (r ++ p)%string = p.
Proof. induction r as [|a r IH]; cbn; [apply substring_all|exact IH]. Qed.
Lemma length_app r p : String.length (r ++ p)%string = String.length r + String.length p.
Proof. induction r as [|a r IH]; cbn; [reflexivity|]. exact (f_equal S IH). Qed.
Lemma has_suffix_iff s p : has_suffix s p = true <-> exists r, s = (r ++ p)%string.
Proof.
  unfold has_suffix. rewrite andb_true_iff, Nat.leb_le, String.eqb_eq. split.
  - intros [Hle E]. destruct (substring_tail (String.length s - String.length p) s) as (r & Es & _); [lia|].
    replace (String.length s - (String.length s - String.length p)) with (String.length p) in Es by lia.
    rewrite E in Es. eauto.
  - intros [r ->]. rewrite length_app. split; [lia|].
    replace (String.length r + String.length p - String.length p) with (String.length r) by lia. apply substring_app.
Qed.

(*@prop C51. IsCloseError: true exactly for the errors which say that the connection is gone. @*)
Lemma l_C51_close : forall err, is_close_error err = true <-> exists e, err = Some e /\ gone e.
Proof.
  intros err. split.
  - intros H. destruct err as [e|]; [|discriminate]. exists e. split; [reflexivity|].
    destruct e as [ | | | | | | | | | | | | | | |[ | | ] text to]; try discriminate; try constructor.
    cbn in H. apply has_suffix_iff in H as [r ->]. constructor.
  - intros (e & -> & He). destruct He; try reflexivity. cbn. apply has_suffix_iff. eauto.
Qed.
(*@prop C51. IsTimeoutError: true exactly for timeouts. @*)
Lemma l_C51_timeout : forall err, is_timeout_error err = true <-> exists e, err = Some e /\ late e.
Proof.
  intros err. split.
  - intros H. destruct err as [e|]; [|discriminate]. exists e. split; [reflexivity|].
    destruct e; try discriminate. cbn in H. rewrite H. constructor.
  - intros (e & -> & [inner text]). reflexivity.
Qed.
(*@prop C51. IsDisconnectError: one or the other; never for a nil error. @*)
Lemma l_C51_disconnect : forall err, is_disconnect_error err = true <-> exists e, err = Some e /\ (gone e \/ late e).
Proof.
  intros err. unfold is_disconnect_error. destruct err as [e|].
  - rewrite orb_true_iff, l_C51_close, l_C51_timeout. split.
    + intros [(e' & E & H)|(e' & E & H)]; injection E as <-; eauto.
    + intros (e' & E & H). injection E as <-. destruct H; [left|right]; eauto.
  - split; [discriminate|]. intros (e & H & _). discriminate.
Qed.
(*@exl @*)
Lemma x_C51_example :
  is_close_error (Some (EOp OpOther "write tcp: use of closed network connection" false)) = true /\
  is_close_error (Some (EOp OpOther "use of closed network connection!" true)) = false /\
  is_disconnect_error (Some (EOp OpOther "i/o timeout" true)) = true /\
  is_disconnect_error (Some EWrite) = false /\ is_disconnect_error None = false.
Proof. repeat split; reflexivity. Qed.

(*@prop C51. A goroutine about to write on a connection: if the write succeeds
    the frame is sent and nothing else changes; if it fails with an error which
    says that the connection is gone, the connection is closed two steps later;
    if it fails with another error nothing changes. @*)
Lemma l_C51_write : forall (G : cfg) (s : sys) (t : tid) c b binary k,
  s_crash s = None -> s_th s !! t = Some (bind (write G c b binary) k) ->
  let now := conn_of (s_w s) c in
  let failure := if c_sockclosed now then Some use_of_closed else c_wfail now in
  match failure with
  | None => exists s', step G (Step t) s = Some s' /\ s_th s' !! t = Some (k true) /\
      s_w s' = upd_conn c (fun y => y <| c_out ::= fun l => l ++ [(if binary then BinaryMessage else TextMessage, b)] |>) (s_w s)
  | Some e =>
      (gone e -> exists s1 s2, step G (Step t) s = Some s1 /\ step G (Step t) s1 = Some s2 /\ c_closed (conn_of (s_w s2) c) = true) /\
      (~ gone e -> exists s', step G (Step t) s = Some s' /\ s_w s' = s_w s /\ s_th s' !! t = Some (k false))
  end.
Proof.
  intros G s t c b binary k Hc Ht now failure.
  assert (E : exists s', step G (Step t) s = Some s' /\
    s_w s' = (match failure with None => upd_conn c (fun y => y <| c_out ::= fun l => l ++ [(if binary then BinaryMessage else TextMessage, b)] |>) (s_w s) | _ => s_w s end) /\
    s_crash s' = None /\
    s_th s' !! t = Some (bind (match failure with Some e => bind (if is_close_error (Some e) then Close G c else Ret tt) (fun _ => Ret false) | None => Ret true end) k)).
  { unfold step. rewrite Hc, Ht. unfold write. cbn [opr bind tstep ostep]. fold now. unfold failure.
    destruct (c_sockclosed now); [|destruct (c_wfail now)]; (eexists; split; [reflexivity|]; cbn [s_w s_th s_crash]; rewrite lookup_insert; auto). }
  destruct E as (s' & E1 & E2 & Hc' & E3). destruct failure as [e|].
  - split; intros He.
    + assert (is_close_error (Some e) = true) as Hcl by (apply l_C51_close; eauto). rewrite Hcl in E3.
      exists s'. unfold Close in E3. cbn [opr bind] in E3.
      destruct (c_closed (conn_of (s_w s') c)) eqn:Ecl.
      * eexists. split; [exact E1|]. split; [unfold step; rewrite Hc', E3; cbn [tstep ostep]; rewrite Ecl; reflexivity|exact Ecl].
      * eexists. split; [exact E1|]. split; [unfold step; rewrite Hc', E3; cbn [tstep ostep]; rewrite Ecl; reflexivity|].
        cbn [s_w]. rewrite conn_upd_eq. reflexivity.
    + assert (is_close_error (Some e) = false) as Hcl.
      { apply not_true_is_false. intros H. apply l_C51_close in H as (e' & E & H). injection E as <-. exact (He H). }
      rewrite Hcl in E3. exists s'. auto.
  - exists s'. auto.
Qed.
(*@ex
(** A goroutine of the example that writes, on an open, a closed and a broken socket. *)
Example C51_write_example :
  let s f := Sys (upd_conn 1 f (s_w exM)) {[9 := bind (write exG 1 "x" false) (fun _ => Ret None)]} 10 None in
  c_wfail (conn_of (s_w (s (fun k => k))) 1) = None /\
  gone use_of_closed /\
  c_wfail (conn_of (s_w (s (fun k => k <| c_wfail := Some (EUser 1 "full") |>))) 1) = Some (EUser 1 "full") /\ ~ gone (EUser 1 "full").
Proof. split; [vm_compute; reflexivity|]. split; [exact (GoneSocket "" false)|]. split; [vm_compute; reflexivity|]. intros H. inversion H. Qed.
@*)
