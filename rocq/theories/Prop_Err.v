(** * Prop_Err.v : property theorems (generated by tools/genprops.py from ErrProofs.v).
    Every proof is the lemma of the same name in ErrProofs.v. *)
From Coq Require Import ZArith.
From stdpp Require Import gmap strings list relations.
From RecordUpdate Require Import RecordUpdate.
From Verif Require Import Go Errors Message World Lang Code Sem Spec_Err Spec_Conn Spec_View Examples.
From Verif Require Import ErrProofs.

(** C51. IsCloseError: true exactly for the errors which say that the connection is gone. *)
Theorem C51_close : forall err, is_close_error err = true <-> exists e, err = Some e /\ gone e.
Proof. exact l_C51_close. Qed.
Print Assumptions C51_close.

(** C51. IsTimeoutError: true exactly for timeouts. *)
Theorem C51_timeout : forall err, is_timeout_error err = true <-> exists e, err = Some e /\ late e.
Proof. exact l_C51_timeout. Qed.
Print Assumptions C51_timeout.

(** C51. IsDisconnectError: one or the other; never for a nil error. *)
Theorem C51_disconnect : forall err, is_disconnect_error err = true <-> exists e, err = Some e /\ (gone e \/ late e).
Proof. exact l_C51_disconnect. Qed.
Print Assumptions C51_disconnect.

(**  *)
Example C51_example :
  is_close_error (Some (EOp OpOther "write tcp: use of closed network connection" false)) = true /\
  is_close_error (Some (EOp OpOther "use of closed network connection!" true)) = false /\
  is_disconnect_error (Some (EOp OpOther "i/o timeout" true)) = true /\
  is_disconnect_error (Some EWrite) = false /\ is_disconnect_error None = false.
Proof. exact x_C51_example. Qed.

(** C51. A goroutine about to write on a connection: if the write succeeds
    the frame is sent and nothing else changes; if it fails with an error which
    says that the connection is gone, the connection is closed two steps later;
    if it fails with another error nothing changes. *)
Theorem C51_write : forall (G : cfg) (s : sys) (t : tid) c b binary k,
  s_crash s = None -> s_th s !! t = Some (bind (write G c b binary) k) ->
  let now := conn_of (s_w s) c in
  let failure := if c_sockclosed now then Some use_of_closed else c_wfail now in
  match failure with
  | None => exists s', step G (Step t) s = Some s' /\ s_th s' !! t = Some (k true) /\
      s_w s' = upd_conn c (fun y => y <| c_out ::= fun l => l ++ [(if binary then BinaryMessage else TextMessage, b)] |>) (s_w s)
  | Some e =>
      (gone e -> exists s1 s2, step G (Step t) s = Some s1 /\ step G (Step t) s1 = Some s2 /\ c_closed (conn_of (s_w s2) c) = true) /\
      (~ gone e -> exists s', step G (Step t) s = Some s' /\ s_w s' = s_w s /\ s_th s' !! t = Some (k false))
  end.
Proof. exact l_C51_write. Qed.
Print Assumptions C51_write.

(** A goroutine of the example that writes, on an open, a closed and a broken socket. *)
Example C51_write_example :
  let s f := Sys (upd_conn 1 f (s_w exM)) {[9 := bind (write exG 1 "x" false) (fun _ => Ret None)]} 10 None in
  c_wfail (conn_of (s_w (s (fun k => k))) 1) = None /\
  gone use_of_closed /\
  c_wfail (conn_of (s_w (s (fun k => k <| c_wfail := Some (EUser 1 "full") |>))) 1) = Some (EUser 1 "full") /\ ~ gone (EUser 1 "full").
Proof. split; [vm_compute; reflexivity|]. split; [exact (GoneSocket "" false)|]. split; [vm_compute; reflexivity|]. intros H. inversion H. Qed.
