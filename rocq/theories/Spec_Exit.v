(** * Spec_Exit.v : what the stack exchange is told about connections (C80). *)
From stdpp Require Import gmap strings list.
From Verif Require Import Go Errors Message World Lang Code Sem.

(** The server loop takes up [x] next (server.go:171). *)
Definition next_is (w : world) (x : srvmsg) : Prop := pick w (srv_ready (w_srv w)) = Some x.
(** OnConnect, of the server and of the stack exchange, has accepted the connection. *)
Definition was_accepted (w : world) (c : cid) : Prop := w_ready (c_wait (conn_of w c)) = true /\ w_err (c_wait (conn_of w c)) = None.
(** The calls of the stack exchange so far, newest first. *)
Definition exchange_calls (w : world) : list xcall := flat_map (fun e => match e with LExch x => [x] | _ => [] end) (w_log w).
