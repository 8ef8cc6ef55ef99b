(** * Spec_Busy.v : the calls for which the server loop must be free. *)
From Coq Require Import ZArith.
From stdpp Require Import gmap strings list relations.
From Verif Require Import Go Errors Message World Lang Code Sem.

(** Server.Do, and with a synchronous broadcaster also Broadcast and Server.Ask
    (server.go:425, 531): they hand something to the goroutine of the server
    and wait until it takes it. *)
Definition needs_loop (G : cfg) (a : api) : Prop :=
  match a with
  | ADo _ _ => True
  | ABroadcast _ _ | ANSBroadcast (Some _) _ _ | AServerAsk _ _ => g_sync G = true /\ g_exch G = None
  | _ => False
  end.

(** What the server loop took up so far: connections that came and went,
    broadcasts, and functions given to Do. *)
Fixpoint taken (l : list event) : list srvmsg :=
  match l with
  | [] => []
  | LSrv x :: l' => x :: taken l'
  | _ :: l' => taken l'
  end.

(** The server loop is in a callback of the application and about to call [a]. *)
Definition loop_calls (s : sys) (a : api) : Prop := exists k, s_th s !! (0 : tid) = Some (Call a k).
