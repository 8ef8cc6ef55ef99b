(** * Prop_Quit.v : property theorems (generated by tools/genprops.py from QuitProofs.v).
    Every proof is the lemma of the same name in QuitProofs.v. *)
From Coq Require Import ZArith.
From stdpp Require Import gmap strings list relations.
From Verif Require Import Go Errors Message World Lang Code Sem Spec_App Spec_Gone Examples LoopProofs AsyncProofs QuitProofs.
From Verif Require Import QuitProofs.

(** C69.  Whatever the application and the schedule: a goroutine that reads (or is about to read) a connection that has been closed needs nobody to
    end.  At any later moment it has ended, or it ends after at most ten steps of its own. *)
Theorem C69_reader_partial : forall G c t s s',
  application (careful G) G -> reachable G s -> is_closed G s c -> c_sockclosed (conn_of (s_w s) c) = true ->
  s_th s !! t = Some (code G (TReader c)) \/ s_th s !! t = Some (code G (TReaderLoop c)) ->
  steps G s s' -> s_crash s' = None ->
  exists n s'', n <= 10 /\ run G (replicate n (Step t)) s' = Some s'' /\ s_th s'' !! t = None.
Proof. exact l_C69_reader_partial. Qed.
Print Assumptions C69_reader_partial.

(** C69 (missing: the rounds that are under way).  Whatever the application: if the goroutine that delivers the broadcasts to a connection is at the
    start of a round, the connection has been closed, and nobody holds the lock of the broadcaster, then it ends after at most
    ten steps of its own. *)
Theorem C69_deliverer_partial : forall G c t s,
  application (careful G) G -> reachable G s -> s_crash s = None -> c_closeCh (conn_of (s_w s) c) = true -> b_mu (w_srv (s_w s)) = None ->
  s_th s !! t = Some (code G (TWaitMessages c)) ->
  exists n s', n <= 10 /\ run G (replicate n (Step t)) s = Some s' /\ s_th s' !! t = None.
Proof. exact l_C69_deliverer_partial. Qed.
Print Assumptions C69_deliverer_partial.

(** C69.  A goroutine of the application has closed connection 1 right after the upgrade; its reader (goroutine 3) and its deliverer (goroutine 2) have not
    done anything yet.  They end. *)
Example C69_example : application (careful quitG) quitG /\ reachable quitG quitS /\ s_crash quitS = None /\
  is_closed quitG quitS 1 /\ c_sockclosed (conn_of (s_w quitS) 1) = true /\ c_closeCh (conn_of (s_w quitS) 1) = true /\ b_mu (w_srv (s_w quitS)) = None /\
  s_th quitS !! (3 : tid) = Some (code quitG (TReader 1)) /\ s_th quitS !! (2 : tid) = Some (code quitG (TWaitMessages 1)) /\
  let s := play quitG [Go 3; Go 2] quitS in s_th s !! (2 : tid) = None /\ s_th s !! (3 : tid) = None.
Proof. exact x_C69_example. Qed.
