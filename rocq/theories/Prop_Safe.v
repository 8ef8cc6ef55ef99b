(** * Prop_Safe.v : property theorems (generated by tools/genprops.py from SafeProofs.v).
    Every proof is the lemma of the same name in SafeProofs.v. *)
From Coq Require Import ZArith.
From stdpp Require Import gmap strings list relations.
From Verif Require Import Go Errors Message World Lang Code Sem Spec_App Examples SafeProofs.
From Verif Require Import SafeProofs.

(** C45: for every application that makes no careless calls ([careful]:
    it sends no error that cannot be printed, calls Rooms and Broadcast on
    NSConns that exist, does not disconnect the namespace of a native-only
    connection), in every interleaving and whatever bytes arrive and whenever
    the network fails, the only panic a goroutine of the process can end in is
    that of a sync.WaitGroup that is used again too early. *)
Theorem C45_one_panic : forall (G : cfg) (s : sys),
  application (careful G) G -> reachable G s ->
  forall why, s_crash s = Some why -> why = "sync: WaitGroup is reused before previous Wait has returned".
Proof. exact l_C45_one_panic. Qed.
Print Assumptions C45_one_panic.

(** C45: an application that moreover never calls Connect (a server whose
    clients connect) cannot be crashed by anything the remote side does. *)
Theorem C45_no_panic : forall (G : cfg) (s : sys),
  application (fun a => careful G a /\ no_connect a) G -> reachable G s -> s_crash s = None.
Proof. exact l_C45_no_panic. Qed.
Print Assumptions C45_no_panic.

(** C45 fails in general: Connect with a context, and Connect again after
    it has given up, can crash a client to which an event for the namespace is
    sent between the two (sync: WaitGroup is reused before previous Wait has
    returned). *)
Theorem C45_refuted : exists (G : cfg) (s : sys),
  application (careful G) G /\ reachable G s /\ s_crash s = Some "sync: WaitGroup is reused before previous Wait has returned".
Proof. exact l_C45_refuted. Qed.
Print Assumptions C45_refuted.

(** A server that never calls Connect, with callbacks, whose clients join and
    leave: the hypotheses of the second theorem hold and the execution is not
    trivial. *)
Example C45_hypotheses : application (fun a => careful exG a /\ no_connect a) exG /\ reachable exG exM /\
  exists n, c_nss (conn_of (s_w exM) 1) !! "chat" = Some n.
Proof. exact ex_C45. Qed.
