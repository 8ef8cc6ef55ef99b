(** * Prop_Careless.v : property theorems (generated by tools/genprops.py from CarelessProofs.v).
    Every proof is the lemma of the same name in CarelessProofs.v. *)
From Coq Require Import ZArith.
From stdpp Require Import gmap strings list relations.
From RecordUpdate Require Import RecordUpdate.
From Verif Require Import Go Errors Message World Lang Code Sem Spec_App Spec_Conn Spec_View Examples CarelessProofs.
From Verif Require Import CarelessProofs.

(** C64.  On a nil NSConn, such as a failed Connect returns, Emit and EmitBinary return false, Ask and JoinRoom an error,
    Room returns nil, and LeaveAll and Disconnect return, in whatever state the process is; nothing changes. *)
Theorem C64_nil : forall G t w x event body room,
  exec t (impl G (AEmit None event body)) w = XDone w false /\
  exec t (impl G (AEmitBinary None event body)) w = XDone w false /\
  (exists e, exec t (impl G (ANSAsk None x event body)) w = XDone w (no_message, Some e)) /\
  (exists e, exec t (impl G (AJoinRoom None x room)) w = XDone w (None, Some e)) /\
  exec t (impl G (ARoom None room)) w = XDone w None /\
  exec t (impl G (ALeaveAll None x)) w = XDone w None /\
  exec t (impl G (ADisconnect None x)) w = XDone w None.
Proof. exact l_C64_nil. Qed.
Print Assumptions C64_nil.

(** C64 fails for Rooms: an application whose only call besides Connect is Rooms on the NSConn that Connect returned.
    The server refuses the connect, so that this is nil, and the process panics. *)
Theorem C64_rooms_refuted : exists (G : cfg) (s : sys),
  application (fun a => (exists x ns, a = AConnect 2 x ns) \/ exists n, a = ARooms n) G /\ reachable G s /\
  s_crash s = Some "invalid memory address or nil pointer dereference".
Proof. exact l_C64_rooms_refuted. Qed.
Print Assumptions C64_rooms_refuted.

(** C64 fails for Broadcast: an application whose only call besides Connect is Broadcast on the NSConn that Connect
    returned.  The connect of the client succeeds, and the process panics, because a client has no server. *)
Theorem C64_broadcast_refuted : exists (G : cfg) (s : sys) n,
  application (fun a => (exists x ns, a = AConnect 2 x ns) \/ exists n msgs, a = ANSBroadcast n false msgs) G /\ reachable G s /\
  c_nss (conn_of (s_w s) 2) !! "chat" = Some n /\ s_crash s = Some "invalid memory address or nil pointer dereference".
Proof. exact l_C64_broadcast_refuted. Qed.
Print Assumptions C64_broadcast_refuted.

(** C64 fails for Disconnect: a client that exchanges native messages only, and whose callback for them disconnects
    (it succeeds at once, without asking the other side).  The next frame makes the process panic. *)
Theorem C64_native_refuted : exists (G : cfg) (s : sys),
  application (fun a => exists n x, a = ADisconnect (Some n) x) G /\ onlyNative G 2 = true /\ reachable G s /\
  map snd (c_got (conn_of (s_w s) 2)) = ["one"; "two"] /\
  s_crash s = Some "invalid memory address or nil pointer dereference".
Proof. exact l_C64_native_refuted. Qed.
Print Assumptions C64_native_refuted.

(** C64. The nil NSConn of the first theorem: a Connect that fails returns it. *)
Example C64_example :
  let G := alone (lift exA) (Ret tt) in let s := play G [Go 0; Act1 (Env (EGo (TDial 2))); Go 1; Act1 Start; Go 2; Act1 (Env (EDeliver 2 TextMessage "Aid-1")); Go 2; Go 1] (init G) in
  exists w' e, exec 3 (impl G (AConnect 2 None "nowhere")) (s_w s) = XDone w' (None, Some e) /\ e = EBadNamespace.
Proof. exact x_C64_example. Qed.
