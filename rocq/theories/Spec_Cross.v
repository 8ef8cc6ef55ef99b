(** * Spec_Cross.v : two goroutines that wait for each other (C54). *)
From Coq Require Import ZArith.
From stdpp Require Import gmap strings list relations.
From Verif Require Import Go Errors Message World Lang Code Sem.

(** A goroutine with this code neither reads connection [c] for its handlers
    nor has to answer on channel [ch]. *)
Definition aside (c : cid) (ch : chid) (x : tcode) : Prop :=
  match x with TReadNext _ ch' => ch' <> ch | TReader c' | TReaderLoop c' => c' <> c | _ => True end.

(** All goroutines but [t] and [u] are between two tasks, and none of them is
    a reader of [c] or will answer on [ch]. *)
Definition nobody_helps (G : cfg) (s : sys) (t u : tid) (c : cid) (ch : chid) : Prop :=
  (forall t' p, s_th s !! t' = Some p -> t' <> t -> t' <> u -> exists x, p = code G x /\ aside c ch x) /\
  (forall x, x ∈ w_spawn (s_w s) -> aside c ch x).

(** The reply that is awaited on [ch] can only come through connection [c]:
    the channel is empty, and no other connection and no Server.Ask uses it. *)
Definition answered_by (w : world) (c : cid) (ch : chid) : Prop :=
  ch < w_next w /\ ch_buf (chan_of w ch) = [] /\
  (forall c' tok, c_waiting (conn_of w c') !! tok = Some ch -> c' = c) /\
  (forall tok, s_waiting (w_srv w) !! tok <> Some ch).

(** Process [p] (process.go) is running, and its waiters of generation [g] were
    not released. *)
Definition running (w : world) (p : pid) (g : nat) : Prop :=
  p < w_next w /\ 1 <= p_count (proc_of w p) /\ p_gen (proc_of w p) <= g.

(** The application does not feed payloads to connection [c] itself
    (Conn.HandlePayload). *)
Definition not_fed (c : cid) (a : api) : Prop := match a with AHandlePayload c' _ _ => c' <> c | _ => True end.
