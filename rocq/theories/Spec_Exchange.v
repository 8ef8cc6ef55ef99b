(** * Spec_Exchange.v : what the exchange theorems talk about. *)
From Coq Require Import String Ascii.
From stdpp Require Import gmap strings list.
From Verif Require Import Go Errors Message Spec_Wire Exchange.

(** The exchanges that take part, in the order of their registration: those whose Init did not fail. *)
Definition accepted (l : leaf) : Prop := x_init l = None \/ x_init l = Some None.
Global Instance accepted_dec l : Decision (accepted l).
Proof. unfold accepted. destruct (x_init l) as [[|]|]; [right; by intros [|]|left; by right|left; by left]. Defined.

(** Registering exchanges one after the other. *)
Definition register (l : list leaf) : option exch := fold_left (fun s x => fst (UseStackExchange s (Some x))) l None.

(** Every exchange of [l] gets the call [k], in order. *)
Definition reaches_all (l : list leaf) (k : call) : calls := map (fun x => (x_id x, k)) l.

(** A name without the special bytes of redis patterns. *)
Definition plain (s : string) : Prop :=
  Forall (fun c => c <> "*"%char /\ c <> "?"%char /\ c <> "["%char /\ c <> "\"%char) (list_ascii_of_string s).

(** The namespaces connection [c] is subscribed to after a history, and its ID while it is connected. *)
Fixpoint subscribed (c : nat) (l : list xevent) : option (string * gset string) :=
  match l with
  | [] => None
  | e :: older =>
      match e with
      | XEConnect d id => if decide (d = c) then Some (id, ∅) else subscribed c older
      | XESubscribe d ns => if decide (d = c) then option_map (fun p => (p.1, {[ ns ]} ∪ p.2)) (subscribed c older) else subscribed c older
      | XEUnsubscribe d ns => if decide (d = c) then option_map (fun p => (p.1, p.2 ∖ {[ ns ]})) (subscribed c older) else subscribed c older
      | XEDisconnect d => if decide (d = c) then None else subscribed c older
      end
  end.

(** How often connection [c] gets the payload. *)
Definition copies (c : nat) (l : list (nat * string)) : nat := length (filter (fun p => p.1 = c) l).

(** A name without the special bytes of nats subjects. *)
Definition nats_plain (s : string) : Prop :=
  Forall (fun c => c <> "*"%char /\ c <> ">"%char) (list_ascii_of_string s).

(** [m] is for a connection with the ID [id] and the namespaces [nss]: it names that ID as its
    receiver, or it names no receiver and its namespace is one of them. *)
Definition meant_for (m : message) (id : string) (nss : gset string) : Prop :=
  (m_to m = id /\ m_to m <> ""%string) \/ (m_to m = ""%string /\ m_namespace m ∈ nss).

(** The ID of a connection is not used like the name of a namespace, by its history and by the message. *)
Definition id_apart (c : nat) (id : string) (l : list xevent) (m : message) (nss : gset string) : Prop :=
  (forall ns, XESubscribe c ns ∈ l \/ XEUnsubscribe c ns ∈ l -> ns <> id) /\
  (m_to m = ""%string -> m_namespace m <> id) /\ (m_to m <> ""%string -> m_to m ∉ nss).

(** Connection [c] subscribes a namespace only while it is not subscribed to it (newest event first). *)
Fixpoint no_resubscribe (c : nat) (l : list xevent) : Prop :=
  match l with
  | [] => True
  | e :: older =>
      no_resubscribe c older /\
      match e with
      | XESubscribe d ns => d = c -> forall id nss, subscribed c older = Some (id, nss) -> ns ∉ nss
      | _ => True
      end
  end.
