(** * Spec_Http.v : URL parameters as headers. *)
From Coq Require Import String Ascii ZArith.
From stdpp Require Import gmap strings list.
From Verif Require Import Go Http.

(** Parameter name [k] asks for header [name]. *)
Definition asks_header (k name : string) : Prop := CanonicalHeaderKey k = ("X-Websocket-Header-" ++ name)%string /\ name <> "".
Global Instance asks_header_dec k name : Decision (asks_header k name).
Proof. unfold asks_header. apply _. Defined.

(** The values the parameters give to header [name]. *)
Definition given (q : list (string * list string)) (name : string) : list string :=
  List.concat (map snd (List.filter (fun p => bool_decide (asks_header (fst p) name)) q)).

(** Names that differ in the case of letters only. *)
Fixpoint lower (s : string) : string :=
  match s with EmptyString => EmptyString | String c s' => String (to_lower c) (lower s') end.

(** Decimal numbers: digits, possibly with a sign before them. *)
Definition digits_only (s : string) : Prop :=
  s <> "" /\ Forall (fun c => 48 <= nat_of_ascii c <= 57) (list_ascii_of_string s).
Definition numeral (s : string) : Prop :=
  digits_only s \/ exists s', (s = String "+" s' \/ s = String "-" s') /\ digits_only s'.
