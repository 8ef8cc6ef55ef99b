(** * Go.v : the few Go standard library functions used by neffos, on byte strings.

    Go [string] and [[]byte] values are modelled by Coq [string] (a list of
    bytes).  A nil slice and an empty slice are identified: the modelled code
    only ever tests their length. *)
From Coq Require Import String Ascii List NArith ZArith Bool Lia.
From Coq Require Import DecimalString DecimalZ.
Import ListNotations.
Local Open Scope string_scope.

(** Result of code that may panic (an unrecovered Go panic). *)
Inductive result (A : Type) : Type :=
| Ok (a : A)
| Panic (why : string).
Arguments Ok {A} a.
Arguments Panic {A} why.

(** [strings.HasPrefix(s, p)] *)
Definition has_prefix (s p : string) : bool := String.prefix p s.

(** [strings.HasSuffix(s, p)] *)
Definition has_suffix (s p : string) : bool :=
  (String.length p <=? String.length s)%nat &&
  String.eqb (String.substring (String.length s - String.length p) (String.length p) s) p.

(** Worker of [strings.Replace(s, old, new, -1)] for a non empty [old]:
    matches are taken from left to right and do not overlap.  [skip] counts the
    bytes of the current match that still have to be dropped. *)
Fixpoint replace_go (old new : string) (skip : nat) (s : string) : string :=
  match s with
  | EmptyString => EmptyString
  | String c s' =>
      match skip with
      | S k => replace_go old new k s'
      | O => if String.prefix old s
             then new ++ replace_go old new (String.length old - 1) s'
             else String c (replace_go old new 0 s')
      end
  end.

(** [strings.Replace(s, old, new, -1)], [old] not empty. *)
Definition replace_all (s old new : string) : string := replace_go old new 0 s.

(** First occurrence of the byte [sep]: what is before and what is after it. *)
Fixpoint cut (sep : ascii) (s : string) : option (string * string) :=
  match s with
  | EmptyString => None
  | String c s' =>
      if Ascii.eqb c sep then Some (EmptyString, s')
      else match cut sep s' with
           | Some (a, b) => Some (String c a, b)
           | None => None
           end
  end.

(** [bytes.SplitN(s, sep, n)] for a one byte separator and [n >= 1]: at most
    [n] pieces, the last one is the unsplit remainder. *)
Fixpoint splitN (n : nat) (sep : ascii) (s : string) : list string :=
  match n with
  | O => []
  | S O => [s]
  | S n' => match cut sep s with
            | None => [s]
            | Some (a, b) => a :: splitN n' sep b
            end
  end.

(** [bytes.Join(parts, sep)] *)
Definition join (sep : string) (parts : list string) : string := String.concat sep parts.

(** [bytes.Repeat(b, n)] *)
Fixpoint repeat_str (s : string) (n : nat) : string :=
  match n with O => EmptyString | S n' => s ++ repeat_str s n' end.

(** [strconv.FormatInt(z, 10)] and the verb %d *)
Definition format_int (z : Z) : string := NilZero.string_of_int (Z.to_int z).

(** [string(b)] for a byte [b]: Go converts the integer to the UTF-8 encoding
    of that code point, two bytes if [b >= 128]. *)
Definition string_of_byte (b : ascii) : string :=
  let n := N_of_ascii b in
  if (n <? 128)%N then String b EmptyString
  else String (ascii_of_N (192 + n / 64)) (String (ascii_of_N (128 + n mod 64)) EmptyString).

(** Addition of bytes wraps modulo 256. *)
Definition byte_add (a b : ascii) : ascii := ascii_of_N ((N_of_ascii a + N_of_ascii b) mod 256).

(** [s[i:]]; only used with [i <= len(s)]. *)
Fixpoint drop (i : nat) (s : string) : string :=
  match i, s with
  | O, _ => s
  | S i', String _ s' => drop i' s'
  | S _, EmptyString => EmptyString
  end.

(** The first byte, if any. *)
Definition first_byte (s : string) : option ascii :=
  match s with EmptyString => None | String c _ => Some c end.

(** The second byte, if any. *)
Definition second_byte (s : string) : option ascii :=
  match s with String _ (String c _) => Some c | _ => None end.

Definition is_empty (s : string) : bool :=
  match s with EmptyString => true | _ => false end.
