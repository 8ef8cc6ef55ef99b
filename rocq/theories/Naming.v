(** * Naming.v : what a ConnHandler says about the namespace of a struct and about timeouts
    (reflect.go:106-136, conn_handler.go:79-192, 269-278). *)
From Coq Require Import ZArith.
From stdpp Require Import strings list.
From Verif Require Import Go Handlers.

(** ** The fields of a struct value.

    [Field name embedded ty]: for an embedded field Go takes the name of its type as the
    name.  A type that refers to itself through embedded pointers is not represented (reflect
    visits a type once, so that there is nothing more to find in it). *)
Inductive field : Type := Field (name : string) (embedded : bool) (ty : fty)
with fty : Type :=
| FString (v : string)                                        (* a value of kind String *)
| FStruct (tname : string) (ptr : bool) (fs : list field)     (* a struct, or a pointer to one *)
| FOther (tname : string).                                    (* any other kind *)
Definition f_name (f : field) : string := match f with Field n _ _ => n end.
Definition f_ty (f : field) : fty := match f with Field _ _ t => t end.
(** reflect.Type.String *)
Definition type_string (t : fty) : string :=
  match t with
  | FString _ => "string"
  | FStruct n p _ => if p then String.append "*" n else n
  | FOther n => n
  end.
(** reflect.Value.String: the string, or "<T Value>" for the other kinds *)
Definition value_string (t : fty) : string :=
  match t with
  | FString v => v
  | _ => String.append "<" (String.append (type_string t) " Value>")
  end.
(** The struct type behind an embedded field T or *T. *)
Definition behind (f : field) : list field :=
  match f with Field _ true (FStruct _ _ fs) => fs | _ => [] end.

(** The fields with the name [x] at depth [d] *)
Fixpoint level (x : string) (d : nat) (fs : list field) : list fty :=
  match d with
  | 0 => map f_ty (List.filter (fun f => String.eqb (f_name f) x) fs)
  | S d' => flat_map (fun f => level x d' (behind f)) fs
  end.
(** ... each with the first element of its reflect.StructField.Index *)
Fixpoint indexed (x : string) (d i : nat) (fs : list field) : list (nat * fty) :=
  match fs with
  | [] => []
  | f :: fs' =>
      map (pair i) (match d with 0 => if String.eqb (f_name f) x then [f_ty f] else [] | S d' => level x d' (behind f) end)
      ++ indexed x d (S i) fs'
  end.

Fixpoint height (f : field) : nat :=
  match f with
  | Field _ _ (FStruct _ _ fs) => S (fold_right (fun g n => Nat.max (height g) n) 0 fs)
  | _ => 0
  end.
(** The levels are searched from the shallowest on; if the first that has the name
    has it twice, there is no result.  reflect.Type.FieldByNameFunc *)
Fixpoint search (x : string) (d n : nat) (fs : list field) : option (nat * fty) :=
  match indexed x d 0 fs with
  | [r] => Some r
  | _ :: _ => None
  | [] => match n with 0 => None | S n' => search x (S d) n' fs end
  end.
Definition FieldByName (x : string) (fs : list field) : option (nat * fty) :=
  search x 0 (fold_right (fun g n => Nat.max (height g) n) 0 fs) fs.

(** A pointer to a struct: [sv_method] is the method Namespace, if there is one, with its
    result if it is a func() string. *)
Record struct_value : Type := StructValue { sv_method : option (option string); sv_fields : list field }.

(** reflect.go:106-136 resolveStructNamespace *)
Definition resolveStructNamespace (v : struct_value) : string * bool :=
  match sv_method v with
  | Some (Some ns) => (ns, true)
  | _ =>
      match FieldByName "Namespace" (sv_fields v) with
      | Some (i, FString _) =>
          match sv_fields v !! i with
          | Some f => (value_string (f_ty f), true)   (* v.Field(f.Index[0]).String() *)
          | None => ("", false)                       (* not reached *)
          end
      | _ => ("", false)
      end
  end.

(** conn_handler.go:269-273: the namespace of Struct.GetNamespaces; [given] by SetNamespace (136-139) *)
Definition struct_namespace (given : string) (v : struct_value) : string :=
  if String.eqb given "" then fst (resolveStructNamespace v) else given.

(** ** Timeouts.

    A value of type ConnHandler.  *WithTimeout is one too: a pointer has the methods of its
    element.  Durations are in nanoseconds. *)
Inductive handler_value : Type :=
| PlainEvents (e : mref)
| PlainNamespaces (n : mref)
| TimeoutValue (rt wt : Z) (n e : mref)
| TimeoutPointer (rt wt : Z) (n e : mref)
| StructPointer (rt wt : Z) (ns : string) (e : nat).   (* SetTimeouts: conn_handler.go:177-182 *)

(** conn_handler.go:98-110 getTimeouts *)
Definition getTimeouts (h : handler_value) : Z * Z :=
  match h with
  | TimeoutValue rt wt _ _ => (rt, wt)
  | StructPointer rt wt _ _ => (rt, wt)
  | _ => (0, 0)%Z
  end.
(** What GetNamespaces sees of it (Handlers.v). *)
Definition plain (h : handler_value) : conn_handler :=
  match h with
  | PlainEvents e => HEvents e
  | PlainNamespaces n => HNamespaces n
  | TimeoutValue _ _ n e | TimeoutPointer _ _ n e => HWithTimeout n e
  | StructPointer _ _ ns e => HStruct ns e
  end.
(** conn_handler.go:283-314 JoinConnHandlers returns a Namespaces *)
Definition join {H} (l : list handler_value) (h : @heap H) : handler_value * @heap H :=
  let (n, h) := join_with GetNamespaces (map plain l) h in (PlainNamespaces n, h).

(** server.go:113-121, 328-330 (New, Upgrade) and client.go:88-90 (Dial): the timeouts of a connection *)
Definition conn_timeouts (h : handler_value) : Z * Z := getTimeouts h.
(** gobwas/socket.go:72-75, 142-145; gorilla/socket.go:46-48, 76-78: the deadline that is in force
    when a read, or a write, begins at [now]; [old] is the one that was set before *)
Definition arm (timeout now : Z) (old : option Z) : option Z :=
  if (0 <? timeout)%Z then Some (now + timeout)%Z else old.
(** The deadlines of reads, or writes, that begin at the times [at_] on a new connection. *)
Fixpoint deadlines (timeout : Z) (old : option Z) (at_ : list Z) : list (option Z) :=
  match at_ with
  | [] => []
  | now :: l => let d := arm timeout now old in d :: deadlines timeout d l
  end.
