(** * Spec_Ident.v : words for the identity of connections (C61). *)
From Coq Require Import ZArith Ascii.
From stdpp Require Import gmap strings list.
From RecordUpdate Require Import RecordUpdate.
From Verif Require Import Go Errors Message World Lang Code Sem Spec_View.

(** The ID that this side gives to the connection: the server's ID generator
    makes one, a client has none. *)
Definition own_id (G : cfg) (c : cid) : string := if g_client G c then "" else g_connid G c.

(** The peer sent the frame "A" followed by [i]. *)
Definition told (c : cid) (i : string) (w : world) : Prop :=
  exists typ, In (typ, String "A"%char i) (c_got (conn_of w c)).

