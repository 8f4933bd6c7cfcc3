(** Specification for C41. *)
From Coq Require Import ZArith List Lia Bool.
From Verif Require Import M_Base S_Utf8.
Import ListNotations.
Open Scope Z_scope.

(** Characters that survive: tab, line feed, carriage return and printable ASCII except the
    apostrophe. *)
Definition plain (c : Z) : Prop := c = 9 \/ c = 10 \/ c = 13 \/ 32 <= c <= 126 /\ c <> 39.
(** The command line as it should be read: every argument followed by a blank. *)
Definition command_line (args : list (list Z)) : bytes := concat (map (fun a => flat_map encode a ++ [32]) args).
Definition plain_args (args : list (list Z)) : Prop := Forall (Forall plain) args.
