(** Specification for C80: when a profiler can be started, and what it leaves on the file system. *)
From Coq Require Import String ZArith List Lia Bool.
From Verif Require Import M_Base M_Map M_Path M_Sink M_Session M_Counters M_Metadata S_Run M_Output S_Output M_Start.
Import ListNotations.
Open Scope Z_scope.

(** Whatever exists is in a directory. *)
Definition fs_ok (w : fsys) : Prop := forall q c, q <> [] -> w (q ++ [c]) <> None -> w q = Some IsDir.
(** [.], [..] and [/] occur in the path only where these directories exist already. *)
Definition tidy (w : fsys) (p : path) : Prop :=
  forall q c rest, p = q ++ c :: rest -> (exists n, c = Normal n) \/ w (q ++ [c]) = Some IsDir.
(** The directories of a path: [q] is one of the directories in which [p] is. *)
Definition above (q p : path) : Prop := q <> [] /\ exists c rest, p = q ++ c :: rest.
(** The file can be created: each of its directories exists or can be made, it is not a directory itself, and the system lets us. *)
Definition creatable (h : host) (w : fsys) (f : path) : Prop :=
  (forall q, above q f -> w q = Some IsDir \/ w q = None /\ cannot_make h q = false) /\ w f <> Some IsDir /\ cannot_create h f = false.
(** From [w] to [w'] only directories of [f] that were missing have been made. *)
Definition only_made (w w' : fsys) (f : path) : Prop :=
  forall q, q <> f -> w' q = w q \/ above q f /\ w q = None /\ w' q = Some IsDir.
(** The arguments and the clock of an ordinary process. *)
Definition all_unicode (h : host) (args : list (list Z)) : Prop := h_args h = map Some args.
Definition ordinary (h : host) : Prop := (exists args, all_unicode h args) /\ 0 <= h_clock h.
(** The eight bytes with which the file begins. *)
Definition top_header : bytes := str "MMPD" ++ [9; 0; 0; 0].
(** The path given to the profiler ends in the name of a file (or in [..]). *)
Definition has_place (stem : path) : Prop := stem <> [] /\ forall q, stem <> q ++ [RootDir].
