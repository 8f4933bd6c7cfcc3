(** Model of stack_collapse/src/main.rs (cited as main.rs): the text of the folded stacks.
    The order in which the hash map is iterated is the order of the list. *)
From Coq Require Import String ZArith List Lia Bool.
From Verif Require Import M_Base M_Map M_Crox.
Import ListNotations.
Open Scope Z_scope.

(** main.rs:25: [writeln!(file, "{} {}", unique_stack, count)] *)
Definition folded_line (x : bytes * Z) : bytes := fst x ++ str " " ++ decimal (snd x) ++ [10].
(** main.rs:21-26: the file *)
Definition folded_text (stacks : list (bytes * Z)) : bytes := concat (map folded_line stacks).
(** flamegraph/src/main.rs:21-24: the lines given to inferno, one string for each stack *)
Definition flamegraph_lines (stacks : list (bytes * Z)) : list bytes := map (fun x => fst x ++ str " " ++ decimal (snd x)) stacks.
