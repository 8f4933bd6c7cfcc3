(** The folded stack format: one stack per line, its frames separated by semicolons, the count after the
    last space (https://github.com/brendangregg/FlameGraph). *)
From Coq Require Import String ZArith List Lia Bool.
From Verif Require Import M_Base M_Raw M_V8 M_Map S_Analysis S_Crox S_Collapse.
Import ListNotations.
Open Scope Z_scope.

(** A line, without its end: the stack, a space, a number. *)
Definition line_says (line : bytes) (x : bytes * Z) : Prop :=
  exists ds, line = fst x ++ 32 :: ds /\ ds <> [] /\ Forall (fun d => 48 <= d <= 57) ds /\ denotes ds = snd x.
(** A text of lines, each ended by a line feed. *)
Definition text_says (text : bytes) (l : list (bytes * Z)) : Prop :=
  exists lines, text = concat (map (fun x => x ++ [10]) lines) /\ Forall (fun line => ~ In 10 line) lines /\ Forall2 line_says lines l.
(** The frames of a stack. *)
Fixpoint with_semicolons (fs : list bytes) : bytes :=
  match fs with
  | [] => []
  | [f] => f
  | f :: fs' => f ++ 59 :: with_semicolons fs'
  end.
Definition frames (stack : bytes) (fs : list bytes) : Prop := fs <> [] /\ stack = with_semicolons fs /\ Forall (fun f => ~ In 59 f) fs.
(** The labels of the events around [e] (recorded later), outermost first. *)
Fixpoint chain (e : event) (later : list event) : list bytes :=
  match later with
  | [] => []
  | x :: r => if encloses x e then chain x r ++ [ev_label x] else chain e r
  end.
