(** Specification of collapsed stacks. *)
From Coq Require Import ZArith List Lia Bool String.
From Verif Require Import M_Base M_Raw M_V8 M_Map S_Analysis.
Import ListNotations.
Open Scope Z_scope.

(** The chain of events around [e], outermost first, written "rustc;outer;...;inner".  [later] are
    the events recorded after [e]; the innermost enclosing one is the first of them around [e]. *)
Fixpoint ancestors (e : event) (later : list event) : bytes :=
  match later with
  | [] => str "rustc"
  | x :: r => if encloses x e then ancestors x r ++ str ";" ++ ev_label x else ancestors e r
  end.
Definition stack_line (e : event) (later : list event) : bytes := ancestors e later ++ str ";" ++ ev_label e.
Definition relabel (e : event) (l : bytes) : event := mkEv (ev_kind e) l (ev_args e) (ev_payload e) (ev_thread e).
(** The events with their stack lines in place of their labels. *)
Fixpoint with_lines (evs : list event) : list event :=
  match evs with
  | [] => []
  | e :: r => relabel e (stack_line e r) :: with_lines r
  end.
(** Time of the thread's events that are not inside another one. *)
Fixpoint top_level_time (t : Z) (evs : list event) : Z :=
  match evs with
  | [] => 0
  | e :: later => (if (ev_thread e =? t) && negb (existsb (fun x => encloses x e) later) then ev_len e else 0)
                  + top_level_time t later
  end.
