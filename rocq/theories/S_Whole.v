(** Vocabulary for the statement about whole programs: threads that use timing guards in scopes. *)
From Coq Require Import ZArith List Lia Bool.
From Verif Require Import M_Base M_Sink M_Conc M_Raw M_Session M_Run M_Guard S_Guard.
Import ListNotations.
Open Scope Z_scope.

(** The recording calls made by thread [tid], in order. *)
Fixpoint calls_by (tid : Z) (h : list uev) : list call :=
  match h with
  | [] => []
  | UInv t k :: h' => if t =? tid then k :: calls_by tid h' else calls_by tid h'
  | _ :: h' => calls_by tid h'
  end.
(** Thread [tid] runs a program of nested scopes on a clock that never goes backwards. *)
Definition uses_scopes (h : list uev) (tid : Z) : Prop :=
  exists p, nested p /\ monotone p /\ calls_by tid h = grun (fun _ => None) p.
(** Every thread records its intervals under a thread number of its own. *)
Definition own_numbers (h : list uev) (number : Z -> Z) : Prop :=
  (forall t t', number t = number t' -> t = t') /\
  forall t kind id n s e, In (KInterval kind id n s e) (calls_by t h) -> n = number t.
