(** Specification for C77: what is printed about an event id. *)
From Coq Require Import String ZArith List Lia Bool.
From Verif Require Import M_Base M_Map M_Crox S_EventId.
Import ListNotations.
Open Scope Z_scope.

(** The pieces of a text between the separators. *)
Fixpoint separated (l : list bytes) : bytes :=
  match l with [] => [] | [t] => t | t :: l' => t ++ [30] ++ separated l' end.
Definition pieces (text : bytes) (l : list bytes) : Prop := l <> [] /\ Forall (fun t => ~ In 30 t) l /\ text = separated l.
(** Where the piece after the pieces [before] begins. *)
Fixpoint place (before : list bytes) : Z := match before with [] => 0 | t :: before' => zlen t + 1 + place before' end.
Definition message (problem : string) (at_ : Z) (text : bytes) : bytes :=
  str "Could not parse `event_id`. " ++ str problem ++ str " at " ++ decimal at_ ++ str " in """ ++ text ++ str """" ++ [10].

(** What is printed about an event id with that text: nothing, or that the first piece that is not well-formed is empty (and where it is), or that it
    contains a control character other than white space (and where the piece ends). *)
Inductive complaint (text : bytes) : bytes -> Prop :=
| all_fine l : pieces text l -> Forall good_text l -> complaint text []
| empty_piece before after : pieces text (before ++ [] :: after) -> Forall good_text before ->
    complaint text (message "Zero-length <text>" (place before) text)
| control_piece before t after b : pieces text (before ++ t :: after) -> Forall good_text before -> In b t -> control b -> ~ rust_space b ->
    complaint text (message "Found ASCII control character in <text>" (place before + zlen t) text).
