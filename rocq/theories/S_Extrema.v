(** Specification for C33: what the tables of extreme values hold after a history of insertions. *)
From Coq Require Import ZArith List Lia Bool Sorted.
From Verif Require Import M_Base M_Aggregate.
Import ListNotations.
Open Scope Z_scope.

(** A history is the list of values inserted, each with its source, oldest first. *)
Section History.
  Context {S : Type}.
  (** number of distinct values seen that are smaller (larger) than [v] *)
  Definition smaller_seen (hist : list (Z * S)) (v : Z) : Z := zlen (nodup Z.eq_dec (filter (fun x => x <? v) (map fst hist))).
  Definition larger_seen (hist : list (Z * S)) (v : Z) : Z := zlen (nodup Z.eq_dec (filter (fun x => v <? x) (map fst hist))).
  (** how often [v] was inserted, and its source if once *)
  Definition occurrences (hist : list (Z * S)) (v : Z) : sources S :=
    match filter (fun x => fst x =? v) hist with
    | [] => SEmpty
    | [x] => SOne (snd x)
    | l => SCount (zlen l)
    end.
  (** The table lists in increasing order the values that have fewer than [limit] smaller ones. *)
  Definition smallest_table (limit : Z) (hist : list (Z * S)) (t : list (Z * sources S)) : Prop :=
    StronglySorted Z.lt (map fst t) /\
    forall v x, In (v, x) t <-> In v (map fst hist) /\ smaller_seen hist v < limit /\ x = occurrences hist v.
  Definition largest_table (limit : Z) (hist : list (Z * S)) (t : list (Z * sources S)) : Prop :=
    StronglySorted Z.lt (map fst t) /\
    forall v x, In (v, x) t <-> In v (map fst hist) /\ larger_seen hist v < limit /\ x = occurrences hist v.
End History.
