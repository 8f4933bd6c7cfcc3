(** Model of summarize/src/diff.rs (cited as diff.rs).

    The two [f64] percentage columns are modelled in M_Float.v.  A hash set/map is a list of entries; the
    order in which the two label sets (activities: [true], artifacts: [false]) are iterated is the parameter [order].  [sort_by] is a stable
    sort, modelled by insertion sort.  [oc]: compiled with overflow checks. *)
From Coq Require Import ZArith List Lia Bool.
From Verif Require Import M_Base M_Map M_Analysis.
Import ListNotations.
Open Scope Z_scope.

(** diff.rs:216-220 [struct SignedDuration], the duration in nanoseconds *)
Record sdur := mkSd { sd_duration : Z; sd_is_positive : bool }.
(** diff.rs:223-227 [as_nanos] *)
Definition as_nanos (d : sdur) : Z := (if sd_is_positive d then 1 else -1) * sd_duration d.
(** diff.rs:229-236 [from_nanos]: [nanos.abs() as u64] truncates *)
Definition from_nanos (nanos : Z) : sdur := mkSd (Z.abs nanos mod U64) (0 <=? nanos).
(** diff.rs:239-246 [From<Duration>] *)
Definition sd_from (d : Z) : sdur := mkSd d true.
(** diff.rs:248-258 [Ord], [PartialOrd] *)
Definition sd_cmp (a b : sdur) : comparison := as_nanos a ?= as_nanos b.
(** diff.rs:216 derived [PartialEq] *)
Definition sd_eqb (a b : sdur) : bool := (sd_duration a =? sd_duration b) && eqb (sd_is_positive a) (sd_is_positive b).
(** diff.rs:260-266 [Sub] *)
Definition sd_sub (a b : sdur) : sdur := from_nanos (as_nanos a - as_nanos b).

(** [x as i64] and [i64] arithmetic *)
Definition I64 : Z := 9223372036854775808.
Definition to_i64 (v : Z) : Z := (v + I64) mod U64 - I64.
Definition i64_op (oc : bool) (v : Z) : res Z :=
  if (- I64 <=? v) && (v <? I64) then Ok v else if oc then Panic else Ok (to_i64 v).
Definition i64_sub (oc : bool) (a b : Z) : res Z := i64_op oc (a - b).
Definition i64_neg (oc : bool) (a : Z) : res Z := i64_op oc (- a).

(** diff.rs:99-113 [struct QueryDataDiff] (without the percentages, see M_Float.v) *)
Record qdiff := mkQD {
  d_label : bytes; d_time : sdur; d_self_time : sdur; d_misses : Z; d_hits : Z; d_count : Z;
  d_blocked : sdur; d_load : sdur; d_hashing : sdur }.
Record adiff := mkAD { ad_label : bytes; ad_change : Z }.
Record diff_results := mkDR { dr_query : list qdiff; dr_artifacts : list adiff; dr_total : sdur }.

(** diff.rs:116-146 [QueryDataDiff::sub] *)
Definition qdiff_sub (oc : bool) (lhs rhs : qdata) : res qdiff :=
  do m <- i64_sub oc (to_i64 (q_misses lhs)) (to_i64 (q_misses rhs));
  do h <- i64_sub oc (to_i64 (q_hits lhs)) (to_i64 (q_hits rhs));
  do c <- i64_sub oc (to_i64 (q_count lhs)) (to_i64 (q_count rhs));
  Ok (mkQD (q_label lhs) (sd_sub (sd_from (q_time lhs)) (sd_from (q_time rhs)))
        (sd_sub (sd_from (q_self_time lhs)) (sd_from (q_self_time rhs))) m h c
        (sd_sub (sd_from (q_blocked lhs)) (sd_from (q_blocked rhs)))
        (sd_sub (sd_from (q_load lhs)) (sd_from (q_load rhs)))
        (sd_sub (sd_from (q_hashing lhs)) (sd_from (q_hashing rhs)))).
(** diff.rs:148-169 [invert_query_data] *)
Definition qdiff_invert (oc : bool) (q : qdata) : res qdiff :=
  let invert d := mkSd d false in
  do m <- i64_neg oc (to_i64 (q_misses q));
  do h <- i64_neg oc (to_i64 (q_hits q));
  do c <- i64_neg oc (to_i64 (q_count q));
  Ok (mkQD (q_label q) (invert (q_time q)) (invert (q_self_time q)) m h c (invert (q_blocked q)) (invert (q_load q)) (invert (q_hashing q))).
(** diff.rs:171-185 [query_data_as_diff] *)
Definition qdiff_as (q : qdata) : qdiff :=
  mkQD (q_label q) (sd_from (q_time q)) (sd_from (q_self_time q)) (to_i64 (q_misses q)) (to_i64 (q_hits q)) (to_i64 (q_count q))
    (sd_from (q_blocked q)) (sd_from (q_load q)) (sd_from (q_hashing q)).
(** diff.rs:188-214 [ArtifactSizeDiff] *)
Definition adiff_sub (oc : bool) (lhs rhs : artifact) : res adiff :=
  do v <- i64_sub oc (to_i64 (art_value lhs)) (to_i64 (art_value rhs)); Ok (mkAD (art_label lhs) v).
Definition adiff_invert (oc : bool) (a : artifact) : res adiff := do v <- i64_neg oc (to_i64 (art_value a)); Ok (mkAD (art_label a) v).
Definition adiff_as (a : artifact) : adiff := mkAD (art_label a) (to_i64 (art_value a)).

(** diff.rs:16-32 [build_query_lookup], [build_artifact_lookup]: label to index, later entries win *)
Fixpoint build_lookup_from {A} (label : A -> bytes) (i : Z) (l : list A) (m : list (bytes * Z)) : list (bytes * Z) :=
  match l with
  | [] => m
  | x :: l' => build_lookup_from label (i + 1) l' (map_put beq (label x) i m)
  end.
Definition build_lookup {A} (label : A -> bytes) (l : list A) : list (bytes * Z) := build_lookup_from label 0 l [].
(** [lookup.get(l).map(|i| &data[*i])] *)
Definition lookup_get {A} (m : list (bytes * Z)) (data : list A) (l : bytes) : res (option A) :=
  match map_get beq l m with
  | None => Ok None
  | Some i => match znth i data with Some x => Ok (Some x) | None => Panic end
  end.
(** the set of labels of both sides, diff.rs:43-49, 70-75 *)
Definition label_set (ls : list bytes) : list bytes := map fst (fold_left (fun m l => map_put beq l tt m) ls []).

(** [Vec::sort_by] with [r.key.cmp(&l.key)]: stable, descending *)
Fixpoint insert_desc {A} (key : A -> Z) (x : A) (l : list A) : list A :=
  match l with
  | [] => [x]
  | y :: l' => if key x <? key y then y :: insert_desc key x l' else x :: l
  end.
Fixpoint sort_desc {A} (key : A -> Z) (l : list A) : list A :=
  match l with
  | [] => []
  | x :: l' => insert_desc key x (sort_desc key l')
  end.

Fixpoint collectM {A B} (f : A -> res B) (l : list A) : res (list B) :=
  match l with
  | [] => Ok []
  | x :: l' => do y <- f x; do ys <- collectM f l'; Ok (y :: ys)
  end.

(** diff.rs:53-63, 78-88: one row *)
Definition query_row (oc : bool) (base change : list qdata) (l : bytes) : res qdiff :=
  do b <- lookup_get (build_lookup q_label base) base l;
  do c <- lookup_get (build_lookup q_label change) change l;
  match b, c with
  | Some b, Some c => qdiff_sub oc c b
  | Some b, None => qdiff_invert oc b
  | None, Some c => Ok (qdiff_as c)
  | None, None => Panic
  end.
Definition artifact_row (oc : bool) (base change : list artifact) (l : bytes) : res adiff :=
  do b <- lookup_get (build_lookup art_label base) base l;
  do c <- lookup_get (build_lookup art_label change) change l;
  match b, c with
  | Some b, Some c => adiff_sub oc c b
  | Some b, None => adiff_invert oc b
  | None, Some c => Ok (adiff_as c)
  | None, None => Panic
  end.

(** diff.rs:34-97 [calculate_diff] *)
Definition calculate_diff (oc : bool) (order : bool -> list bytes -> list bytes) (base change : results) : res diff_results :=
  do rows <- collectM (query_row oc (query_data base) (query_data change))
               (order true (label_set (map q_label (query_data base) ++ map q_label (query_data change))));
  do arts <- collectM (artifact_row oc (artifact_sizes base) (artifact_sizes change))
               (order false (label_set (map art_label (artifact_sizes base) ++ map art_label (artifact_sizes change))));
  Ok (mkDR (sort_desc (fun d => sd_duration (d_self_time d)) rows) (sort_desc ad_change arts)
        (sd_sub (sd_from (total_time change)) (sd_from (total_time base)))).
