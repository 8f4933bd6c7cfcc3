(** Model of the tables printed by summarize/src/main.rs.

    A table is its header and its rows of cells; the formatting of a cell's value (Rust's [{:.2?}] of
    a duration etc.) and the padding done by prettytable are not modelled.  [pct] is the percentage
    of a row's self time as computed (in [f64]) and [below pct] the outcome of the comparison
    [curr_percent < percent_above]. *)
From Coq Require Import ZArith List Lia Bool String.
From Verif Require Import M_Base M_Map M_Analysis M_Diff.
Import ListNotations.
Open Scope Z_scope.

Inductive cell := Text (b : bytes) | Dur (ns : Z) | SDur (d : sdur) | Num (n : Z) | Percent (self : Z) | SNum (n : Z).
Record table := mkTable { header : list bytes; rows : list (list cell) }.

(** main.rs:196-220: the four flags, set by a loop that stops early *)
Record flags := mkFlags { has_hits : bool; has_blocked : bool; has_load : bool; has_hashing : bool }.
Fixpoint set_flags (f : flags) (l : list qdata) : flags :=
  match l with
  | [] => f
  | r :: l' =>
      let f := mkFlags (has_hits f || (0 <? q_hits r)) (has_blocked f || (0 <? q_blocked r))
                 (has_load f || (0 <? q_load r)) (has_hashing f || (0 <? q_hashing r)) in
      if has_hits f && has_blocked f && has_load f then f else set_flags f l'
  end.
(** main.rs:239-245 [filter_cells] *)
Definition filter_cells {A} (cells : list (A * bool)) : list A := map fst (filter snd cells).
(** main.rs:224-237 *)
Definition columns (f : flags) : list (bytes * bool) :=
  [(str "Item", true); (str "Self time", true); (str "% of total time", true); (str "Time", true); (str "Item count", true);
   (str "Cache hits", has_hits f); (str "Blocked time", has_blocked f); (str "Incremental load time", has_load f);
   (str "Incremental result hashing time", has_hashing f)].
(** main.rs:262-285 *)
Definition summary_cells (f : flags) (q : qdata) : list (cell * bool) :=
  [(Text (q_label q), true); (Dur (q_self_time q), true); (Percent (q_self_time q), true); (Dur (q_time q), true); (Num (q_count q), true);
   (Num (q_hits q), has_hits f); (Dur (q_blocked q), has_blocked f); (Dur (q_load q), has_load f); (Dur (q_hashing q), has_hashing f)].
(** main.rs:252-286: rows until the first one below the threshold *)
Fixpoint summary_rows (f : flags) (below : Z -> bool) (l : list qdata) : list (list cell) :=
  match l with
  | [] => []
  | q :: l' => if below (q_self_time q) then [] else filter_cells (summary_cells f q) :: summary_rows f below l'
  end.
(** main.rs:189-309 [summarize]: the table of activities and the table of artifacts *)
Definition summarize (below : Z -> bool) (r : results) : table * table :=
  let q := sort_desc q_self_time (query_data r) in
  let f := set_flags (mkFlags false false false false) q in
  (mkTable (filter_cells (columns f)) (summary_rows f below q),
   mkTable [str "Item"; str "Artifact Size"] (map (fun a => [Text (art_label a); Num (art_value a)]) (artifact_sizes r))).

(** [str::contains(&str)] *)
Fixpoint starts_with (p b : bytes) : bool :=
  match p, b with
  | [], _ => true
  | x :: p', y :: b' => (x =? y) && starts_with p' b'
  | _ :: _, [] => false
  end.
Fixpoint str_contains (b p : bytes) : bool :=
  starts_with p b || match b with [] => false | _ :: b' => str_contains b' p end.
(** main.rs:124-127, 152-155 *)
Definition excluded (exclude : list bytes) (label : bytes) : bool := existsb (fun e => str_contains label e) exclude.
(** main.rs:108-163 [diff]: the two tables (percentage columns: see M_Float.v) *)
Definition diff_tables (exclude : list bytes) (d : diff_results) : table * table :=
  (mkTable [str "Item"; str "Self Time"; str "Time"; str "Item count"; str "Cache hits"; str "Blocked time"; str "Incremental load time"; str "Incremental hashing time"]
     (map (fun q => [Text (d_label q); SDur (d_self_time q); SDur (d_time q); SNum (d_count q); SNum (d_hits q); SDur (d_blocked q); SDur (d_load q); SDur (d_hashing q)])
        (filter (fun q => negb (excluded exclude (d_label q))) (dr_query d))),
   mkTable [str "Item"; str "Artifact Size Change"]
     (map (fun a => [Text (ad_label a); SNum (ad_change a)]) (filter (fun a => negb (excluded exclude (ad_label a))) (dr_artifacts d)))).
