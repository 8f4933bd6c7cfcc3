(** Model of the text printed by [summarize aggregate]: summarize/src/aggregate.rs (cited as aggregate.rs) over the
    tables of M_Aggregate.v.

    [ties_even] as in M_Text.v; [display]: the text [{}] of an [f64] (library/core/src/fmt/float.rs), a parameter.
    When describing an entry panics nothing is modelled of what was printed before. *)
From Coq Require Import String ZArith List Lia Bool.
From Flocq Require Import BinarySingleNaN.
From Verif Require Import M_Base M_Raw M_V8 M_Map M_Crox M_Analysis M_Diff M_Float M_Text M_Aggregate.
Import ListNotations.
Open Scope Z_scope.

Section Print.
Variable ties_even : bool.
Variable display : f64 -> bytes.
(** aggregate.rs:535-542: the text of a count; [percent_of] is the same expression *)
Definition described_text (d : described) : bytes :=
  match d with
  | Text b => b
  | Occurrences count intervals => decimal count ++ str " occurrences, or " ++ f64_text ties_even false 2 (percent_of intervals count) ++ str "%"
  end.
(** aggregate.rs:558, 567: [range_size.as_nanos() as f64 / 2.0] *)
Definition half (range : Z) : f64 := f64_div (of_int range) (of_int 2).
(** aggregate.rs:545-548, 550-553: one table of durations *)
Definition duration_lines (which : bytes) (t : list (Z * described)) : bytes :=
  which ++ str " " ++ decimal (zlen t) ++ str " durations:" ++ [10] ++
  concat (map (fun x => str "  " ++ decimal (fst x) ++ str " ns: " ++ described_text (snd x) ++ [10]) t).
(** aggregate.rs:555-562, 564-571: one table of variances; the sign is U+00B1 *)
Definition variance_lines (which : bytes) (t : list (Z * described)) : bytes :=
  which ++ str " " ++ decimal (zlen t) ++ str " variances:" ++ [10] ++
  concat (map (fun x => str "  " ++ [194; 177] ++ display (half (fst x)) ++ str " ns: " ++ described_text (snd x) ++ [10]) t).
(** aggregate.rs:545-572 *)
Definition report_text (r : report) : bytes :=
  duration_lines (str "Smallest") (r_small_dur r) ++ [10] ++ duration_lines (str "Largest") (r_large_dur r) ++ [10] ++
  variance_lines (str "Smallest") (r_small_var r) ++ [10] ++ variance_lines (str "Largest") (r_large_var r).
(** aggregate.rs:476-573 [aggregate_profiles], as seen on the standard output *)
Definition aggregate_prints (oc : bool) (profiles : list (list event)) (out : res bytes) : Prop :=
  exists r, aggregate_profiles oc profiles r /\ out = (do r <- r; Ok (report_text r)).
End Print.
