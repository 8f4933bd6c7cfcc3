(** The [f64] computations of summarize/src/main.rs (cited as main.rs) and summarize/src/diff.rs (cited as
    diff.rs), in IEEE 754 binary64 arithmetic, round to nearest, ties to even (Flocq).  NaN payloads, which
    no operation here shows, are not distinguished. *)
From Coq Require Import ZArith List Bool.
From Flocq Require Import BinarySingleNaN.
From Verif Require Import M_Base M_Map M_Analysis M_Diff M_Summarize.
Import ListNotations.
Open Scope Z_scope.

Notation f64 := (binary_float 53 1024).
#[export] Instance prec_pos : FLX.Prec_gt_0 53 := eq_refl.
#[export] Instance prec_small : Prec_lt_emax 53 1024 := eq_refl.
(** [n as f64] for a [u128] or [i128], and literals *)
Definition of_int (n : Z) : f64 := binary_normalize 53 1024 prec_pos prec_small mode_NE n 0 false.
Definition f64_add (x y : f64) : f64 := Bplus mode_NE x y.
Definition f64_mul (x y : f64) : f64 := Bmult mode_NE x y.
Definition f64_div (x y : f64) : f64 := Bdiv mode_NE x y.
Definition f64_lt (x y : f64) : bool := Bltb x y.
(** [!=] is true on NaN *)
Definition f64_ne (x y : f64) : bool := negb (Beqb x y).
Definition f64_infinity : f64 := B754_infinity false.

(** main.rs:249, 253: the percentage of a row of the summary *)
Definition percent_of (total self : Z) : f64 := f64_mul (f64_div (of_int self) (of_int total)) (of_int 100).
(** main.rs:254: [curr_percent < percent_above] *)
Definition below (percent_above : f64) (total self : Z) : bool := f64_lt (percent_of total self) percent_above.
(** main.rs:250-258: the sum of the percentages of the rows shown *)
Fixpoint account (percent_above : f64) (total : Z) (acc : f64) (l : list qdata) : f64 :=
  match l with
  | [] => acc
  | q :: l' => if below percent_above total (q_self_time q) then acc else account percent_above total (f64_add acc (percent_of total (q_self_time q))) l'
  end.
(** main.rs:167-311 [summarize] without [--json]: exit code 1 (None), or the two tables and the percentage of
    the line "Filtered results account for", if printed *)
Definition summarize_main (percent_above : f64) (r : results) : option (table * table * option f64) :=
  if f64_lt (of_int 100) percent_above then None
  else if f64_lt percent_above (of_int 0) then None
  else Some (summarize (below percent_above (total_time r)) r,
             if f64_ne percent_above (of_int 0) then Some (account percent_above (total_time r) (of_int 0) (sort_desc q_self_time (query_data r))) else None).

(** diff.rs:127-130 [percentage_change] *)
Definition percentage_change (base change : Z) : f64 := f64_mul (f64_div (of_int (change - base)) (of_int base)) (of_int 100).
(** diff.rs:53-63, 136-140, 160-162, 178-180: the percentage of [field] in the row of label [l] *)
Definition row_percent (field : qdata -> Z) (base change : list qdata) (l : bytes) : res f64 :=
  do b <- lookup_get (build_lookup q_label base) base l;
  do c <- lookup_get (build_lookup q_label change) change l;
  match b, c with
  | Some b, Some c => Ok (percentage_change (field b) (field c))
  | Some _, None => Ok (of_int (-100))
  | None, Some _ => Ok f64_infinity
  | None, None => Panic
  end.
