(** Model of the text of durations and percentages as summarize prints them: summarize/src/main.rs (cited as main.rs),
    summarize/src/diff.rs (cited as diff.rs), and the formatting of [Duration] and [f64] by the Rust standard library
    (library/core/src/time.rs and library/core/src/fmt/float.rs).

    [ties_even]: versions of the standard library differ in how they round a value half way between two texts. *)
From Coq Require Import String ZArith List Lia Bool.
From Flocq Require Import BinarySingleNaN.
From Verif Require Import M_Base M_V8 M_Map M_Crox M_Analysis M_Diff M_Summarize M_Float M_DiffJson.
Import ListNotations.
Open Scope Z_scope.

Section Std.
Variable ties_even : bool.
(** core time.rs [fmt_decimal]: the loop that fills [buf]; the digits, the rest and the divisor it ends with *)
Fixpoint frac_digits (room : nat) (frac divisor : Z) : bytes * Z * Z :=
  match room with
  | O => ([], frac, divisor)
  | S room' => if 0 <? frac
               then let '(ds, r, d) := frac_digits room' (frac mod divisor) (divisor / 10) in ((48 + frac / divisor) :: ds, r, d)
               else ([], frac, divisor)
  end.
(** the loop that rounds up; true: the carry goes to the integer part *)
Fixpoint round_up (ds : bytes) : bytes * bool :=
  match ds with
  | [] => ([], true)
  | d :: t => let '(t', carry) := round_up t in
              if carry then if d <? 57 then (d + 1 :: t', false) else (48 :: t', true) else (d :: t', false)
  end.
(** core time.rs [fmt_decimal], without the padding to a width *)
Definition fmt_decimal (precision : option nat) (integer frac divisor : Z) (postfix : bytes) : bytes :=
  let room := match precision with Some p => Nat.min p 9 | None => 9%nat end in
  let '(ds, r, d) := frac_digits room frac divisor in
  let tie_down := ties_even && (r =? d * 5) && Z.even (last ds integer) in
  let '(ds, integer) :=
    if (0 <? r) && (d * 5 <=? r) && negb tie_down
    then let '(ds', carry) := round_up ds in (ds', if carry then integer + 1 else integer) else (ds, integer) in
  let width := match precision with Some p => p | None => List.length ds end in
  decimal integer ++ (match width with O => [] | S _ => 46 :: ds ++ repeat 48 (width - List.length ds) end) ++ postfix.
(** core time.rs [Debug for Duration]: [{:?}] and [{:.p?}] *)
Definition duration_text (precision : option nat) (ns : Z) : bytes :=
  let secs := ns / 1000000000 in
  let nanos := ns mod 1000000000 in
  if 0 <? secs then fmt_decimal precision secs nanos 100000000 (str "s")
  else if 1000000 <=? nanos then fmt_decimal precision (nanos / 1000000) (nanos mod 1000000) 100000 (str "ms")
  else if 1000 <=? nanos then fmt_decimal precision (nanos / 1000) (nanos mod 1000) 100 [194; 181; 115]
  else fmt_decimal precision nanos 0 1 (str "ns").
(** diff.rs:268-278 [Debug for SignedDuration]: the precision given to it is not passed on *)
Definition signed_text (precision : option nat) (d : sdur) : bytes :=
  (if sd_is_positive d then [43] else [45]) ++ duration_text None (sd_duration d).

(** [num / den], to the nearest integer *)
Definition round_div (num den : Z) : Z :=
  let q := num / den in let r := num mod den in
  if (2 * r <? den) || ((2 * r =? den) && ties_even && Z.even q) then q else q + 1.
(** the [p] digits of [n < 10^p] *)
Fixpoint fixed_digits (p : nat) (n : Z) : bytes :=
  match p with O => [] | S p' => fixed_digits p' (n / 10) ++ [48 + n mod 10] end.
(** core fmt/float.rs: [{:.p}] and [{:+.p}] of an [f64] *)
Definition f64_text (plus : bool) (p : nat) (x : f64) : bytes :=
  let sgn (s : bool) := if s then [45] else if plus then [43] else [] in
  let scaled := fun n => decimal (n / 10 ^ Z.of_nat p) ++ (match p with O => [] | S _ => 46 :: fixed_digits p (n mod 10 ^ Z.of_nat p) end) in
  match x with
  | B754_nan => str "NaN"
  | B754_infinity s => sgn s ++ str "inf"
  | B754_zero s => sgn s ++ scaled 0
  | B754_finite s m e _ =>
      sgn s ++ scaled (if 0 <=? e then Z.pos m * 2 ^ e * 10 ^ Z.of_nat p else round_div (Z.pos m * 10 ^ Z.of_nat p) (2 ^ (- e)))
  end.
(** [{:+}] of an [i64] *)
Definition signed_int_text (n : Z) : bytes := if n <? 0 then 45 :: decimal (- n) else 43 :: decimal n.

(** ** [summarize summarize] *)
(** main.rs:262-285: the text of one cell *)
Definition cell_text (total : Z) (c : cell) : bytes :=
  match c with
  | Text b => b
  | Dur n => duration_text (Some 2%nat) n
  | Percent self => f64_text false 3 (percent_of total self)
  | Num n => decimal n
  | SDur d => signed_text (Some 2%nat) d
  | SNum n => signed_int_text n
  end.
(** what is printed, the tables by their cells *)
Record summary_out := mkOut { out_activities : list (list bytes); out_total : bytes; out_filtered : option bytes; out_artifacts : list (list bytes) }.
(** main.rs:189-309 *)
Definition summarize_text (percent_above : f64) (r : results) : option summary_out :=
  match summarize_main percent_above r with
  | None => None
  | Some (a, b, s) =>
      Some (mkOut (header a :: map (map (cell_text (total_time r))) (rows a))
              (str "Total cpu time: " ++ duration_text None (total_time r))
              (option_map (fun x => str "Filtered results account for " ++ f64_text false 3 x ++ str "% of total time.") s)
              (header b :: map (fun row => match row with
                                           | [l; n] => [cell_text 0 l; cell_text 0 n ++ str " bytes"]
                                           | _ => [] end) (rows b)))
  end.

(** ** [summarize diff] *)
(** main.rs:123-142 *)
Definition diff_row_text (f : full_row) : list bytes :=
  let r := fr_row f in
  [d_label r; signed_text (Some 2%nat) (d_self_time r); f64_text true 2 (fr_self_time_change f) ++ str "%";
   signed_text (Some 2%nat) (d_time r); f64_text true 2 (fr_time_change f) ++ str "%";
   signed_int_text (d_count r); signed_int_text (d_hits r);
   signed_text (Some 2%nat) (d_blocked r); signed_text (Some 2%nat) (d_load r); signed_text (Some 2%nat) (d_hashing r)].
(** [{}] of an [i64] *)
Definition int_text (n : Z) : bytes := if n <? 0 then 45 :: decimal (- n) else decimal n.
(** main.rs:108-163 *)
Definition diff_text (exclude : list bytes) (d : full_diff) : list (list bytes) * bytes * list (list bytes) :=
  ([str "Item"; str "Self Time"; str "Self Time Change"; str "Time"; str "Time Change"; str "Item count"; str "Cache hits"; str "Blocked time";
    str "Incremental load time"; str "Incremental hashing time"]
     :: map diff_row_text (filter (fun f => negb (excluded exclude (d_label (fr_row f)))) (fd_query d)),
   str "Total cpu time: " ++ signed_text None (fd_total d),
   [str "Item"; str "Artifact Size Change"]
     :: map (fun a => [ad_label a; int_text (ad_change a) ++ str " bytes"]) (filter (fun a => negb (excluded exclude (ad_label a))) (fd_artifacts d))).
(** main.rs:95-165 [diff] without [--json] *)
Definition diff_print (oc : bool) (order : bool -> list bytes -> list bytes) (exclude : list bytes) (base change : results) : res (list (list bytes) * bytes * list (list bytes)) :=
  do d <- full_calculate_diff oc order base change; Ok (diff_text exclude d).
End Std.
