(** Model of the texts of machine numbers: [{}] of the Rust standard library (core::fmt::float, core::num::flt2dec), used by
    summarize/src/aggregate.rs:558-571 for half the spread of a duration, and ryu as used by serde_json for the percentages of
    summarize/src/diff.rs:119-133 in the file of [--json]; and the way serde_json reads such a number.

    Simplification: the libraries compute the digits with fixed-width approximations (Grisu with Dragon as fallback, Ryu); here the
    digits are generated as Dragon does, with integers. *)
From Coq Require Import String ZArith List Lia Bool.
From Flocq Require Import BinarySingleNaN.
From Verif Require Import M_Base M_Map M_Float M_Crox M_ReadF64.
Import ListNotations.
Open Scope Z_scope.

(** [x / 10 ^ s] for [x = A / B] *)
Definition scaled (A B s : Z) : Z * Z := if 0 <=? s then (A, B * 10 ^ s) else (A * 10 ^ (- s), B).
(** The decimal order of magnitude: the largest [t], from the given one on downwards, with [10 ^ t <= A / B] (estimator.rs) *)
Fixpoint top (fuel : nat) (A B t : Z) : Z :=
  match fuel with
  | O => t
  | S f => let '(n, d) := scaled A B t in if d <=? n then t else top f A B (t - 1)
  end.
(** Whether the decimal number [d * 10 ^ s] is read as [x] *)
Definition reads (x : f64) (d s : Z) : bool := match Bcompare (of_decimal false d s) x with Some Eq => true | _ => false end.
(** dragon.rs [format_shortest]: digit by digit until what has been generated, or the next larger number with as many digits, is read
    as [x]; if both are, the nearer one *)
Fixpoint search (fuel : nat) (x : f64) (A B s : Z) : Z * Z :=
  match fuel with
  | O => (0, s)
  | S f =>
      let '(n, d) := scaled A B s in
      let lo := n / d in
      let down := reads x lo s in
      let up := reads x (lo + 1) s in
      if up && (negb down || (d <=? 2 * (n mod d))) then (lo + 1, s)
      else if down then (lo, s)
      else search f x A B (s - 1)
  end.
(** The shortest decimal number [d * 10 ^ s] for [m * 2 ^ e] *)
Definition shortest (m : positive) (e : Z) (x : f64) : Z * Z :=
  let A := Zpos m * 2 ^ Z.max 0 e in
  let B := 2 ^ Z.max 0 (- e) in
  let t := top 633 A B 308 in
  let '(d, s) := search (Z.to_nat (t - Z.min 0 e + 1)) x A B t in
  if d =? 10 then (1, s + 1) else (d, s).

(** The digits of a positive number *)
Definition digits_of (n : Z) : bytes := digits_fuel (S (Z.to_nat (Z.log2 n))) n [].
Definition zeros_text (n : Z) : bytes := repeat 48 (Z.to_nat n).
(** flt2dec/mod.rs [digits_to_dec_str] without a minimal number of fractional digits *)
Definition positional (d s : Z) : bytes :=
  let ds := digits_of d in
  let k := zlen ds + s in
  if k <=? 0 then str "0." ++ zeros_text (- k) ++ ds
  else if k <? zlen ds then ztake k ds ++ str "." ++ zdrop k ds
  else ds ++ zeros_text (k - zlen ds).
Definition minus (neg : bool) : bytes := if neg then str "-" else [].
(** [impl Display for f64] *)
Definition show_f64 (x : f64) : bytes :=
  match x with
  | B754_nan => str "NaN"
  | B754_infinity neg => minus neg ++ str "inf"
  | B754_zero neg => minus neg ++ str "0"
  | B754_finite neg m e H => let '(d, s) := shortest m e (B754_finite false m e H) in minus neg ++ positional d s
  end.
(** ryu pretty/mod.rs [format64], exponent.rs *)
Definition exponent_text (k : Z) : bytes := if k <? 0 then str "-" ++ digits_of (- k) else digits_of k.
Definition ryu (d s : Z) : bytes :=
  let ds := digits_of d in
  let k := zlen ds + s in
  if (0 <=? s) && (k <=? 16) then ds ++ zeros_text s ++ str ".0"
  else if (0 <? k) && (k <=? 16) then ztake k ds ++ str "." ++ zdrop k ds
  else if (-5 <? k) && (k <=? 0) then str "0." ++ zeros_text (- k) ++ ds
  else if zlen ds =? 1 then ds ++ str "e" ++ exponent_text (k - 1)
  else ztake 1 ds ++ str "." ++ zdrop 1 ds ++ str "e" ++ exponent_text (k - 1).
(** serde_json ser.rs [serialize_f64] for a finite number *)
Definition json_f64 (x : f64) : bytes :=
  match x with
  | B754_finite neg m e H => let '(d, s) := shortest m e (B754_finite false m e H) in minus neg ++ ryu d s
  | B754_zero neg => minus neg ++ str "0.0"
  | _ => []
  end.
