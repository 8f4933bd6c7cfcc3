(** Model of [f64::from_str] of the Rust standard library (core::num::dec2flt: parse.rs, lib: mod.rs), which clap uses for
    [--percent-above] of summarize/src/main.rs:38-47.

    Simplifications: the library computes with approximations and falls back to exact arithmetic, here the arithmetic is exact; it
    stops reading an exponent beyond 65535 (which matters only for numbers with that many digits). *)
From Coq Require Import String ZArith List Lia Bool.
From Flocq Require Import BinarySingleNaN.
From Verif Require Import M_Base M_Map M_Float M_Cli.
Import ListNotations.
Open Scope Z_scope.

(** parse.rs [try_parse_digits]: the leading digits, and what follows *)
Fixpoint take_digits (b : bytes) : bytes * bytes :=
  match b with
  | c :: b' => if (48 <=? c) && (c <=? 57) then let '(d, r) := take_digits b' in (c :: d, r) else ([], b)
  | [] => ([], b)
  end.
Definition value_of (ds : bytes) : Z := fold_left (fun a c => 10 * a + (c - 48)) ds 0.
(** parse.rs [parse_scientific]: what follows the [e] *)
Definition read_exponent (b : bytes) : option Z :=
  let '(s, r) := sign b in
  match unsigned r with
  | Some n => Some (match s with Some false => - n | _ => n end)
  | None => None
  end.
(** parse.rs [parse_partial_number], [parse_number]: mantissa and power of ten *)
Definition read_number (b : bytes) : option (Z * Z) :=
  let '(i, r) := take_digits b in
  let '(f, r) := match r with c :: r' => if c =? 46 then take_digits r' else ([], r) | [] => ([], r) end in
  match i ++ f with
  | [] => None
  | ds =>
      match r with
      | [] => Some (value_of ds, - zlen f)
      | c :: r' =>
          if (c =? 101) || (c =? 69) then
            match read_exponent r' with Some x => Some (value_of ds, x - zlen f) | None => None end
          else None
      end
  end.
(** parse.rs [parse_inf_nan]: letters of either case *)
Definition lower (c : Z) : Z := if (65 <=? c) && (c <=? 90) then c + 32 else c.
Definition read_inf_nan (neg : bool) (b : bytes) : option f64 :=
  let b := map lower b in
  if beq b (str "nan") then Some B754_nan
  else if beq b (str "inf") || beq b (str "infinity") then Some (B754_infinity neg)
  else None.

(** The machine number nearest to [m / n], ties to even, infinity if it is too large *)
Definition ratio (neg : bool) (m n : positive) : f64 :=
  SF2B _ (proj1 (Bdiv_correct_aux 53 1024 prec_pos prec_small mode_NE neg m 0 false n 0)).
(** ... to [m * 10 ^ e] *)
Definition of_decimal (neg : bool) (m e : Z) : f64 :=
  match m with
  | Zpos p => if 0 <=? e then ratio neg (Z.to_pos (m * 10 ^ e)) 1 else ratio neg p (Z.to_pos (10 ^ (- e)))
  | _ => B754_zero neg
  end.
(** mod.rs [dec2flt] *)
Definition read_f64 (b : bytes) : option f64 :=
  let '(s, r) := sign b in
  let neg := match s with Some false => true | _ => false end in
  match read_number r with
  | Some (m, e) => Some (of_decimal neg m e)
  | None => read_inf_nan neg r
  end.
