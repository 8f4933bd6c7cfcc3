(** Specification for C83: decimal numbers, and the machine number nearest to one. *)
From Coq Require Import String ZArith Reals List Lia Bool.
From Flocq Require Import Core BinarySingleNaN.
From Verif Require Import M_Base M_Map.
Import ListNotations.
Open Scope Z_scope.

(** A digit, and the value of several. *)
Definition is_digits (ds : bytes) : Prop := Forall (fun c => 48 <= c <= 57) ds.
Definition worth (ds : bytes) : Z := fold_left (fun n c => 10 * n + (c - 48)) ds 0.
(** An optional sign. *)
Definition signed (s : bytes) (negative : bool) : Prop := negative = false /\ (s = [] \/ s = str "+") \/ negative = true /\ s = str "-".
(** [ddd], [ddd.], [.ddd], [ddd.ddd] *)
Definition plain_decimal (i f text : bytes) : Prop :=
  is_digits i /\ is_digits f /\ i ++ f <> [] /\ (f = [] /\ text = i \/ text = i ++ str "." ++ f).
(** Nothing, or [e] or [E] and an integer. *)
Definition exponent_part (text : bytes) (n : Z) : Prop :=
  text = [] /\ n = 0 \/
  exists e s negative ds, (e = str "e" \/ e = str "E") /\ signed s negative /\ is_digits ds /\ ds <> [] /\ text = e ++ s ++ ds /\
    n = if negative then - worth ds else worth ds.
(** [text] is a decimal number with that sign and the absolute value [d * 10 ^ e]. *)
Definition decimal_text (text : bytes) (negative : bool) (d e : Z) : Prop :=
  exists s i f body x n, signed s negative /\ plain_decimal i f body /\ exponent_part x n /\ text = s ++ body ++ x /\ d = worth (i ++ f) /\ e = n - zlen f.
(** The real number. *)
Definition decimal_value (negative : bool) (d e : Z) : R := ((if negative then -1 else 1) * (IZR d * powerRZ 10 e))%R.
(** The letters of a word in either case. *)
Definition same_letters (word text : bytes) : Prop := Forall2 (fun a c => c = a \/ c = a - 32) word text.
(** The nearest machine number (of two equally near the one with an even mantissa), infinity from the number on that would be 2^1024. *)
Definition nearest_f64 (r : R) (negative : bool) (x : binary_float 53 1024) : Prop :=
  let n := round radix2 (FLT_exp (-1074) 53) ZnearestE r in
  ((Rabs n < bpow radix2 1024)%R -> is_finite x = true /\ B2R x = n /\ Bsign x = negative) /\
  ((bpow radix2 1024 <= Rabs n)%R -> x = B754_infinity negative).
(** The number a text stands for. *)
Definition stands_for (text : bytes) (x : binary_float 53 1024) : Prop :=
  (exists negative d e, decimal_text text negative d e /\ nearest_f64 (decimal_value negative d e) negative x) \/
  (exists s negative w word, signed s negative /\ text = s ++ w /\ (word = "inf" \/ word = "infinity")%string /\ same_letters (str word) w /\ x = B754_infinity negative) \/
  (exists s negative w, signed s negative /\ text = s ++ w /\ same_letters (str "nan") w /\ x = B754_nan).
