(** Specification for C60 and C61: what the percentages of the tables are, in the real numbers. *)
From Coq Require Import ZArith Reals List.
From Flocq Require Import BinarySingleNaN.
Open Scope Z_scope.

(** The values of [std::time::Duration], in nanoseconds *)
Definition is_duration (d : Z) : Prop := 0 <= d < 2 ^ 64 * 10 ^ 9.
Open Scope R_scope.
(** A machine number that is [r] up to a relative error of 2^-50: at least 15 significant decimal digits. *)
Definition shows (x : binary_float 53 1024) (r : R) : Prop := is_finite x = true /\ Rabs (B2R x - r) <= / 2 ^ 50 * Rabs r.
(** The share of [part] in [whole] and the change from [base] to [change], in percent *)
Definition share (whole part : Z) : R := 100 * IZR part / IZR whole.
Definition change_in_percent (base change : Z) : R := 100 * (IZR change - IZR base) / IZR base.
(** The sum of the shares of several parts *)
Definition shares (whole : Z) (parts : list Z) : R := fold_right (fun p s => share whole p + s) 0 parts.
