(** Specification for C64 to C66: what a printed duration, percentage or difference says. *)
From Coq Require Import String ZArith Reals List Lia Bool.
From Flocq Require Import BinarySingleNaN.
From Verif Require Import M_Base M_Map S_Crox S_Tools M_Analysis M_Diff M_Summarize S_Diff S_Float.
Import ListNotations.
Open Scope Z_scope.

(** A number in decimal: [i], or [i.f].  [denotes (i ++ f)] is its value times [10 ^ zlen f]. *)
Definition number_text (i f : bytes) : bytes := i ++ match f with [] => [] | _ => 46 :: f end.
Definition decimal_number (i f : bytes) : Prop := numeral i (denotes i) /\ Forall (fun c => 48 <= c <= 57) f.

(** ** Durations, in nanoseconds *)
Definition duration_units : list (bytes * Z) := [(str "ns", 1); ([194; 181; 115], 1000); (str "ms", 1000000); (str "s", 1000000000)].
(** the largest unit that is not larger than the duration *)
Definition fitting_unit (ns unit : Z) : Prop := (unit <= ns \/ unit = 1) /\ forall u v, In (u, v) duration_units -> v <= ns -> v <= unit.
(** [text] is exactly [ns] nanoseconds, in as few digits as possible *)
Definition says_exactly (text : bytes) (ns : Z) : Prop :=
  exists i f u unit, text = number_text i f ++ u /\ In (u, unit) duration_units /\ decimal_number i f /\ fitting_unit ns unit /\
    denotes (i ++ f) * unit = ns * 10 ^ zlen f /\ (f = [] \/ exists f' c, f = f' ++ [c] /\ c <> 48).
(** [text] is the number with [digits] decimal places nearest to [ns] nanoseconds *)
Definition says_rounded (digits : Z) (text : bytes) (ns : Z) : Prop :=
  exists i f u unit, text = number_text i f ++ u /\ In (u, unit) duration_units /\ decimal_number i f /\ fitting_unit ns unit /\
    zlen f = digits /\ 2 * Z.abs (denotes (i ++ f) * unit - ns * 10 ^ digits) <= unit.
(** a difference: its sign and its exact magnitude; zero has either sign *)
Definition says_signed (text : bytes) (ns : Z) : Prop :=
  exists sgn t, text = sgn :: t /\ says_exactly t (Z.abs ns) /\ (sgn = 43 /\ 0 <= ns \/ sgn = 45 /\ ns <= 0).
(** a count or size with its sign *)
Definition says_signed_int (text : bytes) (n : Z) : Prop := exists sgn t, text = sgn :: t /\ numeral t (Z.abs n) /\ (sgn = 43 /\ 0 <= n \/ sgn = 45 /\ n < 0).

(** ** Percentages *)
(** [text] is, up to an error of [err], the real number [r], with [digits] decimal places *)
Definition says_real (digits : Z) (err : R) (text : bytes) (r : R) : Prop :=
  exists i f, text = number_text i f /\ decimal_number i f /\ zlen f = digits /\ (Rabs (IZR (denotes (i ++ f)) / IZR (10 ^ digits) - r) <= err)%R.
(** what a cell of the summary says; [total]: the total time of the profile *)
Definition cell_says (total : Z) (c : cell) (text : bytes) : Prop :=
  match c with
  | Text b => text = b
  | Dur ns => says_rounded 2 text ns
  | Num n => numeral text n
  | Percent self =>
      (0 < total -> says_real 3 (/ 2000 + / 2 ^ 50 * share total self) text (share total self)) /\
      (total = 0 -> text = if self =? 0 then str "NaN" else str "inf")
  | SDur d => says_signed text (as_nanos d)
  | SNum n => says_signed_int text n
  end.
(** results as an analysis can yield them *)
Definition row_valid (q : qdata) : Prop :=
  is_duration (q_time q) /\ is_duration (q_self_time q) /\ is_duration (q_blocked q) /\ is_duration (q_load q) /\ is_duration (q_hashing q) /\ 0 <= q_hits q /\ 0 <= q_count q.
Definition results_valid (r : results) : Prop :=
  is_duration (total_time r) /\ Forall row_valid (query_data r) /\ Forall (fun a => 0 <= art_value a) (artifact_sizes r).
(** the percentage by which [field] of the activity [l] changed, with its sign *)
Definition percent_says (field : qdata -> Z) (base change : list qdata) (l text : bytes) : Prop :=
  match entry q_label base l, entry q_label change l with
  | Some b, Some c =>
      let pct := Rabs (change_in_percent (field b) (field c)) in
      (0 < field b -> exists sgn t, text = sgn :: t ++ str "%" /\ says_real 2 (/ 200 + / 2 ^ 50 * pct) t pct /\
         (sgn = 43 /\ field b <= field c \/ sgn = 45 /\ field c < field b)) /\
      (field b = 0 -> text = if field c =? 0 then str "NaN%" else str "+inf%")
  | Some _, None => text = str "-100.00%"
  | None, _ => text = str "+inf%"
  end.
(** the row of the activity [l] *)
Definition diff_row_says (base change : list qdata) (l : bytes) (row : list bytes) : Prop :=
  let D field := delta q_label field base change l in
  exists self selfp time timep count hits blocked load hashing,
    row = [l; self; selfp; time; timep; count; hits; blocked; load; hashing] /\
    says_signed self (D q_self_time) /\ percent_says q_self_time base change l selfp /\
    says_signed time (D q_time) /\ percent_says q_time base change l timep /\
    says_signed_int count (D q_count) /\ says_signed_int hits (D q_hits) /\
    says_signed blocked (D q_blocked) /\ says_signed load (D q_load) /\ says_signed hashing (D q_hashing).
(** the row of the artifact [l] *)
Definition diff_artifact_says (base change : list artifact) (l : bytes) (row : list bytes) : Prop :=
  let n := delta art_label art_value base change l in
  exists t, row = [l; (if n <? 0 then [45] else []) ++ t ++ str " bytes"] /\ numeral t (Z.abs n).
