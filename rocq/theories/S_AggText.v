(** Specification for C67: what the text of [summarize aggregate] says. *)
From Coq Require Import String ZArith Reals List Lia Bool.
From Flocq Require Import Core BinarySingleNaN.
From Verif Require Import M_Base M_Map M_Raw M_V8 M_Analysis S_Crox S_Tools S_Float S_Text M_Aggregate S_Aggregate S_Extrema.
Import ListNotations.
Open Scope Z_scope.

(** ** Events and intervals *)
Fixpoint separated (l : list bytes) (txt : bytes) : Prop :=
  match l with
  | [] => txt = []
  | [x] => txt = x
  | x :: l' => exists t, separated l' t /\ txt = x ++ str ", " ++ t
  end.
(** an event: its kind unless it is a query or a generic activity, its label, its arguments *)
Definition event_named (d : desc) (txt : bytes) : Prop :=
  exists kind args, separated (de_args d) args /\ txt = kind ++ str "`" ++ de_label d ++ str "(" ++ args ++ str ")`" /\
    (de_kind d = str "Query" \/ de_kind d = str "GenericActivity" -> kind = []) /\
    (de_kind d <> str "Query" /\ de_kind d <> str "GenericActivity" -> kind = de_kind d ++ str " ").
(** an interval between two neighbouring sample points, the earlier one first *)
Inductive interval_named : descriptions -> bytes -> Prop :=
| in_whole e par t : event_named e t ->
    interval_named (mkSI (SStart (mkW e par)) (SEnd (mkW e par))) t
| in_before outer inner par p t u : p = SStart (mkW inner (Some outer)) \/ p = SInstant (mkW inner (Some outer)) ->
    event_named outer t -> event_named inner u ->
    interval_named (mkSI (SStart (mkW outer par)) p) (str "in " ++ t ++ str ", before " ++ u)
| in_after outer inner par p t u : p = SEnd (mkW inner (Some outer)) \/ p = SInstant (mkW inner (Some outer)) ->
    event_named outer t -> event_named inner u ->
    interval_named (mkSI p (SEnd (mkW outer par))) (str "in " ++ t ++ str ", after " ++ u)
| in_between outer a b p q t u v : p = SEnd (mkW a (Some outer)) \/ p = SInstant (mkW a (Some outer)) ->
    q = SStart (mkW b (Some outer)) \/ q = SInstant (mkW b (Some outer)) ->
    event_named outer t -> event_named a u -> event_named b v ->
    interval_named (mkSI p q) (str "in " ++ t ++ str "," ++ [10] ++ str "    between " ++ u ++ [10] ++ str "        and " ++ v ++ [10])
| in_top a b p q u v : p = SEnd (mkW a None) \/ p = SInstant (mkW a None) -> q = SStart (mkW b None) \/ q = SInstant (mkW b None) ->
    event_named a u -> event_named b v ->
    interval_named (mkSI p q) (str "between " ++ u ++ str " and " ++ v).
(** what is said of the [n] intervals that have a value in common: the only one, or how many they are and which share *)
Definition sources_named (n : Z) (s : sources descriptions) (txt : bytes) : Prop :=
  match s with
  | SEmpty => False
  | SOne d => interval_named d txt
  | SCount c => exists ct pt, numeral ct c /\ says_real 2 (/ 200 + / 2 ^ 50 * share n c) pt (share n c) /\ txt = ct ++ str " occurrences, or " ++ pt ++ str "%"
  end.

(** ** Half a duration *)
(** [txt] is the decimal text of [k / 2], exactly *)
Definition exact_half (k : Z) (txt : bytes) : Prop := exists i, numeral i (k / 2) /\ txt = if Z.even k then i else i ++ str ".5".
(** [txt] is a decimal number that is [r] up to [err] *)
Definition says_near (err : R) (txt : bytes) (r : R) : Prop :=
  exists i f, txt = number_text i f /\ decimal_number i f /\ (Rabs (IZR (denotes (i ++ f)) / IZR (10 ^ zlen f) - r) <= err)%R.
Definition half_says (k : Z) (txt : bytes) : Prop :=
  (k < 2 ^ 53 -> exact_half k txt) /\ says_near (/ 2 ^ 50 * IZR k / 2) txt (IZR k / 2).

(** ** The report *)
Definition table_says (which what : bytes) (value_says : Z -> bytes -> Prop) (n : Z) (t : list (Z * sources descriptions)) (txt : bytes) : Prop :=
  exists c ls, numeral c (zlen t) /\ txt = which ++ str " " ++ c ++ str " " ++ what ++ str ":" ++ [10] ++ concat ls /\
    Forall2 (fun x l => exists v d, value_says (fst x) v /\ sources_named n (snd x) d /\ l = str "  " ++ v ++ str " ns: " ++ d ++ [10]) t ls.
Definition plus_minus (k : Z) (txt : bytes) : Prop := exists t, half_says k t /\ txt = [194; 177] ++ t.
Definition report_says (aggs : list agg) (txt : bytes) : Prop :=
  let n := zlen aggs in
  exists t1 t2 t3 t4 x1 x2 x3 x4, txt = x1 ++ [10] ++ x2 ++ [10] ++ x3 ++ [10] ++ x4 /\
    smallest_table 10 (map (fun a => (ag_min a, ag_desc a)) aggs) t1 /\ table_says (str "Smallest") (str "durations") (fun v t => numeral t v) n t1 x1 /\
    largest_table 10 (map (fun a => (ag_min a + ag_range a, ag_desc a)) aggs) t2 /\ table_says (str "Largest") (str "durations") (fun v t => numeral t v) n t2 x2 /\
    smallest_table 10 (map (fun a => (ag_range a, ag_desc a)) aggs) t3 /\ table_says (str "Smallest") (str "variances") plus_minus n t3 x3 /\
    largest_table 10 (map (fun a => (ag_range a, ag_desc a)) aggs) t4 /\ table_says (str "Largest") (str "variances") plus_minus n t4 x4.

(** ** The contract of [{}] for a non-negative [f64] (Rust standard library) *)
(** the decimal number [d * 10 ^ e] *)
Definition dec (d e : Z) : R := (IZR d * powerRZ 10 e)%R.
(** [r] is read back as [x] *)
Definition reads_as (r : R) (x : binary_float 53 1024) : Prop := round radix2 (FLT_exp (-1074) 53) ZnearestE r = B2R x.
(** a decimal number without exponent and without superfluous zeros, that has as few digits as possible among those
    that are read back as [x] and, among the ones with that many digits, is nearest to [x] *)
Definition displays (x : binary_float 53 1024) (txt : bytes) : Prop :=
  exists i f d e, txt = number_text i f /\ decimal_number i f /\ (f = [] \/ exists f' c, f = f' ++ [c] /\ c <> 48) /\
    0 <= d /\ (IZR (denotes (i ++ f)) / IZR (10 ^ zlen f))%R = dec d e /\ reads_as (dec d e) x /\
    forall d' e', 0 <= d' -> reads_as (dec d' e') x ->
      (forall n, 0 <= n -> d' < 10 ^ n -> d < 10 ^ n) /\
      ((forall n, 0 <= n -> d < 10 ^ n -> d' < 10 ^ n) -> (Rabs (dec d e - B2R x) <= Rabs (dec d' e' - B2R x))%R).
