(** Specification for C63: what the file of [summarize diff --json] says. *)
From Coq Require Import String ZArith List Lia Bool.
From Flocq Require Import BinarySingleNaN.
From Verif Require Import M_Base M_Map M_Analysis M_Metadata S_Utf8 S_Json S_Diff.
Import ListNotations.
Open Scope Z_scope.

(** [n] nanoseconds *)
Definition duration_object (n : Z) (o : json) : Prop := object_with o [(str "secs", JInt (n / 1000000000)); (str "nanos", JInt (n mod 1000000000))].
(** a difference of [n] nanoseconds; zero has either sign *)
Definition signed_object (n : Z) (o : json) : Prop :=
  exists d positive, object_with o [(str "duration", d); (str "is_positive", JBool positive)] /\ duration_object (Z.abs n) d /\
    (0 < n -> positive = true) /\ (n < 0 -> positive = false).
(** a percentage: a number, printed by [fmt], or [null] *)
Definition percent_value (fmt : binary_float 53 1024 -> bytes) (x : binary_float 53 1024) (o : json) : Prop :=
  if is_finite x then o = JFloat (fmt x) else o = JNull.
(** the row of label [l]; [time_percent], [self_percent]: its percentages (see C60) *)
Definition row_object (fmt : binary_float 53 1024 -> bytes) (base change : list qdata) (l : bytes) (time_percent self_percent : binary_float 53 1024) (o : json) : Prop :=
  let D field := delta q_label field base change l in
  exists t tp s sp b ld h,
    object_with o [(str "label", JStr l); (str "time", t); (str "time_change", tp); (str "self_time", s); (str "self_time_change", sp);
                   (str "number_of_cache_misses", JInt (D q_misses)); (str "number_of_cache_hits", JInt (D q_hits)); (str "invocation_count", JInt (D q_count));
                   (str "blocked_time", b); (str "incremental_load_time", ld); (str "incremental_hashing_time", h)] /\
    signed_object (D q_time) t /\ percent_value fmt time_percent tp /\ signed_object (D q_self_time) s /\ percent_value fmt self_percent sp /\
    signed_object (D q_blocked) b /\ signed_object (D q_load) ld /\ signed_object (D q_hashing) h.
Definition artifact_object (base change : list artifact) (l : bytes) (o : json) : Prop :=
  object_with o [(str "label", JStr l); (str "size_change", JInt (delta art_label art_value base change l))].
(** the labels are Rust strings *)
Definition labels_ok (r : results) : Prop := Forall (fun q => utf8 (q_label q)) (query_data r) /\ Forall (fun a => utf8 (art_label a)) (artifact_sizes r).
(** every label of [change] is one of [base], with times that are not zero there *)
Definition comparable (base change : list qdata) : Prop :=
  forall l, In l (map q_label change) -> exists b, entry q_label base l = Some b /\ 0 < q_time b /\ 0 < q_self_time b.
