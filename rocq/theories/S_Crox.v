(** Specification for C36 and C37. *)
From Coq Require Import String ZArith List Lia Bool Sorted Permutation.
From Verif Require Import M_Base M_Raw M_V8 M_Map M_Crox.
Import ListNotations.
Open Scope Z_scope.

(** Earliest and latest time at which an event took place (none for integer events). *)
Definition happens (e : event) (lo hi : Z) : Prop :=
  match ev_payload e with
  | Timestamp (Interval a b) => lo = Z.min a b /\ hi = Z.max a b
  | Timestamp (Instant t) => lo = t /\ hi = t
  | Integer _ => False
  end.
(** The thread [tid] is seen from [s] to [f]. *)
Definition alive_span (evs : list event) (tid s f : Z) : Prop :=
  (exists e hi, In e evs /\ ev_thread e = tid /\ happens e s hi) /\
  (exists e lo, In e evs /\ ev_thread e = tid /\ happens e lo f) /\
  (forall e lo hi, In e evs -> ev_thread e = tid -> happens e lo hi -> s <= lo /\ hi <= f).
Definition has_times (evs : list event) (tid : Z) : Prop := exists e lo hi, In e evs /\ ev_thread e = tid /\ happens e lo hi.
Definition alive_at (evs : list event) (t tid : Z) : Prop := exists s f, alive_span evs tid s f /\ s <= t <= f.
(** [n] is the largest number of threads that are alive at the same time. *)
Definition max_alive (evs : list event) (n : Z) : Prop :=
  (exists t tids, NoDup tids /\ zlen tids = n /\ Forall (alive_at evs t) tids) /\
  (forall t tids, NoDup tids -> Forall (alive_at evs t) tids -> zlen tids <= n).

(** ** The export *)
(** Times a [u64] number of microseconds can express, after the epoch, not reversed. *)
Definition exportable (e : event) : Prop :=
  match ev_payload e with Timestamp (Interval a b) => 0 <= a <= b /\ b < 18446744073709551616 * 1000 | _ => True end.
(** The intervals that last at least the minimum (in microseconds). *)
Definition selected (minimum : option Z) (e : event) : bool :=
  match ev_payload e with
  | Timestamp (Interval a b) => match minimum with Some m => m * 1000 <=? b - a | None => true end
  | _ => false
  end.
Definition chrome_record (pid : Z) (tid : Z) (e : event) (r : record) : Prop :=
  exists a b args, ev_payload e = Timestamp (Interval a b) /\
    r = Complete (ev_label e) (ev_kind e) (a / 1000) ((b - a) / 1000) pid tid args /\
    match args with
    | None => ev_args e = []
    | Some m => ev_args e <> [] /\ NoDup (map fst m) /\
        forall k v, In (k, v) m <-> exists i, 0 <= i /\ k = str "arg" ++ decimal i /\ znth i (ev_args e) = Some v
    end.
(** The value a string of decimal digits denotes. *)
Definition denotes (ds : bytes) : Z := fold_left (fun n d => 10 * n + (d - 48)) ds 0.
(** [name] is the word after the first occurrence of [" --crate-name "]. *)
Definition occurs_first (p b : bytes) (pre rest : bytes) : Prop :=
  b = pre ++ p ++ rest /\ forall pre' rest', b = pre' ++ p ++ rest' -> (List.length pre <= List.length pre')%nat.
Definition crate_name_of (cmd name : bytes) : Prop :=
  exists pre rest tail, occurs_first (str " --crate-name ") cmd pre rest /\ rest = name ++ tail /\ ~ In 32 name /\ (tail = [] \/ exists t, tail = 32 :: t).
