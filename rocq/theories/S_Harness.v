(** Specification for C86: what the end-to-end check of the crate accepts. *)
From Coq Require Import ZArith List Lia Bool Permutation.
From Verif Require Import M_Base M_Sink M_Raw M_V8 M_Session S_Session.
Import ListNotations.
Open Scope Z_scope.

(** Same kind of event, same label and arguments; the same number if a number is expected, otherwise only the same sort of time. *)
Inductive agrees (actual expected : payload) : Prop :=
| ag_integer n : actual = Integer n -> expected = Integer n -> agrees actual expected
| ag_interval s e s' e' : actual = Timestamp (Interval s e) -> expected = Timestamp (Interval s' e') -> agrees actual expected
| ag_instant t t' : actual = Timestamp (Instant t) -> expected = Timestamp (Instant t') -> agrees actual expected.
Definition as_expected (a e : event) : Prop :=
  ev_kind a = ev_kind e /\ ev_label a = ev_label e /\ ev_args a = ev_args e /\ agrees (ev_payload a) (ev_payload e).
(** The events of a thread, in order. *)
Definition by_thread (t : Z) (es : list event) : list event := filter (fun e => ev_thread e =? t) es.
(** A hash map yields each of its keys once; whether the order depends on more than the set of keys is up to the hash function. *)
Definition yields_keys (key_order : list Z -> list Z) : Prop := forall l, NoDup l -> Permutation l (key_order l).
Definition same_order (key_order : list Z -> list Z) (keys : list Z) : Prop := forall l, Permutation keys l -> key_order l = key_order keys.
(** The numbers of [n] threads. *)
Definition numbers (n : nat) : list Z := map Z.of_nat (seq 0 n).
(** The largest number that [n] stacks record is 17^3 * 7 * 33 * (n - 1); it has to fit into an event. *)
Definition fits (n : nat) : Prop := (Z.of_nat n - 1) * 1134903 < 2 ^ 48.
(** A counter value that an interval can have. *)
Definition in_time (t : Z) : Prop := 0 <= t <= 2 ^ 48 - 3.
(** A call with arguments of the right types that the profiler does not refuse with a panic. *)
Definition accepted (en : endian) (k : call) : Prop := call_ok k /\ exists o, call_op en k = Ok o.
