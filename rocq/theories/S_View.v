(** Specification for C88: what can be read off the text that mmview prints. *)
From Coq Require Import ZArith List Lia Bool.
From Verif Require Import M_Base M_Raw M_V8.
Import ListNotations.
Open Scope Z_scope.

(** Two events, of recordings that start at [t0] and [t0'], with the same kind, label and thread and
    the same sort of payload with the same numbers (times in whole microseconds since the start, an
    end before the start counting as 0). *)
Definition looks_alike (t0 t0' : Z) (e e' : event) : Prop :=
  ev_kind e = ev_kind e' /\ ev_label e = ev_label e' /\ ev_thread e = ev_thread e' /\
  match ev_payload e, ev_payload e' with
  | Timestamp (Instant t), Timestamp (Instant t') => (t - t0) / 1000 = (t' - t0') / 1000
  | Timestamp (Interval a b), Timestamp (Interval a' b') =>
      (a - t0) / 1000 = (a' - t0') / 1000 /\ Z.max 0 (b - t0) / 1000 = Z.max 0 (b' - t0') / 1000
  | Integer i, Integer i' => i = i'
  | _, _ => False
  end.
(** No text of the event contains a line feed. *)
Definition one_line (e : event) : Prop := ~ In 10 (ev_kind e) /\ ~ In 10 (ev_label e) /\ Forall (fun a => ~ In 10 a) (ev_args e).
(** No argument is empty or contains a comma. *)
Definition plain_args (e : event) : Prop := Forall (fun a => a <> [] /\ ~ In 44 a) (ev_args e).
