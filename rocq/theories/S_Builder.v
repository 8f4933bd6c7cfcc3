(** What a program on a [ProfilingDataBuilder] should produce. *)
From Coq Require Import ZArith List Lia Bool.
From Verif Require Import M_Base S_Utf8 M_V8 M_Raw S_EventId M_Builder.
Import ListNotations.
Open Scope Z_scope.

(** Arguments of the types Rust demands. *)
Fixpoint bprog_ok (p : bprog) : Prop :=
  match p with
  | BEnd => True
  | BInterval kind id tid s e inner next =>
      (utf8 kind /\ utf8 id /\ is_u32 tid /\ is_u64 s /\ is_u64 e) /\ bprog_ok inner /\ bprog_ok next
  | BInstant kind id tid v next | BInteger kind id tid v next =>
      (utf8 kind /\ utf8 id /\ is_u32 tid /\ is_u64 v) /\ bprog_ok next
  end.
(** Times the format can represent. *)
Fixpoint representable (p : bprog) : Prop :=
  match p with
  | BEnd => True
  | BInterval _ _ _ s e inner next => (s <= e /\ e <= 0xFFFFFFFFFFFD) /\ representable inner /\ representable next
  | BInstant _ _ _ v next | BInteger _ _ _ v next => v <= 0xFFFFFFFFFFFF /\ representable next
  end.
(** Bytes of string data: every text and its terminator. *)
Fixpoint text_size (p : bprog) : Z :=
  match p with
  | BEnd => 0
  | BInterval kind id _ _ _ inner next => (zlen kind + 1) + (zlen id + 1) + text_size inner + text_size next
  | BInstant kind id _ _ next | BInteger kind id _ _ next => (zlen kind + 1) + (zlen id + 1) + text_size next
  end.

(** How an event id text is shown: a label and its arguments (for a text without separators the
    text itself and none). *)
Definition splits (id label : bytes) (args : list bytes) : Prop :=
  id = join label args /\ good_text label /\ Forall good_text args.

(** The events in the order in which they are recorded: what the closure of an interval records
    comes before the interval itself.  Times are nanoseconds since the Unix epoch. *)
Inductive shows : bprog -> list event -> Prop :=
| sh_end : shows BEnd []
| sh_interval kind id tid s e inner next label args es es' :
    splits id label args -> shows inner es -> shows next es' ->
    shows (BInterval kind id tid s e inner next) (es ++ mkEv kind label args (Timestamp (Interval s e)) tid :: es')
| sh_instant kind id tid v next label args es :
    splits id label args -> shows next es ->
    shows (BInstant kind id tid v next) (mkEv kind label args (Timestamp (Instant v)) tid :: es)
| sh_integer kind id tid v next label args es :
    splits id label args -> shows next es ->
    shows (BInteger kind id tid v next) (mkEv kind label args (Integer v) tid :: es).
