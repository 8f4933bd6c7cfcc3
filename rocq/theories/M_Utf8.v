(** Model of the Rust standard library's UTF-8 validation, as used by decodeme/src/stringtable.rs:81
    ([std::str::from_utf8]), :125 ([String::from_utf8_lossy]) and decodeme/src/event.rs:117,127,129.
    The standard library is not part of /repo; the function below is the documented automaton of
    [core::str::validations::run_utf8_validation] / [core::str::lossy::Utf8Chunks]. *)
From Coq Require Import ZArith List Lia Bool.
From Verif Require Import M_Base.
Import ListNotations.
Open Scope Z_scope.

Definition between (lo hi b : Z) : bool := (lo <=? b) && (b <=? hi).
Definition is_cont (b : Z) : bool := between 128 191 b.

(** Which second bytes are allowed after a 3-byte / 4-byte leading byte. *)
Definition second3 (b0 b1 : Z) : bool :=
  if b0 =? 224 then between 160 191 b1
  else if b0 =? 237 then between 128 159 b1
  else is_cont b1.
Definition second4 (b0 b1 : Z) : bool :=
  if b0 =? 240 then between 144 191 b1
  else if b0 =? 244 then between 128 143 b1
  else is_cont b1.

(** What is at the head of the input: [(true, n)] a valid sequence of [n] bytes, [(false, n)] an
    invalid sequence of which [n] bytes are skipped. *)
Definition utf8_step (bs : bytes) : bool * nat :=
  match bs with
  | [] => (true, 0%nat)
  | b0 :: r0 =>
      if b0 <? 128 then (true, 1%nat)
      else if between 194 223 b0 then
        match r0 with
        | b1 :: _ => if is_cont b1 then (true, 2%nat) else (false, 1%nat)
        | [] => (false, 1%nat)
        end
      else if between 224 239 b0 then
        match r0 with
        | b1 :: r1 =>
            if second3 b0 b1 then
              match r1 with
              | b2 :: _ => if is_cont b2 then (true, 3%nat) else (false, 2%nat)
              | [] => (false, 2%nat)
              end
            else (false, 1%nat)
        | [] => (false, 1%nat)
        end
      else if between 240 244 b0 then
        match r0 with
        | b1 :: r1 =>
            if second4 b0 b1 then
              match r1 with
              | b2 :: r2 =>
                  if is_cont b2 then
                    match r2 with
                    | b3 :: _ => if is_cont b3 then (true, 4%nat) else (false, 3%nat)
                    | [] => (false, 3%nat)
                    end
                  else (false, 2%nat)
              | [] => (false, 2%nat)
              end
            else (false, 1%nat)
        | [] => (false, 1%nat)
        end
      else (false, 1%nat)
  end.

Fixpoint utf8_valid_fuel (fuel : nat) (bs : bytes) : bool :=
  match bs with
  | [] => true
  | _ =>
      match fuel with
      | O => false
      | S f => let '(ok, n) := utf8_step bs in
               if ok then utf8_valid_fuel f (skipn n bs) else false
      end
  end.
(** [std::str::from_utf8(bs).is_ok()] *)
Definition utf8_valid (bs : bytes) : bool := utf8_valid_fuel (length bs) bs.

(** U+FFFD *)
Definition replacement : bytes := [239; 191; 189].

Fixpoint lossy_fuel (fuel : nat) (bs : bytes) : bytes :=
  match bs with
  | [] => []
  | _ =>
      match fuel with
      | O => []
      | S f => let '(ok, n) := utf8_step bs in
               (if ok then firstn n bs else replacement) ++ lossy_fuel f (skipn n bs)
      end
  end.
(** [String::from_utf8_lossy(bs)] *)
Definition lossy (bs : bytes) : bytes := lossy_fuel (length bs) bs.
