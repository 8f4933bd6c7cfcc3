(** Common vocabulary of the model: outcomes, bytes, machine words.

    Everything numeric in the Rust code (u8/u32/u64/usize, addresses, ids, times) is a [Z];
    whenever the Rust code depends on the width of the type the width is written out. *)
From Coq Require Import ZArith List Lia Bool.
Import ListNotations.
Open Scope Z_scope.
(** Keep arithmetic folded when simplifying (no logical content). *)
#[global] Arguments Z.mul : simpl never.
#[global] Arguments Z.add : simpl never.
#[global] Arguments Z.sub : simpl never.
#[global] Arguments Z.div : simpl never.
#[global] Arguments Z.modulo : simpl never.
#[global] Arguments Z.pow : simpl never.
#[global] Arguments Z.of_nat : simpl never.
#[global] Arguments Z.to_nat : simpl never.
#[global] Arguments Z.eqb : simpl never.
#[global] Arguments Z.ltb : simpl never.
#[global] Arguments Z.leb : simpl never.

(** Outcome of a Rust computation.  [Err]: the function returned [Result::Err].
    [Panic]: a panic (failed assert, unwrap, slice index, checked arithmetic).
    [Diverge]: the fuel given to a possibly non-terminating recursion ran out. *)
Inductive res (A : Type) : Type :=
| Ok (a : A)
| Err
| Panic
| Diverge.
Arguments Ok {A} a.
Arguments Err {A}.
Arguments Panic {A}.
Arguments Diverge {A}.

Definition bind {A B} (r : res A) (f : A -> res B) : res B :=
  match r with
  | Ok a => f a
  | Err => Err
  | Panic => Panic
  | Diverge => Diverge
  end.
Notation "'do' x <- r ; f" := (bind r (fun x => f))
  (at level 200, x pattern, r at level 100, f at level 200, right associativity).

(** A byte string; the side condition "every element is a byte" is [bytes_ok]. *)
Definition bytes := list Z.
Definition byte_ok (b : Z) : Prop := 0 <= b < 256.
Definition bytes_ok (bs : bytes) : Prop := Forall byte_ok bs.

(** Length, prefix, suffix of a list with [Z] sizes ([len()], [&x[..n]], [&x[n..]]). *)
Definition zlen {A} (l : list A) : Z := Z.of_nat (length l).
Definition ztake {A} (n : Z) (l : list A) : list A := firstn (Z.to_nat n) l.
Definition zdrop {A} (n : Z) (l : list A) : list A := skipn (Z.to_nat n) l.
(** [&x[a..b]] when in bounds. *)
Definition zslice {A} (a b : Z) (l : list A) : list A := ztake (b - a) (zdrop a l).
Definition znth {A} (n : Z) (l : list A) : option A :=
  if n <? 0 then None else nth_error l (Z.to_nat n).
(** [vec![0u8; n]] *)
Definition zeros (n : Z) : bytes := repeat 0 (Z.to_nat n).

(** [uN::to_le_bytes] / [uN::from_le_bytes] with [n] bytes. *)
Fixpoint le_bytes (n : nat) (v : Z) : bytes :=
  match n with
  | O => []
  | S n' => (v mod 256) :: le_bytes n' (v / 256)
  end.
Fixpoint le_val (bs : bytes) : Z :=
  match bs with
  | [] => 0
  | b :: bs' => b + 256 * le_val bs'
  end.

Definition u32 (v : Z) : Z := v mod 4294967296.
Definition is_u32 (v : Z) : Prop := 0 <= v < 4294967296.
Definition is_u64 (v : Z) : Prop := 0 <= v < 18446744073709551616.

(** Equality of byte strings ([==] on slices). *)
Fixpoint beq (a b : bytes) : bool :=
  match a, b with
  | [], [] => true
  | x :: a', y :: b' => (x =? y) && beq a' b'
  | _, _ => false
  end.

Definition zsum (l : list Z) : Z := fold_right Z.add 0 l.
