(** Maps as used by the analyses.  A Rust hash map is modelled by the list of its entries; every
    observable that depends on the iteration order takes that order as a parameter. *)
From Coq Require Import ZArith List Lia Bool String Ascii.
From Verif Require Import M_Base.
Import ListNotations.
Open Scope Z_scope.

(** A Rust string literal as bytes. *)
Definition str (s : string) : bytes := map (fun a => Z.of_N (N_of_ascii a)) (list_ascii_of_string s).

Section Map.
  Context {K V : Type} (eqb : K -> K -> bool).
  (** [HashMap::get] *)
  Fixpoint map_get (k : K) (m : list (K * V)) : option V :=
    match m with
    | [] => None
    | (k', v) :: m' => if eqb k k' then Some v else map_get k m'
    end.
  (** [HashMap::insert] *)
  Fixpoint map_put (k : K) (v : V) (m : list (K * V)) : list (K * V) :=
    match m with
    | [] => [(k, v)]
    | (k', v') :: m' => if eqb k k' then (k, v) :: m' else (k', v') :: map_put k v m'
    end.
End Map.

(** [Ord for str]: lexicographic on bytes. *)
Fixpoint bltb (a b : bytes) : bool :=
  match a, b with
  | _, [] => false
  | [], _ :: _ => true
  | x :: a', y :: b' => if x =? y then bltb a' b' else x <? y
  end.
(** [BTreeMap<str, _>::insert], entries kept in key order. *)
Fixpoint btree_put {V} (k : bytes) (v : V) (m : list (bytes * V)) : list (bytes * V) :=
  match m with
  | [] => [(k, v)]
  | (k', v') :: m' =>
      if bltb k k' then (k, v) :: m
      else if beq k k' then (k, v) :: m'
      else (k', v') :: btree_put k v m'
  end.

(** [Option::unwrap] *)
Definition unwrap {A} (o : option A) : res A := match o with Some a => Ok a | None => Panic end.
(** [for x in l { s = f(s, x) }] *)
Fixpoint foldM {A S} (f : S -> A -> res S) (s : S) (l : list A) : res S :=
  match l with
  | [] => Ok s
  | x :: l' => do s' <- f s x; foldM f s' l'
  end.

(** [Duration]: [u64] seconds and nanoseconds; [+] panics on overflow, [-] when negative
    (library/core/src/time.rs, [Add]/[Sub for Duration]).  Counted in nanoseconds here. *)
Definition DURATION_MAX : Z := 18446744073709551615 * 1000000000 + 999999999.
Definition dadd (a b : Z) : res Z := if a + b <=? DURATION_MAX then Ok (a + b) else Panic.
Definition dsub (a b : Z) : res Z := if b <=? a then Ok (a - b) else Panic.
(** [u64] arithmetic; [oc] tells whether the program was compiled with overflow checks. *)
Definition U64 : Z := 18446744073709551616.
Definition u64_add (oc : bool) (a b : Z) : res Z :=
  if a + b <? U64 then Ok (a + b) else if oc then Panic else Ok ((a + b) mod U64).
Definition u64_sub (oc : bool) (a b : Z) : res Z :=
  if b <=? a then Ok (a - b) else if oc then Panic else Ok ((a - b) mod U64).
