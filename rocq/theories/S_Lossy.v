(** Replacing what is not UTF-8, as the Unicode standard recommends (section 3.9, "substitution of maximal
    subparts") and Rust's [String::from_utf8_lossy] documents. *)
From Coq Require Import ZArith List Lia Bool.
From Verif Require Import M_Base S_Utf8.
Import ListNotations.
Open Scope Z_scope.

(** [p] is how the encoding of some character begins. *)
Definition starts (p : bytes) : Prop := exists c t, scalar c /\ encode c = p ++ t.

(** [p], at the head of [p ++ rest], is one ill-formed piece: the longest piece that could begin a character,
    or a single byte that cannot. *)
Definition bad_piece (p rest : bytes) : Prop :=
  p <> [] /\
  ((starts p /\ forall b r, rest = b :: r -> ~ starts (p ++ [b])) \/
   (zlen p = 1 /\ ~ starts p)).

(** Every ill-formed piece becomes U+FFFD. *)
Inductive decoded : bytes -> bytes -> Prop :=
| dec_nil : decoded [] []
| dec_char c rest out : scalar c -> decoded rest out -> decoded (encode c ++ rest) (encode c ++ out)
| dec_bad p rest out : (forall c t, scalar c -> p ++ rest <> encode c ++ t) -> bad_piece p rest ->
    decoded rest out -> decoded (p ++ rest) (encode 65533 ++ out).
