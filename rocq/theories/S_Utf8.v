(** UTF-8 as the Unicode standard defines it: the concatenation of the encodings of scalar values. *)
From Coq Require Import ZArith List Lia Bool.
From Verif Require Import M_Base.
Import ListNotations.
Open Scope Z_scope.

(** A Unicode scalar value: a code point that is not a surrogate (Rust's [char]). *)
Definition scalar (c : Z) : Prop := 0 <= c < 55296 \/ 57344 <= c < 1114112.

Definition encode (c : Z) : bytes :=
  if c <? 128 then [c]
  else if c <? 2048 then [192 + c / 64; 128 + c mod 64]
  else if c <? 65536 then [224 + c / 4096; 128 + (c / 64) mod 64; 128 + c mod 64]
  else [240 + c / 262144; 128 + (c / 4096) mod 64; 128 + (c / 64) mod 64; 128 + c mod 64].

(** A Rust [str]. *)
Definition utf8 (s : bytes) : Prop := exists cs, Forall scalar cs /\ s = flat_map encode cs.
