(** Specification for C42: callbacks that panic (and whose panic is caught). *)
From Coq Require Import ZArith List Lia Bool.
From Verif Require Import M_Base M_Sink S_Sink.
Import ListNotations.
Open Scope Z_scope.

(** The callback holds a mutable slice: it cannot change its length, but it may panic at any time. *)
Definition op_sane (o : op) : Prop :=
  match o with OWriteAtomic _ n cb => 0 <= n /\ zlen (fst (cb (zeros n))) = n | _ => True end.
Definition op_panics (o : op) : bool :=
  match o with OWriteAtomic _ n cb => snd (cb (zeros n)) | _ => false end.
(** A failed write of at most a page leaves behind what the callback had put into the slice; a larger
    one leaves nothing. *)
Definition op_leaves (o : op) : bytes := if op_panics o && (256 * 1024 <? zlen (op_data o)) then [] else op_data o.
Fixpoint remains (t : tag) (ops : list op) : bytes :=
  match ops with
  | [] => []
  | o :: ops' => (if tag_eqb (op_tag o) t then op_leaves o else []) ++ remains t ops'
  end.
(** The bytes failed writes left in a stream. *)
Fixpoint lost (t : tag) (ops : list op) : Z :=
  match ops with
  | [] => 0
  | o :: ops' => (if tag_eqb (op_tag o) t && op_panics o then zlen (op_leaves o) else 0) + lost t ops'
  end.
