(** What strings mean, independently of how they are stored. *)
From Coq Require Import ZArith List Lia Bool.
From Verif Require Import M_Base S_Utf8 M_Strings.
Import ListNotations.
Open Scope Z_scope.

(** The documented encoding of an entry (measureme/src/stringtable.rs:1-34). *)
Definition enc_comp (c : component) : bytes :=
  match c with
  | CValue s => s
  | CRef id => 254 :: le_bytes 8 id
  end.
Definition enc (s : sstring) : bytes :=
  match s with
  | SStr s => s ++ [255]
  | SComps cs => concat (map enc_comp cs) ++ [255]
  end.

(** What Rust's types guarantee: values are [str]s, ids are u64. *)
Definition comp_ok (c : component) : Prop :=
  match c with CValue s => utf8 s | CRef id => is_u64 id end.
Definition sstring_ok (s : sstring) : Prop :=
  match s with SStr s => utf8 s | SComps cs => Forall comp_ok cs end.

Definition unknown_text : bytes := [60; 117; 110; 107; 110; 111; 119; 110; 62]. (* "<unknown>" *)

(** The text an id stands for.  [alloc id s]: some allocation of [s] returned [id].  [resolve v]: the
    concrete id the virtual id [v] was last mapped to, if any. *)
Section Denotation.
Variable alloc : Z -> sstring -> Prop.
Variable resolve : Z -> option Z.

Inductive denotes : Z -> bytes -> Prop :=
| d_invalid : denotes 100000002 unknown_text
| d_unmapped v : v <= 100000001 -> resolve v = None -> denotes v unknown_text
| d_mapped v c s : v <= 100000001 -> resolve v = Some c -> denotes c s -> denotes v s
| d_str id s : alloc id (SStr s) -> denotes id s
| d_comps id cs s : alloc id (SComps cs) -> denotes_all cs s -> denotes id s
with denotes_all : list component -> bytes -> Prop :=
| da_nil : denotes_all [] []
| da_value v cs s : denotes_all cs s -> denotes_all (CValue v :: cs) (v ++ s)
| da_ref id cs s1 s2 : denotes id s1 -> denotes_all cs s2 -> denotes_all (CRef id :: cs) (s1 ++ s2).

(** Recursion depth: [wf_id n id] iff expanding [id] goes through at most [n] levels. *)
Inductive wf_id : nat -> Z -> Prop :=
| w_invalid n : wf_id n 100000002
| w_unmapped n v : v <= 100000001 -> resolve v = None -> wf_id n v
| w_mapped n v c : v <= 100000001 -> resolve v = Some c -> wf_id n c -> wf_id (S n) v
| w_str n id s : alloc id (SStr s) -> wf_id n id
| w_comps n id cs : alloc id (SComps cs) -> (forall r, In (CRef r) cs -> wf_id n r) -> wf_id (S n) id.
End Denotation.
