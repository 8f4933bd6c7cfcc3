(** Specification for C89: callbacks that use the sinks. *)
From Coq Require Import ZArith List Lia Bool.
From Verif Require Import M_Base M_Sink S_Sink M_Nested.
Import ListNotations.
Open Scope Z_scope.

(** Admissible calls, as in C01; the callback fills the whole buffer. *)
Fixpoint nop_ok (c : nop) : Prop :=
  match c with
  | Plain o => op_ok o
  | Within t n inner bs => zlen bs = n /\ fold_right (fun c' P => nop_ok c' /\ P) True inner
  end.
(** The sink a call goes to. *)
Definition goes_to (c : nop) : tag := match c with Plain o => op_tag o | Within t _ _ _ => t end.
(** No call uses a sink of [h], and no callback for at most 256 KiB uses, however deeply, the sink it
    is called for. *)
Fixpoint never_reentered (h : list tag) (c : nop) : Prop :=
  match c with
  | Plain o => ~ In (op_tag o) h
  | Within t n inner bs =>
      ~ In t h /\ fold_right (fun c' P => never_reentered (if n <=? 256 * 1024 then t :: h else h) c' /\ P) True inner
  end.
(** The calls without callbacks that a call amounts to: the data of a large write follows what its
    callback writes, that of another write precedes it. *)
Fixpoint amounts_to (c : nop) : list op :=
  match c with
  | Plain o => [o]
  | Within t n inner bs =>
      let own := OWriteAtomic t n (fun _ => (bs, false)) in
      if n <=? 256 * 1024 then own :: flat_map amounts_to inner else flat_map amounts_to inner ++ [own]
  end.
(** What it returns when [ops] was called before: the number of bytes in its stream at the point where
    its own data goes. *)
Definition returns (ops : list op) (c : nop) : Z :=
  match c with
  | Plain o => op_result o (zlen (written (op_tag o) ops))
  | Within t n inner bs => zlen (written t (if n <=? 256 * 1024 then ops else ops ++ flat_map amounts_to inner))
  end.

(** Sinks are only used inside callbacks for sinks of lower rank, for one ranking of the sinks. *)
Fixpoint upward (rank : tag -> Z) (low : Z) (c : nop) : Prop :=
  match c with
  | Plain o => low < rank (op_tag o)
  | Within t n inner bs => low < rank t /\ fold_right (fun c' P => upward rank (if n <=? 256 * 1024 then rank t else low) c' /\ P) True inner
  end.
Definition all_upward (rank : tag -> Z) (acts : list naction) : Prop :=
  Forall (fun a => match a with NInvoke _ c => exists low, upward rank low c | NTick _ => True end) acts.
(** A thread in the middle of a call that need not wait. *)
Definition can_go_on (c : nconf) (tid : Z) : Prop := exists o p, nthr c tid = Some (o, p) /\
  match p with Done _ | Fail => True | _ => prog_step tid (nmem c) p <> None end.
Definition idle (c : nconf) : Prop := forall tid, nthr c tid = None.
(** The calls made so far, and those that have returned with their results. *)
Fixpoint made (h : list nhev) : list nop :=
  match h with [] => [] | NInv _ c :: h' => c :: made h' | _ :: h' => made h' end.
Fixpoint answered (h : list nhev) : list (nop * Z) :=
  match h with [] => [] | NRet _ c r :: h' => (c, r) :: answered h' | _ :: h' => answered h' end.
(** The call without callbacks that writes the call's own data. *)
Definition own (c : nop) : op := match c with Plain o => o | Within t n _ bs => OWriteAtomic t n (fun _ => (bs, false)) end.
