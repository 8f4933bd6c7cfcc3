(** What it means for concurrent writing to be correct. *)
From Coq Require Import ZArith List Lia Bool.
From Verif Require Import M_Base M_Sink S_Sink M_Conc.
Import ListNotations.
Open Scope Z_scope.

(** A history with linearization points inserted. *)
Inductive gev :=
| GInv (tid : Z) (o : op)
| GLin (tid : Z) (o : op) (r : Z)
| GRet (tid : Z) (r : Z).

(** Forgetting the linearization points gives back an observable history. *)
Fixpoint erase (g : list gev) : list hev :=
  match g with
  | [] => []
  | GInv tid o :: g' => HInv tid o :: erase g'
  | GLin _ _ _ :: g' => erase g'
  | GRet tid r :: g' => HRet tid r :: erase g'
  end.

Definition gev_tid (e : gev) : Z :=
  match e with GInv tid _ | GLin tid _ _ | GRet tid _ => tid end.
Definition proj (tid : Z) (g : list gev) : list gev := filter (fun e => gev_tid e =? tid) g.

(** State of one thread: idle; has called [o]; the call has taken effect with result [r]. *)
Inductive tstate := TIdle | TCalled (o : op) | TDone (o : op) (r : Z).

(** The events of one thread are a sequence of calls, each taking effect exactly once between call
    and return, with the effect's result being the one returned. *)
Inductive protocol (tid : Z) : list gev -> tstate -> Prop :=
| pr_nil : protocol tid [] TIdle
| pr_inv l o : protocol tid l TIdle -> protocol tid (l ++ [GInv tid o]) (TCalled o)
| pr_lin l o r : protocol tid l (TCalled o) -> protocol tid (l ++ [GLin tid o r]) (TDone o r)
| pr_ret l o r : protocol tid l (TDone o r) -> protocol tid (l ++ [GRet tid r]) TIdle.

(** The effects in the order in which they happened. *)
Fixpoint lins (g : list gev) : list (op * Z) :=
  match g with
  | [] => []
  | GLin _ o r :: g' => (o, r) :: lins g'
  | _ :: g' => lins g'
  end.
Definition lin_ops (g : list gev) : list op := map fst (lins g).

(** Every effect returns what the sequential specification demands at its position. *)
Definition sequentially_correct (l : list (op * Z)) : Prop :=
  forall l1 o r l2, l = l1 ++ (o, r) :: l2 ->
    r = op_result o (zlen (written (op_tag o) (map fst l1))).

Definition all_idle (c : conf) : Prop := forall tid, thr c tid = None.

(** All calls made by a schedule are admissible. *)
Definition acts_ok (acts : list action) : Prop :=
  forall tid o, In (Invoke tid o) acts -> op_ok o.

(** An operation that the sink never splits over several pages. *)
Definition op_unsplit (o : op) : Prop :=
  match o with
  | OWriteAtomic _ n _ => n <= 256 * 1024
  | OWriteBytes _ bs | OStdWrite _ bs => zlen bs <= 128
  | OStdFlush _ | ODrop _ => True
  end.

(** A schedule in which no new calls are made. *)
Definition ticks (l : list action) : Prop := Forall (fun a => exists tid, a = Tick tid) l.
