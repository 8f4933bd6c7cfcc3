(** Backing storage that can run out of space (measureme/src/serialization.rs:123-141, 242-257): a
    [write_all] that does not fit stores what fits and returns an error, which [unwrap] (lines 243,
    246, 247) turns into a panic.  Unwinding drops the guards of the thread. *)
From Coq Require Import ZArith List Lia Bool.
From Verif Require Import M_Base M_Sink M_Conc.
Import ListNotations.
Open Scope Z_scope.

(** The mutexes held by [tid] are released. *)
Definition release (tid : Z) (l : option Z) : option Z :=
  match l with Some x => if x =? tid then None else Some x | None => None end.

(** One scheduling decision while the storage can hold [cap] bytes.  What the sinks contain after the
    unwinding depends on where it started; [after] gives it (the positive theorems hold for
    every such function). *)
Definition lstep (after : Z -> mem -> tmap sink) (c : conf) (x : action * Z) : conf :=
  let '(a, cap) := x in
  match a with
  | Tick tid =>
      match thr c tid with
      | Some (WriteAll bs k) =>
          if zlen (disk (cmem c)) + zlen bs <=? cap then cstep c a
          else
            let m := cmem c in
            mkConf (mkMem (ztake (Z.max cap (zlen (disk m))) (disk m ++ bs)) (after tid m)
                          (TM (release tid (tm_ev (slk m))) (release tid (tm_sd (slk m))) (release tid (tm_si (slk m))))
                          (release tid (shl m)))
                   (set_thr (thr c) tid (Some Fail)) (hist c)
      | _ => cstep c a
      end
  | _ => cstep c a
  end.
Definition lexec (after : Z -> mem -> tmap sink) (l : list (action * Z)) (c : conf) : conf := fold_left (lstep after) l c.
(** The same capacity throughout. *)
Definition at_capacity (cap : Z) (acts : list action) : list (action * Z) := map (fun a => (a, cap)) acts.
(** [OStdFlush], [ODrop] and [OWriteAtomic] of at most a page write out the buffer before they change
    anything (serialization.rs:152-166, 317-329, 407-417), so a failure leaves the sink as it was. *)
Definition untouched (tid : Z) (m : mem) : tmap sink := sinks m.
