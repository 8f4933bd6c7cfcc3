(** A profiler shared by several threads: the public calls of measureme/src/profiler.rs on top of the
    concurrent sinks of M_Conc.v, and reading the whole file back
    (analyzeme/src/profiling_data.rs:99-123). *)
From Coq Require Import ZArith List Lia Bool.
From Verif Require Import M_Base M_Sink M_Conc M_Raw M_Header M_V8 M_Iter M_Strings M_StrTable M_EventId M_Session.
Import ListNotations.
Open Scope Z_scope.

(** What can be observed: a call of the recording API that passed its assertions, its return. *)
Inductive uev :=
| UInv (tid : Z) (k : call)
| URet (tid : Z) (r : Z)
| UPanic (tid : Z).

(** A scheduling decision at the level of the profiler. *)
Inductive uact :=
| UCall (tid : Z) (k : call)
| UTick (tid : Z).

Record uconf := mkU { uc : conf; uhist : list uev }.

(** profiler.rs:74-181: a call first evaluates its assertions (a failing one unwinds without having
    touched a sink), then runs the operation on the sink.  A busy thread cannot call. *)
Definition ustep (en : endian) (c : uconf) (a : uact) : uconf :=
  match a with
  | UCall tid k =>
      match thr (uc c) tid with
      | Some _ => c
      | None =>
          match call_op en k with
          | Ok o => mkU (cstep (uc c) (Invoke tid o)) (uhist c ++ [UInv tid k])
          | _ => c
          end
      end
  | UTick tid =>
      match thr (uc c) tid with
      | Some (Done r) => mkU (cstep (uc c) (Tick tid)) (uhist c ++ [URet tid r])
      | Some Fail => mkU (cstep (uc c) (Tick tid)) (uhist c ++ [UPanic tid])
      | _ => mkU (cstep (uc c) (Tick tid)) (uhist c)
      end
  end.
Definition urun (en : endian) (acts : list uact) (c : uconf) : uconf := fold_left (ustep en) acts c.

Fixpoint mapM {A B} (f : A -> res B) (l : list A) : res (list B) :=
  match l with
  | [] => Ok []
  | a :: l' => do b <- f a; do bs <- mapM f l'; Ok (b :: bs)
  end.

(** profiling_data.rs:103-107 [iter_full] driven to the end: every lightweight event of the iterator
    is turned into a full one by its index (profiling_data.rs:113-115). *)
Definition iter_full (fuel : nat) (en : endian) (d : decoder) : res (list event) :=
  do n <- num_events d;
  do lws <- iter_collect (decode_lightweight_event en d) fuel (iter_new n);
  mapM (fun lw => decode_full_event fuel en d (lw_index lw)) lws.
