(** Concurrent use of the sinks of one backing storage (measureme/src/serialization.rs).

    [SerializationSink] is shared between threads behind an [Arc]; each method call is the program
    [op_prog o] of M_Sink.v, executed one action at a time, interleaved arbitrarily with the other
    threads.  What a thread calls next is chosen by the environment. *)
From Coq Require Import ZArith List Lia Bool.
From Verif Require Import M_Base M_Sink.
Import ListNotations.
Open Scope Z_scope.

(** Externally visible events: a call, its normal return, its panic. *)
Inductive hev :=
| HInv (tid : Z) (o : op)
| HRet (tid : Z) (r : Z)
| HPanic (tid : Z).

(** Threads are numbered; [thr tid] is the rest of the call the thread is executing. *)
Record conf := mkConf { cmem : mem; thr : Z -> option prog; hist : list hev }.

Definition conf0 : conf := mkConf mem0 (fun _ => None) [].

(** A scheduling decision: an idle thread calls a method, or a busy thread performs its next
    action (returning from the call counts as an action). *)
Inductive action :=
| Invoke (tid : Z) (o : op)
| Tick (tid : Z).

Definition set_thr (f : Z -> option prog) (tid : Z) (v : option prog) : Z -> option prog :=
  fun x => if x =? tid then v else f x.

(** Decisions that are not enabled (calling on a busy thread, waiting for a held mutex) leave the
    configuration unchanged. *)
Definition cstep (c : conf) (a : action) : conf :=
  match a with
  | Invoke tid o =>
      match thr c tid with
      | Some _ => c
      | None => mkConf (cmem c) (set_thr (thr c) tid (Some (op_prog o))) (hist c ++ [HInv tid o])
      end
  | Tick tid =>
      match thr c tid with
      | None => c
      | Some (Done r) => mkConf (cmem c) (set_thr (thr c) tid None) (hist c ++ [HRet tid r])
      | Some Fail => mkConf (cmem c) (set_thr (thr c) tid None) (hist c ++ [HPanic tid])
      | Some p =>
          match prog_step tid (cmem c) p with
          | None => c
          | Some (m', p') => mkConf m' (set_thr (thr c) tid (Some p')) (hist c)
          end
      end
  end.

Definition exec (acts : list action) (c : conf) : conf := fold_left cstep acts c.
