(** Callbacks of [write_atomic] that use the sinks themselves (measureme/src/serialization.rs).

    The callback given to [write_atomic] (serialization.rs:301-332) is arbitrary code -- for
    [StringTableBuilder::alloc] it is the caller's [SerializableString::serialize]
    (measureme/src/stringtable.rs) -- and may call the sinks of the same backing storage.  M_Sink.v
    has callbacks without such calls.  Calls are sequences of actions as there; a callback here
    makes a list of calls, which may have such callbacks themselves, and then fills its buffer.
    Simplification: it does not panic of its own; what the calls return does not influence it. *)
From Coq Require Import ZArith List Lia Bool.
From Verif Require Import M_Base M_Sink.
Import ListNotations.
Open Scope Z_scope.

(** [Plain o]: a call of M_Sink.v.  [Within t n inner bs]: [write_atomic] of [n] bytes to the sink
    [t] with a callback that makes the calls [inner] and then fills its buffer with [bs]. *)
Inductive nop :=
| Plain (o : op)
| Within (t : tag) (n : Z) (inner : list nop) (bs : bytes).

(** [p], then [k] on its result (sequential composition, nothing in /repo). *)
Fixpoint pbind (p : prog) (k : Z -> prog) : prog :=
  match p with
  | Done r => k r
  | Fail => Fail
  | LockSink t f => LockSink t (fun s => pbind (f s) k)
  | UnlockSink t s p' => UnlockSink t s (pbind p' k)
  | LockShared p' => LockShared (pbind p' k)
  | WriteAll bs p' => WriteAll bs (pbind p' k)
  | UnlockShared p' => UnlockShared (pbind p' k)
  end.

(** serialization.rs:301-332 [write_atomic] with such a callback: more than [MAX_PAGE_SIZE] bytes are
    produced before the sink is locked (lines 305-309), others while it is (line 327, after the
    buffer has been flushed if necessary). *)
Fixpoint call (c : nop) : prog :=
  match c with
  | Plain o => op_prog o
  | Within t n inner bs =>
      let calls (k : prog) := fold_right (fun c' k' => pbind (call c') (fun _ => k')) k inner in
      if MAX_PAGE_SIZE <? n then calls (write_bytes_large t bs Done)
      else
        LockSink t (fun s =>
          let body (buffer : bytes) : prog :=
            calls (UnlockSink t (mkSink (buffer ++ bs) (saddr s + n)) (Done (saddr s))) in
          if MAX_PAGE_SIZE <? zlen (sbuf s) + n then flush t (sbuf s) body else body (sbuf s))
  end.
Definition calls (l : list nop) (k : prog) : prog := fold_right (fun c' k' => pbind (call c') (fun _ => k')) k l.

(** Several threads, as in M_Conc.v: [nthr tid] is the call a thread is executing (only for the
    history) and what is left of it.  Unwinding from a panic ([Fail]) releases the mutexes the thread
    holds; what it leaves in the sinks is as before the call (simplification, for the contents see
    M_Sink.v's [write_atomic]). *)
Inductive nhev := NInv (tid : Z) (c : nop) | NRet (tid : Z) (c : nop) (r : Z) | NPanic (tid : Z) (c : nop).
Record nconf := mkNConf { nmem : mem; nthr : Z -> option (nop * prog); nhist : list nhev }.
Definition nconf0 : nconf := mkNConf mem0 (fun _ => None) [].
Inductive naction := NInvoke (tid : Z) (c : nop) | NTick (tid : Z).
Definition nset (f : Z -> option (nop * prog)) (tid : Z) (v : option (nop * prog)) : Z -> option (nop * prog) :=
  fun x => if x =? tid then v else f x.
Definition release1 (tid : Z) (o : option Z) : option Z :=
  match o with Some x => if x =? tid then None else Some x | None => None end.
Definition release (tid : Z) (m : mem) : mem :=
  mkMem (disk m) (sinks m) (TM (release1 tid (tm_ev (slk m))) (release1 tid (tm_sd (slk m))) (release1 tid (tm_si (slk m))))
        (release1 tid (shl m)).
Definition nstep (c : nconf) (a : naction) : nconf :=
  match a with
  | NInvoke tid o =>
      match nthr c tid with
      | Some _ => c
      | None => mkNConf (nmem c) (nset (nthr c) tid (Some (o, call o))) (nhist c ++ [NInv tid o])
      end
  | NTick tid =>
      match nthr c tid with
      | None => c
      | Some (o, Done r) => mkNConf (nmem c) (nset (nthr c) tid None) (nhist c ++ [NRet tid o r])
      | Some (o, Fail) => mkNConf (release tid (nmem c)) (nset (nthr c) tid None) (nhist c ++ [NPanic tid o])
      | Some (o, p) =>
          match prog_step tid (nmem c) p with
          | None => c
          | Some (m', p') => mkNConf m' (nset (nthr c) tid (Some (o, p'))) (nhist c)
          end
      end
  end.
Definition nexec (acts : list naction) (c : nconf) : nconf := fold_left nstep acts c.
