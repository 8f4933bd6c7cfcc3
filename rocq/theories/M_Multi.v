(** Any number of sinks on one backing storage (measureme/src/serialization.rs:88-112): a
    [SerializationSinkBuilder] can be asked for as many sinks as one likes, also for several with
    the same page tag.  M_Sink.v and M_Conc.v have one sink per tag, as [Profiler] does; here sinks
    are numbered and [tag_of i] is the tag [new_sink] was called with for sink [i].

    The methods are those of M_Sink.v ([op_prog]): the actions [LockSink] and [UnlockSink] of a
    call on sink [i] concern the mutex of sink [i] (each sink has its own [data], serialization.rs:83),
    the others the one shared backing storage (serialization.rs:82). *)
From Coq Require Import ZArith List Lia Bool.
From Verif Require Import M_Base M_Sink M_Conc.
Import ListNotations.
Open Scope Z_scope.

(** The same method, called on a sink with the tag [t] ([self.page_tag], serialization.rs:84). *)
Definition with_tag (t : tag) (o : op) : op :=
  match o with
  | OWriteAtomic _ n cb => OWriteAtomic t n cb
  | OWriteBytes _ bs => OWriteBytes t bs
  | OStdWrite _ bs => OStdWrite t bs
  | OStdFlush _ => OStdFlush t
  | ODrop _ => ODrop t
  end.

(** The memory: the [write_all] calls made on the backing storage so far, each with the sink that
    made it; the contents of the sinks; the mutexes. *)
Record mmem := mkMMem {
  mlog : list (Z * bytes);
  msinks : Z -> sink;
  mslk : Z -> option Z;
  mshl : option Z
}.

(** serialization.rs:118-121 what the backing storage contains *)
Definition mdisk (m : mmem) : bytes := concat (map snd (mlog m)).

(** serialization.rs:90-112 a fresh builder; every sink starts empty *)
Definition mmem0 : mmem := mkMMem [] (fun _ => new_sink) (fun _ => None) None.

Definition upd {A} (f : Z -> A) (i : Z) (v : A) : Z -> A := fun x => if x =? i then v else f x.

(** One action of thread [tid] in a call on sink [i]; as [prog_step] of M_Sink.v. *)
Definition mprog_step (tid i : Z) (m : mmem) (p : prog) : option (mmem * prog) :=
  match p with
  | Done _ => None
  | Fail => None
  | LockSink _ k =>
      match mslk m i with
      | Some _ => None
      | None => Some (mkMMem (mlog m) (msinks m) (upd (mslk m) i (Some tid)) (mshl m), k (msinks m i))
      end
  | UnlockSink _ s k =>
      Some (mkMMem (mlog m) (upd (msinks m) i s) (upd (mslk m) i None) (mshl m), k)
  | LockShared k =>
      match mshl m with
      | Some _ => None
      | None => Some (mkMMem (mlog m) (msinks m) (mslk m) (Some tid), k)
      end
  | WriteAll bs k => Some (mkMMem (mlog m ++ [(i, bs)]) (msinks m) (mslk m) (mshl m), k)
  | UnlockShared k => Some (mkMMem (mlog m) (msinks m) (mslk m) None, k)
  end.

(** Calls, returns and panics, each with the sink concerned. *)
Record mconf := mkMConf { mcmem : mmem; mthr : Z -> option (Z * prog); mhist : list (Z * hev) }.

Definition mconf0 : mconf := mkMConf mmem0 (fun _ => None) [].

(** A thread calls a method of sink [i], or performs its next action. *)
Inductive maction :=
| MInvoke (tid i : Z) (o : op)
| MTick (tid : Z).

Section Multi.
Variable tag_of : Z -> tag.

(** As [cstep] of M_Conc.v. *)
Definition mstep (c : mconf) (a : maction) : mconf :=
  match a with
  | MInvoke tid i o =>
      match mthr c tid with
      | Some _ => c
      | None => mkMConf (mcmem c) (upd (mthr c) tid (Some (i, op_prog (with_tag (tag_of i) o))))
                        (mhist c ++ [(i, HInv tid (with_tag (tag_of i) o))])
      end
  | MTick tid =>
      match mthr c tid with
      | None => c
      | Some (i, Done r) => mkMConf (mcmem c) (upd (mthr c) tid None) (mhist c ++ [(i, HRet tid r)])
      | Some (i, Fail) => mkMConf (mcmem c) (upd (mthr c) tid None) (mhist c ++ [(i, HPanic tid)])
      | Some (i, p) =>
          match mprog_step tid i (mcmem c) p with
          | None => c
          | Some (m', p') => mkMConf m' (upd (mthr c) tid (Some (i, p'))) (mhist c)
          end
      end
  end.

Definition mexec (acts : list maction) (c : mconf) : mconf := fold_left mstep acts c.
End Multi.
