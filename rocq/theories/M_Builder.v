(** Model of [ProfilingDataBuilder], analyzeme/src/profiling_data.rs:187-320: building a profile in
    memory from a program of nested calls. *)
From Coq Require Import String ZArith List Lia Bool.
From Verif Require Import M_Base M_Sink M_Conc M_Raw M_Header M_V8 M_Strings M_StrTable M_EventId M_Session M_Map M_Metadata.
Import ListNotations.
Open Scope Z_scope.

(** A program: the calls made on one builder, in order.  [inner] is what the closure passed to
    [interval] calls (profiling_data.rs:226-249), [next] what follows. *)
Inductive bprog :=
| BEnd
| BInterval (kind id : bytes) (tid start_nanos end_nanos : Z) (inner next : bprog)
| BInstant (kind id : bytes) (tid nanos : Z) (next : bprog)
| BInteger (kind id : bytes) (tid v : Z) (next : bprog).

(** One method call on a sink of the builder (nothing else uses the sinks). *)
Definition sink_call (o : op) (m : mem) : res (Z * mem) :=
  match run (op_prog o) m with
  | (Ok r, m') => Ok (r, m')
  | (Err, _) => Err
  | (Panic, _) => Panic
  | (Diverge, _) => Diverge
  end.
Fixpoint sink_calls (ops : list op) (m : mem) : res mem :=
  match ops with
  | [] => Ok m
  | o :: ops' => do x <- sink_call o m; sink_calls ops' (snd x)
  end.
(** measureme/src/stringtable.rs:321-328 [alloc] of a [str] *)
Definition alloc_str (s : bytes) (m : mem) : res (Z * mem) :=
  do x <- sink_call (alloc_op (SStr s)) m;
  do id <- alloc_result (fst x);
  Ok (id, snd x).

(** profiling_data.rs:210-213 the metadata text *)
Definition test_metadata : bytes :=
  str "{ ""start_time"": " ++ str "0" ++ str ", ""process_id"": " ++ str "0" ++ str ", ""cmd"": """ ++ str "test cmd" ++ str """ }".
(** profiling_data.rs:195-222 [new]; [StringTableBuilder::new] writes the other two headers *)
Definition builder_new : res mem :=
  do m1 <- sink_calls (header_ops TEvents FILE_MAGIC_EVENT_STREAM) mem0;
  do m2 <- sink_calls (header_ops TStrData FILE_MAGIC_STRINGTABLE_DATA ++ header_ops TStrIndex FILE_MAGIC_STRINGTABLE_INDEX) m1;
  do a <- alloc_str test_metadata m2;
  do addr <- to_addr (fst a);
  do x <- sink_call (index_op METADATA_STRING_ID addr) (snd a);
  Ok (snd x).

(** profiling_data.rs:314-319 [write_raw_event] *)
Definition write_raw_event (en : endian) (e : raw_event) (m : mem) : res mem :=
  do x <- sink_call (OWriteAtomic TEvents RAW_EVENT_SIZE
            (fun buf => match serialize en e buf with Ok b => (b, false) | _ => (buf, true) end)) m;
  Ok (snd x).

(** profiling_data.rs:226-249 [interval], :252-266 [instant], :269-283 [integer] *)
Fixpoint build (en : endian) (p : bprog) (m : mem) : res mem :=
  match p with
  | BEnd => Ok m
  | BInterval kind id tid start_nanos end_nanos inner next =>
      do k <- alloc_str kind m;
      do i <- alloc_str id (snd k);
      do m1 <- build en inner (snd i);
      do e <- new_interval (fst k) (from_label (fst i)) tid start_nanos end_nanos;
      do m2 <- write_raw_event en e m1;
      build en next m2
  | BInstant kind id tid nanos next =>
      do k <- alloc_str kind m;
      do i <- alloc_str id (snd k);
      do e <- new_instant (fst k) (from_label (fst i)) tid nanos;
      do m2 <- write_raw_event en e (snd i);
      build en next m2
  | BInteger kind id tid v next =>
      do k <- alloc_str kind m;
      do i <- alloc_str id (snd k);
      do e <- new_integer (fst k) (from_label (fst i)) tid v;
      do m2 <- write_raw_event en e (snd i);
      build en next m2
  end.

(** measureme/src/serialization.rs:269-289 [into_bytes], with the state it leaves: the buffer has
    become a page and the sink is gone. *)
Definition take_bytes (t : tag) (m : mem) : res (bytes * mem) :=
  match run (flush t (sbuf (tget t (sinks m))) (fun _ => Done 0)) m with
  | (Ok _, m') =>
      do b <- copy_bytes_with_page_tag t m';
      Ok (b, mkMem (disk m') (tset t (mkSink [] (saddr (tget t (sinks m)))) (sinks m')) (slk m') (shl m'))
  | (Err, _) => Err
  | (Panic, _) => Panic
  | (Diverge, _) => Diverge
  end.

(** profiling_data.rs:286-312 [into_profiling_data]; [unwrap] turns an error into a panic *)
Definition into_profiling_data (fuel : nat) (m : mem) : res decoder :=
  do ev <- take_bytes TEvents m;
  do sd <- take_bytes TStrData (snd ev);
  do ix <- take_bytes TStrIndex (snd sd);
  match from_separate_buffers parse_metadata fuel (fst sd) (fst ix) (fst ev) with
  | Err => Panic
  | r => r
  end.

Definition build_profile (en : endian) (fuel : nat) (p : bprog) : res decoder :=
  do m <- builder_new;
  do m' <- build en p m;
  into_profiling_data fuel m'.
