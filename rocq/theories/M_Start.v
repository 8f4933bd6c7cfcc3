(** Model of starting a profiler: measureme/src/profiler.rs lines 19-72 ([Profiler::new], [with_counter]; cited as profiler.rs)
    on a file system with directories, on a device that can fail (M_Output.v), in a process with arguments and a clock.

    Simplifications: paths are compared by their components (no links; [..] and [.] are names like others, so a new directory gets no such entries); the
    reasons why the system refuses to make a directory or a file (permissions, lengths of names, read-only file systems) are inputs;
    error texts are not modelled. *)
From Coq Require Import String ZArith List Lia Bool.
From Verif Require Import M_Base M_Map M_Path M_Sink M_Header M_Strings M_Session M_Counters M_Metadata M_Programs M_Output.
Import ListNotations.
Open Scope Z_scope.

Inductive node := IsDir | IsFile (contents : bytes).
Definition fsys := path -> option node.
Definition put (w : fsys) (p : path) (n : node) : fsys := fun q => if path_eq_dec q p then Some n else w q.
(** The process: what the system refuses, the device, the arguments ([None]: not Unicode), the clock in nanoseconds since 1970, the
    process id, and what the unwinding leaves in the file after a failed write. *)
Record host := mkHost {
  cannot_make : path -> bool; cannot_create : path -> bool; h_device : device;
  h_args : list (option (list Z)); h_clock : Z; h_pid : Z; h_unwinding : bytes }.

(** The system's walk along the directories of a path (all components but the last). *)
Inductive walked := Reached | Missing | Blocked.
Fixpoint walk (w : fsys) (done rest : path) : walked :=
  match rest with
  | [] => Reached
  | [_] => Reached
  | c :: rest' =>
      match w (done ++ [c]) with
      | Some IsDir => walk w (done ++ [c]) rest'
      | Some (IsFile _) => Blocked
      | None => Missing
      end
  end.
(** [mkdir(2)]: [None] on success, [Some true] if the error is [NotFound] *)
Definition mkdir (h : host) (w : fsys) (p : path) : fsys * option bool :=
  match walk w [] p with
  | Missing => (w, Some true)
  | Blocked => (w, Some false)
  | Reached =>
      match w p with
      | Some _ => (w, Some false)
      | None => if cannot_make h p then (w, Some false) else (put w p IsDir, None)
      end
  end.
(** [Path::is_dir] *)
Definition is_dir (w : fsys) (p : path) : bool :=
  match walk w [] p with Reached => match w p with Some IsDir => true | _ => false end | _ => false end.
(** [DirBuilder::create_dir_all] of the standard library; [true]: no error; the fuel is the number of components *)
Fixpoint create_dir_all (h : host) (fuel : nat) (w : fsys) (p : path) : fsys * bool :=
  match p with
  | [] => (w, true)
  | _ =>
      match mkdir h w p with
      | (w', None) => (w', true)
      | (_, Some false) => (w, is_dir w p)
      | (_, Some true) =>
          match fuel, parent p with
          | S fuel', Some q =>
              match create_dir_all h fuel' w q with
              | (w1, true) => match mkdir h w1 p with (w2, None) => (w2, true) | (_, Some _) => (w1, is_dir w1 p) end
              | (w1, false) => (w1, false)
              end
          | _, _ => (w, false)
          end
      end
  end.
(** [File::create] *)
Definition file_create (h : host) (w : fsys) (p : path) : fsys * bool :=
  match walk w [] p with
  | Reached =>
      match w p with
      | Some IsDir => (w, false)
      | _ => if cannot_create h p then (w, false) else (put w p (IsFile []), true)
      end
  | _ => (w, false)
  end.

(** What is written to an open file from its beginning replaces what was there *)
Definition fill (w : fsys) (p : path) (b : bytes) : fsys :=
  put w p (IsFile (b ++ zdrop (zlen b) (match w p with Some (IsFile old) => old | _ => [] end))).
(** Several [write_all] calls on the file, one after the other: what the file gets, whether there was no error, the device *)
Fixpoint write_files (d : device) (pieces : list bytes) : bytes * bool * device :=
  match pieces with
  | [] => ([], true, d)
  | b :: pieces' =>
      match write_loop (script d) (broken d) b with
      | (taken, [], rest) => let '(t, fine, d') := write_files (mkDev rest (broken d)) pieces' in (taken ++ t, fine, d')
      | (taken, _ :: _, rest) => (taken, false, mkDev rest (broken d))
      end
  end.
(** The [write_all] calls a sink operation makes when it runs alone ([run] of M_Sink.v) *)
Fixpoint writes (p : prog) (m : mem) : list bytes :=
  match p with
  | M_Sink.Done _ => []
  | Fail => []
  | LockSink t k =>
      match tget t (slk m) with
      | Some _ => []
      | None => writes (k (tget t (sinks m))) (mkMem (disk m) (sinks m) (tset t (Some 0) (slk m)) (shl m))
      end
  | UnlockSink t s k => writes k (mkMem (disk m) (tset t s (sinks m)) (tset t None (slk m)) (shl m))
  | LockShared k =>
      match shl m with
      | Some _ => []
      | None => writes k (mkMem (disk m) (sinks m) (slk m) (Some 0))
      end
  | WriteAll bs k => bs :: writes k (mkMem (disk m ++ bs) (sinks m) (slk m) (shl m))
  | UnlockShared k => writes k (mkMem (disk m) (sinks m) (slk m) None)
  end.
Fixpoint ops_writes (ops : list op) (m : mem) : list bytes :=
  match ops with
  | [] => []
  | o :: ops' => writes (op_prog o) m ++ ops_writes ops' (snd (M_Sink.run (op_prog o) m))
  end.

(** What [with_counter] returns: a profiler (with its sinks), an error, or it panics. *)
Inductive start_result := Started (m : mem) | Refused | Panicked.
(** profiler.rs:54-58: [std::env::args] panics at an argument that is not Unicode *)
Fixpoint unicode (args : list (option (list Z))) : option (list (list Z)) :=
  match args with
  | [] => Some []
  | None :: _ => None
  | Some a :: args' => match unicode args' with Some l => Some (a :: l) | None => None end
  end.
(** the sinks once the stream headers have been written to them, profiler.rs:38-48 *)
Definition fresh_sinks : mem := snd (run_ops init_headers mem0).
(** dropping the profiler drops the sinks in the order of the fields, profiler.rs:12-16, stringtable.rs:241-244 *)
Definition drop_all : list op := [ODrop TEvents; ODrop TStrData; ODrop TStrIndex].
(** profiler.rs:26-72; [k]: the counter *)
Definition with_counter (h : host) (w : fsys) (stem : path) (k : counter_kind) : fsys * start_result :=
  let f := with_extension stem FILE_EXTENSION in                                       (* :30 *)
  match parent f with
  | None => (w, Panicked)                                                              (* :32 [unwrap] *)
  | Some dir =>
      match create_dir_all h (List.length dir) w dir with                              (* :32 *)
      | (w1, false) => (w1, Refused)
      | (w1, true) =>
          match file_create h w1 f with                                                (* :33 *)
          | (_, false) => (w1, Refused)
          | (w2, true) =>
              let '(head, fine, d) := write_files (h_device h) (header_writes FILE_MAGIC_TOP_LEVEL) in  (* :36 *)
              if negb fine then (fill w2 f head, Refused)
              else
                match unicode (h_args h), 0 <=? h_clock h with                         (* :55, 61-64 *)
                | Some args, true =>
                    let md := metadata_text (h_clock h) (h_pid h) args k in            (* :60-69 *)
                    let '(r, m1) := M_Sink.run (op_prog (init_alloc md)) fresh_sinks in       (* stringtable.rs:314-319 *)
                    match r, (do r0 <- r; init_op2 r0) with
                    | Ok _, Ok o2 =>
                        let '(r2, m2) := M_Sink.run (op_prog o2) m1 in
                        let '(pages, fine, _) := write_files d (writes (op_prog (init_alloc md)) fresh_sinks ++ writes (op_prog o2) m1) in
                        match r2, fine with
                        | Ok _, true => (fill w2 f (head ++ pages), Started m2)
                        | _, _ => (fill w2 f (head ++ pages ++ h_unwinding h), Panicked)
                        end
                    | _, _ => (fill w2 f (head ++ h_unwinding h), Panicked)
                    end
                | _, _ =>
                    let '(pages, _, _) := write_files d (ops_writes drop_all fresh_sinks) in
                    (fill w2 f (head ++ pages), Panicked)
                end
          end
      end
  end.
(** profiler.rs:19-24 [Profiler::new] *)
Definition profiler_new (h : host) (w : fsys) (stem : path) : fsys * start_result := with_counter h w stem CWallTime.
(** what the readers see of a file system (M_Programs.v) *)
Definition files_of (w : fsys) : world := fun p => match w p with Some (IsFile b) => Some b | _ => None end.
