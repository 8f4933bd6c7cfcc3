(** Model of how the tools get their output into a file when a write can fail: [File::write_all], [BufWriter] and
    [std::fs::write] of the standard library as the tools use them (crox/src/main.rs:140-143, 217-219; stack_collapse/src/main.rs:21-29;
    summarize/src/main.rs:75-82; mmedit/src/main.rs:71).

    Not modelled: flamegraph (the writer is handed to inferno).  The standard output: M_Stdout.v. *)
From Coq Require Import String ZArith List Lia Bool.
From Verif Require Import M_Base M_Map M_Path M_Programs.
Import ListNotations.
Open Scope Z_scope.

(** What one call of [write(2)] does: it takes some bytes (at least one), it is interrupted, or it fails. *)
Inductive outcome := Took (n : Z) | Interrupted | Failed.
(** The calls to come: first those listed, then all of them fail ([broken]) or take everything. *)
Record device := mkDev { script : list outcome; broken : bool }.

(** The loop of [Write::write_all] for [File] and of [BufWriter::flush_buf]: [write] again until nothing is left, except after an
    error other than [Interrupted].  Result: the bytes taken, the bytes left, the calls to come. *)
Fixpoint write_loop (calls : list outcome) (bad : bool) (b : bytes) : bytes * bytes * list outcome :=
  match b with
  | [] => ([], [], calls)
  | _ :: _ =>
      match calls with
      | [] => if bad then ([], b, []) else (b, [], [])
      | Took n :: calls' =>
          let k := Z.max 1 (Z.min n (zlen b)) in
          let '(taken, left_, rest) := write_loop calls' bad (zdrop k b) in (ztake k b ++ taken, left_, rest)
      | Interrupted :: calls' => write_loop calls' bad b
      | Failed :: calls' => ([], b, calls')
      end
  end.

(** A [BufWriter<File>]: the contents of the file, the buffer, the device. *)
Record bufwriter := mkBw { in_file : bytes; buffer : bytes; dev : device }.
(** [DEFAULT_BUF_SIZE] of the standard library *)
Definition CAPACITY : Z := 8192.
(** [BufWriter::flush_buf]: what was taken leaves the buffer; [true]: no error *)
Definition flush_buf (w : bufwriter) : bufwriter * bool :=
  let '(taken, left_, rest) := write_loop (script (dev w)) (broken (dev w)) (buffer w) in
  (mkBw (in_file w ++ taken) left_ (mkDev rest (broken (dev w))), match left_ with [] => true | _ => false end).
(** [BufWriter::write_all] and [write_all_cold], for a buffer of that size *)
Definition bw_write_all (capacity : Z) (w : bufwriter) (b : bytes) : bufwriter * bool :=
  let spare := capacity - zlen (buffer w) in
  if zlen b <? spare then (mkBw (in_file w) (buffer w ++ b) (dev w), true)
  else
    let '(w, fine) := if spare <? zlen b then flush_buf w else (w, true) in
    if negb fine then (w, false)
    else if capacity <=? zlen b then
      let '(taken, left_, rest) := write_loop (script (dev w)) (broken (dev w)) b in
      (mkBw (in_file w ++ taken) (buffer w) (mkDev rest (broken (dev w))), match left_ with [] => true | _ => false end)
    else (mkBw (in_file w) (buffer w ++ b) (dev w), true).
(** [impl Drop for BufWriter]: flushes, the error is dropped *)
Definition bw_drop (w : bufwriter) : bytes := in_file (fst (flush_buf w)).
(** Writing piece after piece with [?], then dropping the writer: the file and whether there was no error *)
Fixpoint write_pieces (w : bufwriter) (pieces : list bytes) : bufwriter * bool :=
  match pieces with
  | [] => (w, true)
  | b :: pieces' => let '(w, fine) := bw_write_all CAPACITY w b in if fine then write_pieces w pieces' else (w, false)
  end.
Definition save_buffered (d : device) (pieces : list bytes) : bytes * bool :=
  let '(w, fine) := write_pieces (mkBw [] [] d) pieces in (bw_drop w, fine).
(** [std::fs::write]: [File::create] and [write_all] *)
Definition save_direct (d : device) (b : bytes) : bytes * bool :=
  let '(taken, left_, _) := write_loop (script d) (broken d) b in (taken, match left_ with [] => true | _ => false end).

(** The file a command writes, and whether through a [BufWriter] (crox/src/main.rs:140, stack_collapse/src/main.rs:21,
    summarize/src/main.rs:79) or with [std::fs::write] (mmedit/src/main.rs:71) *)
Definition output_of (c : command) : option (path * bool) :=
  match c with
  | Summarize f true _ => Some (json_path f, true)
  | Diff _ change _ true => Some (json_path change, true)
  | StackCollapse _ => Some ([Normal (str "out.stacks_folded")], true)
  | Truncate f => Some (truncated_path f, false)
  | Crox _ _ _ _ => Some ([Normal (str "chrome_profiler.json")], true)
  | _ => None
  end.
(** The run of a program that succeeds when every write does, on a device: the same output is handed over in some pieces, and an error
    is returned from [main] with the text [t]. *)
Inductive ran_on (d : device) (s : setup) (inferno : list bytes -> bytes * bool) (w : world) : command -> world -> ending -> Prop :=
| ran_buffered c w1 p text pieces t : ran s inferno w c w1 Success -> output_of c = Some (p, true) -> w1 p = Some text -> concat pieces = text ->
    let out := save_buffered d pieces in ran_on d s inferno w c (create w p (fst out)) (if snd out then Success else Failure t)
| ran_direct c w1 p text t : ran s inferno w c w1 Success -> output_of c = Some (p, false) -> w1 p = Some text ->
    let out := save_direct d text in ran_on d s inferno w c (create w p (fst out)) (if snd out then Success else Failure t).
