(** Model of measureme/src/serialization.rs.

    Each method of [SerializationSink] is transcribed as a term of type [prog]: a tree of the
    externally visible actions it performs (taking / releasing the sink's own mutex, taking /
    releasing the mutex of the shared backing storage, each individual [write_all] call).  The same
    term is interpreted sequentially ([run]) and concurrently (M_Conc.v). *)
From Coq Require Import ZArith List Lia Bool.
From Verif Require Import M_Base.
Import ListNotations.
Open Scope Z_scope.

(** serialization.rs:37 *)
Definition MAX_PAGE_SIZE : Z := 256 * 1024.
(** serialization.rs:42 *)
Definition MIN_PAGE_SIZE : Z := MAX_PAGE_SIZE / 2.

(** serialization.rs:46-50 [enum PageTag] *)
Inductive tag := TEvents | TStrData | TStrIndex.

Definition tag_eqb (a b : tag) : bool :=
  match a, b with
  | TEvents, TEvents | TStrData, TStrData | TStrIndex, TStrIndex => true
  | _, _ => false
  end.

(** serialization.rs:46-50 the discriminants, [self.page_tag as u8] *)
Definition tag_byte (t : tag) : Z :=
  match t with TEvents => 0 | TStrData => 1 | TStrIndex => 2 end.

(** serialization.rs:52-63 [TryFrom<u8> for PageTag] *)
Definition tag_of_byte (b : Z) : option tag :=
  if b =? 0 then Some TEvents
  else if b =? 1 then Some TStrData
  else if b =? 2 then Some TStrIndex
  else None.

(** One value per tag: the three sinks made by [SerializationSinkBuilder::new_sink]
    (serialization.rs:103-112), their mutexes, and the map returned by [split_streams].
    Simplification: at most one sink per tag and backing storage, as in Profiler; M_Multi.v has any
    number of sinks. *)
Record tmap (A : Type) := TM { tm_ev : A; tm_sd : A; tm_si : A }.
Arguments TM {A} _ _ _.
Arguments tm_ev {A} _.
Arguments tm_sd {A} _.
Arguments tm_si {A} _.
Definition tget {A} (t : tag) (m : tmap A) : A :=
  match t with TEvents => tm_ev m | TStrData => tm_sd m | TStrIndex => tm_si m end.
Definition tset {A} (t : tag) (v : A) (m : tmap A) : tmap A :=
  match t with
  | TEvents => TM v (tm_sd m) (tm_si m)
  | TStrData => TM (tm_ev m) v (tm_si m)
  | TStrIndex => TM (tm_ev m) (tm_sd m) v
  end.
Definition tconst {A} (v : A) : tmap A := TM v v v.

(** serialization.rs:170-173 [SerializationSinkInner] *)
Record sink := mkSink { sbuf : bytes; saddr : Z }.

(** serialization.rs:103-112 [new_sink]: empty buffer, address 0 *)
Definition new_sink : sink := mkSink [] 0.

(** The actions a sink operation performs.  [LockSink]/[UnlockSink] are [self.data.lock()] and the
    drop of the guard ([UnlockSink] carries the contents left behind), [LockShared]/[UnlockShared]
    the same for [shared_state.0], [WriteAll] one [write_all] on the backing storage, [Fail] a
    panic, [Done r] normal return.  I/O errors (which the code turns into panics by [unwrap]) are
    not modelled. *)
Inductive prog :=
| Done (r : Z)
| Fail
| LockSink (t : tag) (k : sink -> prog)
| UnlockSink (t : tag) (s : sink) (k : prog)
| LockShared (k : prog)
| WriteAll (bs : bytes) (k : prog)
| UnlockShared (k : prog).

(** serialization.rs:242-257 [write_page]; [k] is what the caller does next.  The guard [file] is
    dropped at the end of the [if] block. *)
Definition write_page (t : tag) (bs : bytes) (k : prog) : prog :=
  if 0 <? zlen bs then
    if zlen bs <=? MAX_PAGE_SIZE then
      LockShared
        (WriteAll [tag_byte t]
           (WriteAll (le_bytes 4 (zlen bs))
              (WriteAll bs
                 (UnlockShared k))))
    else Fail
  else k.

(** serialization.rs:261-264 [flush]: write the buffer as a page, then clear it (the cleared buffer
    is passed to the continuation). *)
Definition flush (t : tag) (buffer : bytes) (k : bytes -> prog) : prog :=
  write_page t buffer (k []).

(** [slice::chunks(n)]; the fuel is the length of the slice. *)
Fixpoint chunks_fuel {A} (fuel : nat) (n : Z) (l : list A) : list (list A) :=
  match fuel with
  | O => []
  | S f =>
      match l with
      | [] => []
      | _ => ztake n l :: chunks_fuel f n (zdrop n l)
      end
  end.
Definition chunks {A} (n : Z) (l : list A) : list (list A) := chunks_fuel (length l) n l.

(** serialization.rs:378-397 the loop over [bytes_left.chunks(MAX_PAGE_SIZE)].  The
    [debug_assert!(buffer.is_empty())] of line 393 is modelled as an assert. *)
Fixpoint write_chunks (t : tag) (chs : list bytes) (buffer : bytes) (k : bytes -> prog) : prog :=
  match chs with
  | [] => k buffer
  | chunk :: rest =>
      if zlen chunk =? MAX_PAGE_SIZE then
        write_page t chunk (write_chunks t rest buffer k)
      else if MIN_PAGE_SIZE <=? zlen chunk then
        write_page t chunk (write_chunks t rest buffer k)
      else if zlen buffer =? 0 then
        write_chunks t rest (buffer ++ chunk) k
      else Fail
  end.

(** serialization.rs:344-400 [write_bytes_atomic] from line 352 on (more than 128 bytes).  The
    guard on the sink is released when the function returns. *)
Definition write_bytes_large (t : tag) (bs : bytes) (k : Z -> prog) : prog :=
  LockSink t (fun s =>
    let curr_addr := saddr s in
    let addr' := saddr s + zlen bs in
    let n := if zlen (sbuf s) <? MIN_PAGE_SIZE
             then Z.min (MIN_PAGE_SIZE - zlen (sbuf s)) (zlen bs) else 0 in
    let buffer := sbuf s ++ ztake n bs in
    let bytes_left := zdrop n bs in
    if zlen bytes_left =? 0 then
      UnlockSink t (mkSink buffer addr') (k curr_addr)
    else
      flush t buffer (fun buffer1 =>
        write_chunks t (chunks MAX_PAGE_SIZE bytes_left) buffer1 (fun buffer2 =>
          UnlockSink t (mkSink buffer2 addr') (k curr_addr)))).

(** A [write] callback ([FnOnce(&mut [u8])]): given the zeroed buffer it leaves some contents of the
    same length behind and either returns ([false]) or panics ([true]). *)
Definition callback := bytes -> bytes * bool.

(** serialization.rs:301-332 [write_atomic].  In the first branch [num_bytes > MAX_PAGE_SIZE > 128],
    so the call to [write_bytes_atomic] always reaches its line 352 ([write_bytes_large]).  If the
    callback panics in the second branch the guard is dropped by unwinding: the buffer has already
    been grown (line 326) but [addr] has not been advanced (line 329). *)
Definition write_atomic (t : tag) (num_bytes : Z) (cb : callback) (k : Z -> prog) : prog :=
  if MAX_PAGE_SIZE <? num_bytes then
    let '(bs, panicked) := cb (zeros num_bytes) in
    if panicked then Fail else write_bytes_large t bs k
  else
    LockSink t (fun s =>
      let body (buffer : bytes) : prog :=
        let curr_addr := saddr s in
        let '(bs, panicked) := cb (zeros num_bytes) in
        if panicked then UnlockSink t (mkSink (buffer ++ bs) (saddr s)) Fail
        else UnlockSink t (mkSink (buffer ++ bs) (saddr s + num_bytes)) (k curr_addr) in
      if MAX_PAGE_SIZE <? zlen (sbuf s) + num_bytes
      then flush t (sbuf s) body
      else body (sbuf s)).

(** serialization.rs:344-350 [write_bytes_atomic], the dispatch on the size.  The callback is
    [|sink| sink.copy_from_slice(bytes)], which fills the buffer with [bytes]. *)
Definition write_bytes_atomic (t : tag) (bs : bytes) (k : Z -> prog) : prog :=
  if zlen bs <=? 128 then write_atomic t (zlen bs) (fun _ => (bs, false)) k
  else write_bytes_large t bs k.

(** serialization.rs:147-150 [StdWriteAdapter::write]: reports all bytes as written *)
Definition std_write (t : tag) (bs : bytes) (k : Z -> prog) : prog :=
  write_bytes_atomic t bs (fun _ => k (zlen bs)).

(** serialization.rs:152-166 [StdWriteAdapter::flush]; flushing the backing storage itself is a
    no-op on the model's disk. *)
Definition std_flush (t : tag) (k : Z -> prog) : prog :=
  LockSink t (fun s =>
    flush t (sbuf s) (fun buffer =>
      LockShared (UnlockShared (UnlockSink t (mkSink buffer (saddr s)) (k 0))))).

(** serialization.rs:407-417 [Drop for SerializationSink] *)
Definition drop_sink (t : tag) (k : Z -> prog) : prog :=
  LockSink t (fun s =>
    flush t (sbuf s) (fun buffer => UnlockSink t (mkSink buffer (saddr s)) (k 0))).

(** The operations of the public interface of a sink. *)
Inductive op :=
| OWriteAtomic (t : tag) (num_bytes : Z) (cb : callback)
| OWriteBytes (t : tag) (bs : bytes)
| OStdWrite (t : tag) (bs : bytes)
| OStdFlush (t : tag)
| ODrop (t : tag).

(** Which method each operation calls (dispatch only, nothing in /repo). *)
Definition op_prog (o : op) : prog :=
  match o with
  | OWriteAtomic t n cb => write_atomic t n cb Done
  | OWriteBytes t bs => write_bytes_atomic t bs Done
  | OStdWrite t bs => std_write t bs Done
  | OStdFlush t => std_flush t Done
  | ODrop t => drop_sink t Done
  end.

(** The shared memory: backing storage (serialization.rs:118-121, the bytes stored so far), the
    three sinks, and who holds which mutex. *)
Record mem := mkMem {
  disk : bytes;
  sinks : tmap sink;
  slk : tmap (option Z);
  shl : option Z
}.

(** serialization.rs:90-101 a fresh builder and its three sinks *)
Definition mem0 : mem := mkMem [] (tconst new_sink) (tconst None) None.

(** One action of the thread [tid]; [None] if it has to wait for a mutex (or has finished).
    Mutexes are not reentrant (parking_lot). *)
Definition prog_step (tid : Z) (m : mem) (p : prog) : option (mem * prog) :=
  match p with
  | Done _ => None
  | Fail => None
  | LockSink t k =>
      match tget t (slk m) with
      | Some _ => None
      | None => Some (mkMem (disk m) (sinks m) (tset t (Some tid) (slk m)) (shl m),
                      k (tget t (sinks m)))
      end
  | UnlockSink t s k =>
      Some (mkMem (disk m) (tset t s (sinks m)) (tset t None (slk m)) (shl m), k)
  | LockShared k =>
      match shl m with
      | Some _ => None
      | None => Some (mkMem (disk m) (sinks m) (slk m) (Some tid), k)
      end
  | WriteAll bs k => Some (mkMem (disk m ++ bs) (sinks m) (slk m) (shl m), k)
  | UnlockShared k => Some (mkMem (disk m) (sinks m) (slk m) None, k)
  end.

(** Sequential execution: one thread (number 0) alone.  Waiting for a mutex is then [Diverge]. *)
Fixpoint run (p : prog) (m : mem) : res Z * mem :=
  match p with
  | Done r => (Ok r, m)
  | Fail => (Panic, m)
  | LockSink t k =>
      match tget t (slk m) with
      | Some _ => (Diverge, m)
      | None => run (k (tget t (sinks m)))
                    (mkMem (disk m) (sinks m) (tset t (Some 0) (slk m)) (shl m))
      end
  | UnlockSink t s k =>
      run k (mkMem (disk m) (tset t s (sinks m)) (tset t None (slk m)) (shl m))
  | LockShared k =>
      match shl m with
      | Some _ => (Diverge, m)
      | None => run k (mkMem (disk m) (sinks m) (slk m) (Some 0))
      end
  | WriteAll bs k => run k (mkMem (disk m ++ bs) (sinks m) (slk m) (shl m))
  | UnlockShared k => run k (mkMem (disk m) (sinks m) (slk m) None)
  end.

(** A sequential program: the outcomes of all calls, in order, and the final memory.  Calls are
    made even after an earlier one panicked (the panic was caught). *)
Fixpoint run_ops (ops : list op) (m : mem) : list (res Z) * mem :=
  match ops with
  | [] => ([], m)
  | o :: ops' =>
      let '(r, m1) := run (op_prog o) m in
      let '(rs, m2) := run_ops ops' m1 in
      (r :: rs, m2)
  end.

(** serialization.rs:215-235 [split_streams]: the remaining data plays the role of [pos]; every
    iteration consumes at least one byte, so the length of the data is enough fuel. *)
Fixpoint split_loop (fuel : nat) (data : bytes) (acc : tmap (option bytes))
  : res (tmap (option bytes)) :=
  match data with
  | [] => Ok acc
  | tb :: rest =>
      match fuel with
      | O => Diverge
      | S f =>
          match tag_of_byte tb with
          | None => Panic
          | Some t =>
              if zlen rest <? 4 then Panic
              else
                let page_size := le_val (ztake 4 rest) in
                let body := zdrop 4 rest in
                if page_size <=? 0 then Panic
                else if zlen body <? page_size then Panic
                else
                  let old := match tget t acc with Some x => x | None => [] end in
                  split_loop f (zdrop page_size body)
                             (tset t (Some (old ++ ztake page_size body)) acc)
          end
      end
  end.
Definition split_streams (data : bytes) : res (tmap (option bytes)) :=
  split_loop (length data) data (tconst None).

(** serialization.rs:185-193 [copy_bytes_with_page_tag] (in-memory backing storage) *)
Definition copy_bytes_with_page_tag (t : tag) (m : mem) : res bytes :=
  do s <- split_streams (disk m);
  Ok (match tget t s with Some b => b | None => [] end).

(** serialization.rs:269-289 [into_bytes]: flush what is buffered, then copy the stream out.  The
    sink is consumed, so no lock is taken; the dummy contents swapped in are flushed by the drop
    without effect. *)
Definition into_bytes (t : tag) (m : mem) : res bytes :=
  match run (flush t (sbuf (tget t (sinks m))) (fun _ => Done 0)) m with
  | (Ok _, m') => copy_bytes_with_page_tag t m'
  | (Err, _) => Err
  | (Panic, _) => Panic
  | (Diverge, _) => Diverge
  end.
