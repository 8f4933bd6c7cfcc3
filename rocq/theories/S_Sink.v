(** Specification vocabulary for the paged container, independent of how the sinks work. *)
From Coq Require Import ZArith List Lia Bool.
From Verif Require Import M_Base M_Sink.
Import ListNotations.
Open Scope Z_scope.

(** The byte string an operation writes: what the callback leaves in the buffer it is given, resp.
    the slice passed in; flushing and dropping write nothing. *)
Definition op_data (o : op) : bytes :=
  match o with
  | OWriteAtomic _ n cb => fst (cb (zeros n))
  | OWriteBytes _ bs => bs
  | OStdWrite _ bs => bs
  | OStdFlush _ => []
  | ODrop _ => []
  end.

(** The stream an operation goes to. *)
Definition op_tag (o : op) : tag :=
  match o with
  | OWriteAtomic t _ _ | OWriteBytes t _ | OStdWrite t _ | OStdFlush t | ODrop t => t
  end.

(** What an operation has to return if [n] bytes were written to its stream before it. *)
Definition op_result (o : op) (n : Z) : Z :=
  match o with
  | OWriteAtomic _ _ _ | OWriteBytes _ _ => n
  | OStdWrite _ bs => zlen bs
  | OStdFlush _ | ODrop _ => 0
  end.

(** An admissible call: the size is not negative, and the callback (which holds a [&mut [u8]] of
    that size, so cannot change its length) returns normally. *)
Definition op_ok (o : op) : Prop :=
  match o with
  | OWriteAtomic _ n cb => 0 <= n /\ zlen (fst (cb (zeros n))) = n /\ snd (cb (zeros n)) = false
  | _ => True
  end.

(** All bytes written to stream [t] by a sequence of operations, in order. *)
Fixpoint written (t : tag) (ops : list op) : bytes :=
  match ops with
  | [] => []
  | o :: ops' => (if tag_eqb (op_tag o) t then op_data o else []) ++ written t ops'
  end.

(** What [split_streams] should return for given stream contents: a tag is present iff its stream
    is not empty. *)
Definition present (b : bytes) : option bytes := match b with [] => None | _ => Some b end.
Definition streams_of (f : tag -> bytes) : tmap (option bytes) :=
  TM (present (f TEvents)) (present (f TStrData)) (present (f TStrIndex)).

(** The documented page encoding (serialization.rs:18-26): tag, little endian u32 size, contents.
    The three tags are the documented ones (serialization.rs:48-53), written out here again. *)
Definition page_tag (t : tag) : Z :=
  match t with TEvents => 0 | TStrData => 1 | TStrIndex => 2 end.
Definition page := (tag * bytes)%type.
Definition page_ok (p : page) : Prop := 0 < zlen (snd p) <= 256 * 1024.
Definition enc_page (p : page) : bytes := [page_tag (fst p)] ++ le_bytes 4 (zlen (snd p)) ++ snd p.
Definition enc_pages (ps : list page) : bytes := concat (map enc_page ps).
(** The contents of the pages with tag [t], concatenated. *)
Fixpoint stream (t : tag) (ps : list page) : bytes :=
  match ps with
  | [] => []
  | (t', b) :: ps' => (if tag_eqb t' t then b else []) ++ stream t ps'
  end.

Definition prefix {A} (a b : list A) : Prop := exists c, b = a ++ c.

(** Pages as they may occur in any file: non-empty, size fits u32. *)
Definition page_wf (p : page) : Prop := 0 < zlen (snd p) < 256 ^ 4.

(** Dropping sinks. *)
Definition is_drop (o : op) : Prop := exists t, o = ODrop t.

(** Operations that write out the buffer as a page regardless of its size. *)
Definition op_flushes (o : op) : Prop :=
  match o with OStdFlush _ | ODrop _ => True | _ => False end.

(** [P] is what stream [t] contained just before an operation of the list that flushes the sink or
    whose data does not fit into a page together with everything in [P]. *)
Definition page_boundary (t : tag) (ops : list op) (P : bytes) : Prop :=
  P = [] \/
  exists l1 o l2, ops = l1 ++ o :: l2 /\ P = written t l1 /\ op_tag o = t /\
    (op_flushes o \/ 256 * 1024 < zlen P + zlen (op_data o)).
