(** Model of the standard output when a write can fail: [Stdout] of the standard library (a [LineWriter], std/src/io/buffered/linewritershim.rs)
    as [println!] uses it (mmview/src/main.rs:58-66, summarize/src/aggregate.rs:545-571).

    A closed standard output is /dev/null for a Rust program.  Not modelled: the error output; the tables of summarize (the crate prettytable
    prints them, also to [Stdout]). *)
From Coq Require Import String ZArith List Lia Bool.
From Verif Require Import M_Base M_Map M_Path M_Programs M_Output.
Import ListNotations.
Open Scope Z_scope.

(** [LineWriter::new]: the size of the buffer; [in_file]: what has arrived on the other side *)
Definition LINE_CAPACITY : Z := 1024.
(** [memrchr]: what a text has up to its last line feed, and the rest *)
Fixpoint split_lines (b : bytes) : bytes * bytes :=
  match b with
  | [] => ([], [])
  | c :: b' =>
      match split_lines b' with
      | ([], r) => if c =? 10 then ([c], r) else ([], c :: r)
      | (l, r) => (c :: l, r)
      end
  end.
(** [LineWriterShim::write_all] *)
Definition line_write_all (w : bufwriter) (b : bytes) : bufwriter * bool :=
  match split_lines b with
  | ([], _) =>
      (* flush_if_completed_line *)
      let '(w, fine) := match rev (buffer w) with 10 :: _ => flush_buf w | _ => (w, true) end in
      if fine then bw_write_all LINE_CAPACITY w b else (w, false)
  | (lines, tail) =>
      let '(w, fine) :=
        match buffer w with
        | [] =>
            let '(taken, left_, rest) := write_loop (script (dev w)) (broken (dev w)) lines in
            (mkBw (in_file w ++ taken) [] (mkDev rest (broken (dev w))), match left_ with [] => true | _ => false end)
        | _ =>
            let '(w, fine) := bw_write_all LINE_CAPACITY w lines in
            if fine then flush_buf w else (w, false)
        end in
      if fine then bw_write_all LINE_CAPACITY w tail else (w, false)
  end.
(** [println!]: the pieces of the format string and of its arguments one after the other; after an error the rest is not written *)
Fixpoint print_pieces (w : bufwriter) (pieces : list bytes) : bufwriter * bool :=
  match pieces with
  | [] => (w, true)
  | b :: pieces' => let '(w, fine) := line_write_all w b in if fine then print_pieces w pieces' else (w, false)
  end.
(** One [println!] after the other; an error is a panic ([false]) *)
Fixpoint print_lines (w : bufwriter) (calls : list (list bytes)) : bufwriter * bool :=
  match calls with
  | [] => (w, true)
  | l :: calls' => let '(w, fine) := print_pieces w l in if fine then print_lines w calls' else (w, false)
  end.
(** std/src/io/stdio.rs [cleanup]: what is in the buffer is written when the process exits, also after a panic, but not when it is killed
    by an overflow of the stack *)
Definition at_exit (w : bufwriter) (e : ending) : bytes := match e with Hang => in_file w | _ => bw_drop w end.
(** A program that prints and then ends with [e], on a standard output: what arrives, and how it ends *)
Definition print_run (d : device) (calls : list (list bytes)) (e : ending) : bytes * ending :=
  let '(w, fine) := print_lines (mkBw [] [] d) calls in
  let e := if fine then e else Crash in (at_exit w e, e).

(** The calls of [println!] of a text: each ends with a line feed. *)
Definition printed_as (text : bytes) (calls : list (list bytes)) : Prop :=
  concat (map (@concat Z) calls) = text /\ Forall (fun l => exists line, concat l = line ++ [10]) calls.
(** mmview and [summarize aggregate] on a standard output: the other files, what arrives, how it ends *)
Inductive printed_on (d : device) (s : setup) (w : world) : command -> world -> bytes -> ending -> Prop :=
| po_view f t text calls : shown (mmview_cmd s w f t) = Some (M_Tools.Printed text) -> printed_as text calls ->
    let out := print_run d calls (ends (mmview_cmd s w f t)) in
    printed_on d s w (View f t) (after (mmview_cmd s w f t)) (fst out) (snd out)
| po_aggregate files r text calls : aggregate_cmd s w files r -> shown r = Some text -> printed_as text calls ->
    let out := print_run d calls (ends r) in
    printed_on d s w (Aggregate files) (after r) (fst out) (snd out).
