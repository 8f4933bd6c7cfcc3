(** Model of the event iterator, analyzeme/src/profiling_data.rs:126-182.  The decoder is given by
    the number of events and a decoding function (out-of-range indices panic). *)
From Coq Require Import ZArith List Lia Bool.
From Verif Require Import M_Base.
Import ListNotations.
Open Scope Z_scope.

Section Iter.
Context {A : Type}.
(** [data.num_events()] and [data.decode_lightweight_event] *)
Variable num_events : Z.
Variable decode : Z -> res A.

(** profiling_data.rs:126-130 *)
Record iter := mkIter { forward_idx : Z; backward_idx : Z }.

(** profiling_data.rs:133-139 [ProfilerEventIterator::new] *)
Definition iter_new : iter := mkIter 0 num_events.

(** profiling_data.rs:145-156 [next]; [checked_add] on usize *)
Definition iter_next (it : iter) : res (option A * iter) :=
  if forward_idx it =? backward_idx it then Ok (None, it)
  else
    do ev <- decode (forward_idx it);
    if forward_idx it + 1 <? 18446744073709551616
    then Ok (Some ev, mkIter (forward_idx it + 1) (backward_idx it))
    else Panic.

(** profiling_data.rs:158-164 [size_hint] (both components), used by [len] of
    [ExactSizeIterator] (profiling_data.rs:319) *)
Definition iter_size_hint (it : iter) : res (Z * option Z) :=
  if forward_idx it <=? backward_idx it
  then Ok (backward_idx it - forward_idx it, Some (backward_idx it - forward_idx it))
  else Panic.

(** profiling_data.rs:168-177 [next_back] *)
Definition iter_next_back (it : iter) : res (option A * iter) :=
  if forward_idx it =? backward_idx it then Ok (None, it)
  else
    if 0 <? backward_idx it then
      do ev <- decode (backward_idx it - 1);
      Ok (Some ev, mkIter (forward_idx it) (backward_idx it - 1))
    else Panic.

(** A client program: a sequence of calls ([true]: [next], [false]: [next_back]), the size hint
    being asked for before every call. *)
Fixpoint iter_run (calls : list bool) (it : iter) : res (list (Z * option A)) :=
  match calls with
  | [] => Ok []
  | c :: calls' =>
      do h <- iter_size_hint it;
      do r <- (if c then iter_next it else iter_next_back it);
      do rest <- iter_run calls' (snd r);
      match snd h with
      | Some n => if n =? fst h then Ok ((n, fst r) :: rest) else Panic
      | None => Panic
      end
  end.

(** [for e in data.iter()]: calling [next] until [None]; [fuel] bounds the number of calls. *)
Fixpoint iter_collect (fuel : nat) (it : iter) : res (list A) :=
  match fuel with
  | O => Diverge
  | S f =>
      do r <- iter_next it;
      match fst r with
      | None => Ok []
      | Some a => do rest <- iter_collect f (snd r); Ok (a :: rest)
      end
  end.
(** [data.iter().rev()]: calling [next_back] until [None]. *)
Fixpoint iter_collect_back (fuel : nat) (it : iter) : res (list A) :=
  match fuel with
  | O => Diverge
  | S f =>
      do r <- iter_next_back it;
      match fst r with
      | None => Ok []
      | Some a => do rest <- iter_collect_back f (snd r); Ok (a :: rest)
      end
  end.
End Iter.
