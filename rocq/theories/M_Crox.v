(** Model of crox/src/main.rs (cited as main.rs): the Chrome export.

    A lightweight event is represented by the full event it decodes to (as in M_Collapse.v).  Hash
    maps are lists of entries; iteration orders and the outcome of [sort_unstable_by_key] are left
    open: every permutation that is sorted is possible.  Times are nanoseconds since the Unix epoch.
    JSON output is modelled as the records handed to serde, not as text.  [oc]: compiled with
    overflow checks. *)
From Coq Require Import String ZArith List Lia Bool Sorted Permutation.
From Verif Require Import M_Base M_Raw M_V8 M_Map M_Diff.
Import ListNotations.
Open Scope Z_scope.

(** main.rs:233-242 [timestamp_to_min_max] *)
Definition ts_min_max (t : timestamp) : Z * Z :=
  match t with Instant t => (t, t) | Interval s e => (Z.min s e, Z.max s e) end.
(** main.rs:68-83: first and last time of every thread *)
Definition note_span (m : list (Z * (Z * Z))) (e : event) : list (Z * (Z * Z)) :=
  match p_timestamp (ev_payload e) with
  | None => m
  | Some t =>
      let event_span := ts_min_max t in
      match map_get Z.eqb (ev_thread e) m with
      | Some (thread_start, thread_end) =>
          map_put Z.eqb (ev_thread e) (Z.min thread_start (fst event_span), Z.max thread_end (snd event_span)) m
      | None => map_put Z.eqb (ev_thread e) event_span m
      end
  end.
Definition thread_start_and_end (evs : list event) : list (Z * (Z * Z)) := fold_left note_span evs [].

(** [u32] addition *)
Definition u32_add (oc : bool) (a b : Z) : res Z :=
  if a + b <? 2 ^ 32 then Ok (a + b) else if oc then Panic else Ok ((a + b) mod 2 ^ 32).
(** main.rs:100-117: the loop; the state is the rest of [next_end_iter], the map built so far and
    [current_thread_id] *)
Record cx := mkCx { next_ends : list (Z * Z); mapping : list (Z * Z); current_thread_id : Z }.
Definition collapse_one (oc : bool) (s : cx) (x : Z * Z) : res cx :=
  match next_ends s with
  | [] => Panic
  | (next_end, next_thread_id) :: rest =>
      if next_end <? fst x then
        let mapped := match map_get Z.eqb next_thread_id (mapping s) with Some v => v | None => next_thread_id end in
        Ok (mkCx rest (map_put Z.eqb (snd x) mapped (mapping s)) (current_thread_id s))
      else
        do c <- u32_add oc (current_thread_id s) 1;
        Ok (mkCx (next_ends s) (map_put Z.eqb (snd x) (current_thread_id s) (mapping s)) c)
  end.
(** [sort_unstable_by_key(|&(key, _)| key)] of the pairs collected in hash order *)
Definition sorted_by_key (pairs result : list (Z * Z)) : Prop :=
  Permutation pairs result /\ StronglySorted (fun a b => fst a <= fst b) result.
(** main.rs:61-120 [generate_thread_to_collapsed_thread_mapping]: the possible results *)
Inductive thread_mapping (oc : bool) (collapse_threads : bool) (evs : list event) : res (list (Z * Z)) -> Prop :=
| tm_off : collapse_threads = false -> thread_mapping oc collapse_threads evs (Ok [])
| tm_on ends starts : collapse_threads = true ->
    sorted_by_key (map (fun x => (snd (snd x), fst x)) (thread_start_and_end evs)) ends ->
    sorted_by_key (map (fun x => (fst (snd x), fst x)) (thread_start_and_end evs)) starts ->
    thread_mapping oc collapse_threads evs
      (do s <- foldM (collapse_one oc) (mkCx ends [] 0) starts; Ok (mapping s)).

(** main.rs:16-19 [as_micros]: [u64] arithmetic on seconds and nanoseconds *)
Definition as_micros (oc : bool) (d : Z) : res Z :=
  let m := d / 1000000000 * 1000000 in
  do secs <- (if m <? U64 then Ok m else if oc then Panic else Ok (m mod U64));
  u64_add oc secs (d mod 1000000000 / 1000).

(** decimal digits of a [usize] ([{}]) *)
Fixpoint digits_fuel (fuel : nat) (n : Z) (acc : bytes) : bytes :=
  match fuel with
  | O => acc
  | S f => let acc := (48 + n mod 10) :: acc in if n / 10 =? 0 then acc else digits_fuel f (n / 10) acc
  end.
Definition decimal (n : Z) : bytes := digits_fuel (S (Z.to_nat n)) n [].
(** main.rs:122-135 [get_args] *)
Fixpoint number_args (i : Z) (args : list bytes) : list (bytes * bytes) :=
  match args with
  | [] => []
  | a :: args' => (str "arg" ++ decimal i, a) :: number_args (i + 1) args'
  end.
Definition get_args (e : event) : option (list (bytes * bytes)) :=
  match ev_args e with [] => None | _ => Some (fold_left (fun m x => map_put beq (fst x) (snd x) m) (number_args 0 (ev_args e)) []) end.

(** main.rs:27-43 [struct Event] and the two kinds of metadata records, as serialized *)
Inductive record :=
| Complete (name cat : bytes) (ts dur pid tid : Z) (args : option (list (bytes * bytes)))
| ProcessName (pid : Z) (name : bytes)
| ProcessSortIndex (pid : Z) (sort_index : Z).

(** main.rs:152-175: the records of one event *)
Definition export_event (oc : bool) (minimum : option Z) (mapping : list (Z * Z)) (pid : Z) (e : event) : res (list record) :=
  if negb (p_is_interval (ev_payload e)) then Ok []
  else
    do d <- unwrap (duration (ev_payload e));
    if match minimum with Some m => d / 1000 <? m | None => false end then Ok []
    else
      do start <- unwrap (option_map ts_start (p_timestamp (ev_payload e)));
      do since_epoch <- (if 0 <=? start then Ok start else Panic);
      do ts <- as_micros oc since_epoch;
      do dur <- as_micros oc d;
      Ok [Complete (ev_label e) (ev_kind e) ts dur pid
            (match map_get Z.eqb (ev_thread e) mapping with Some t => t | None => ev_thread e end) (get_args e)].

(** [str::find(&str)] *)
Fixpoint starts_with (p b : bytes) : bool :=
  match p, b with
  | [], _ => true
  | x :: p', y :: b' => (x =? y) && starts_with p' b'
  | _ :: _, [] => false
  end.
Fixpoint str_find (p b : bytes) : option Z :=
  if starts_with p b then Some 0
  else match b with
       | [] => None
       | _ :: b' => match str_find p b' with Some n => Some (n + 1) | None => None end
       end.
(** main.rs:176-198: the crate name *)
Definition crate_name_record (md : metadata) : list record :=
  match str_find (str " --crate-name ") (md_cmd md) with
  | None => []
  | Some index =>
      let last := zdrop (index + 14) (md_cmd md) in
      let len := match str_find (str " ") last with Some n => n | None => zlen last end in
      [ProcessName (md_process_id md) (ztake len last)]
  end.
(** main.rs:199-212: the sort index, [as_micros() as u64] *)
Definition sort_index_record (md : metadata) : res record :=
  if 0 <=? md_start_time md then Ok (ProcessSortIndex (md_process_id md) (md_start_time md / 1000 mod U64)) else Panic.

(** main.rs:148-213: the records of one file *)
Definition export_file (oc : bool) (minimum : option Z) (mapping : list (Z * Z)) (md : metadata) (evs : list event) : res (list record) :=
  do rs <- collectM (export_event oc minimum mapping (md_process_id md)) evs;
  do last <- sort_index_record md;
  Ok (concat rs ++ crate_name_record md ++ [last]).
(** main.rs:137-217 [main], for files already loaded: (metadata, events) *)
Inductive crox_main (oc : bool) (collapse_threads : bool) (minimum : option Z) : list (metadata * list event) -> res (list record) -> Prop :=
| cm_nil : crox_main oc collapse_threads minimum [] (Ok [])
| cm_map_panic md evs files : thread_mapping oc collapse_threads evs Panic -> crox_main oc collapse_threads minimum ((md, evs) :: files) Panic
| cm_cons md evs files m rs r : thread_mapping oc collapse_threads evs (Ok m) ->
    export_file oc minimum m md evs = Ok rs -> crox_main oc collapse_threads minimum files r ->
    crox_main oc collapse_threads minimum ((md, evs) :: files) (do r <- r; Ok (rs ++ r))
| cm_panic md evs files m : thread_mapping oc collapse_threads evs (Ok m) ->
    export_file oc minimum m md evs = Panic -> crox_main oc collapse_threads minimum ((md, evs) :: files) Panic.
