(** Model of the messages on stderr when event ids are parsed (decodeme/src/event.rs:30-137) and of reading all events with them.

    The functions are those of M_EventId.v, M_Session.v and M_Run.v with the text of the errors and with what has been printed when they return or fail.
    Writing to stderr never fails here. *)
From Coq Require Import String ZArith List Lia Bool.
From Verif Require Import M_Base M_Map M_Raw M_Header M_Utf8 M_StrTable M_EventId M_V8 M_Session M_Iter M_Crox M_Open.
Import ListNotations.
Open Scope Z_scope.

(** A computation that prints: its result, and what it has printed. *)
Definition said (A : Type) : Type := (res A * bytes)%type.
Definition sbind {A B} (x : said A) (f : A -> said B) : said B :=
  match fst x with
  | Ok a => let y := f a in (fst y, snd x ++ snd y)
  | Err => (Err, snd x)
  | Panic => (Panic, snd x)
  | Diverge => (Diverge, snd x)
  end.
Definition silent {A} (r : res A) : said A := (r, []).

(** event.rs:119-126 [err]; [unwrap] of [from_utf8] *)
Definition d_err {A} (p : parser) (message : bytes) : eres A :=
  if utf8_valid (full_text p)
  then EErr (str "Could not parse `event_id`. " ++ message ++ str " at " ++ decimal (pos p) ++ str " in """ ++ full_text p ++ str """")
  else EPanic.
(** event.rs:128-136 [substring] *)
Definition d_substring (p : parser) (start end_ : Z) : eres bytes :=
  let t := zslice start end_ (full_text p) in if utf8_valid t then EOk t else EPanic.
(** event.rs:83-105 [parse_separator_terminated_text] *)
Definition d_text (p : parser) : eres bytes * parser :=
  let start := pos p in
  if zlen (full_text p) <? start then (EPanic, p)
  else
    let end_ := match memchr SEPARATOR_BYTE (zdrop start (full_text p)) with
                | Some n => n + start
                | None => zlen (full_text p)
                end in
    if start =? end_ then (d_err p (str "Zero-length <text>"), p)
    else
      let p' := mkParser (full_text p) end_ in
      if existsb is_ascii_control (filter (fun x => negb (is_ascii_whitespace x)) (zslice start end_ (full_text p)))
      then (d_err p' (str "Found ASCII control character in <text>"), p')
      else (d_substring p' start end_, p').
(** event.rs:78-81 [parse_label] *)
Definition d_label (p : parser) : eres bytes * parser :=
  if pos p =? 0 then d_text p else (EPanic, p).
(** event.rs:107-117 [parse_arg]; [{:x}] of the separator is "1e" *)
Definition d_arg (p : parser) : eres bytes * parser :=
  match znth (pos p) (full_text p) with
  | None => (EPanic, p)
  | Some b =>
      if b =? SEPARATOR_BYTE
      then d_text (mkParser (full_text p) (pos p + 1))
      else (d_err p (str "Expected '\x1e' char at start of <argument>"), p)
  end.
(** [eprintln!("{}", message)], event.rs:39, 51 *)
Definition eprintln (message : bytes) : bytes := message ++ [10].
(** event.rs:46-55 the [while] loop *)
Fixpoint d_args (fuel : nat) (p : parser) : said (list bytes) :=
  match fuel with
  | O => (Diverge, [])
  | S f =>
      if pos p =? zlen (full_text p) then (Ok [], [])
      else
        match d_arg p with
        | (EOk arg, p') => sbind (d_args f p') (fun rest => silent (Ok (arg :: rest)))
        | (EErr message, _) => (Ok [], eprintln message)
        | (EPanic, _) => (Panic, [])
        | (EDiverge, _) => (Diverge, [])
        end
  end.
(** event.rs:30-58 [parse_event_id] *)
Definition d_event_id (event_id : bytes) : said (bytes * list bytes) :=
  match d_label (mkParser event_id 0) with
  | (EOk label, p') => sbind (d_args (S (List.length event_id)) p') (fun args => silent (Ok (label, args)))
  | (EErr message, _) => (Ok (PARSE_ERROR, []), eprintln message)
  | (EPanic, _) => (Panic, [])
  | (EDiverge, _) => (Diverge, [])
  end.
(** decodeme/lib.rs:164-189 [decode_full_event]: the event id is parsed before the string of the kind is read *)
Definition d_full_event (fuel : nat) (en : endian) (d : decoder) (i : Z) : said event :=
  sbind (silent (raw_at en d i)) (fun e =>
  sbind (silent (payload_from_raw_event e (md_start_time (d_metadata d)))) (fun p =>
  sbind (silent (to_string fuel (stringtable d) (event_id e))) (fun id =>
  sbind (d_event_id id) (fun parsed =>
  sbind (silent (to_string fuel (stringtable d) (event_kind e))) (fun kind =>
  silent (Ok (mkEv kind (fst parsed) (snd parsed) p (thread_id e)))))))).
(** profiling_data.rs:98-106, 141-156: [for e in data.iter_full()], which decodes the lightweight event and then the full event, one index after the
    other; [fuel] bounds the number of calls of [next] *)
Fixpoint d_iter_full (calls fuel : nat) (en : endian) (d : decoder) (it : iter) : said (list event) :=
  match calls with
  | O => (Diverge, [])
  | S calls' =>
      sbind (silent (iter_next (decode_lightweight_event en d) it)) (fun r =>
      match fst r with
      | None => silent (Ok [])
      | Some lw =>
          sbind (d_full_event fuel en d (lw_index lw)) (fun e =>
          sbind (d_iter_full calls' fuel en d (snd r)) (fun es => silent (Ok (e :: es))))
      end)
  end.
Definition d_read (fuel : nat) (en : endian) (d : decoder) : said (list event) :=
  sbind (silent (num_events d)) (fun n => d_iter_full fuel fuel en d (iter_new n)).
