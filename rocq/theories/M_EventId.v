(** Model of measureme/src/event_id.rs (building event ids) and of the event id parser in
    decodeme/src/event.rs. *)
From Coq Require Import ZArith List Lia Bool.
From Verif Require Import M_Base M_Sink M_Utf8 M_Strings M_StrTable.
Import ListNotations.
Open Scope Z_scope.

(** event_id.rs:19 and decodeme/event.rs:66 *)
Definition SEPARATOR_BYTE : Z := 30.

(** event_id.rs:68-71 [EventIdBuilder::from_label] and :41-43 [EventId::from_label] *)
Definition from_label (label : Z) : Z := label.
(** event_id.rs:46-48 [EventId::from_virtual] *)
Definition from_virtual (id : Z) : Z := id.
(** event_id.rs:73-82 [from_label_and_arg]: the string it allocates *)
Definition label_and_arg (label arg : Z) : sstring :=
  SComps [CRef label; CValue [SEPARATOR_BYTE]; CRef arg].
(** event_id.rs:89-92 the loop *)
Fixpoint push_args (parts : list component) (args : list Z) : list component :=
  match args with
  | [] => parts
  | arg :: rest => push_args ((parts ++ [CValue [SEPARATOR_BYTE]]) ++ [CRef arg]) rest
  end.
(** event_id.rs:84-96 [from_label_and_args]: the string it allocates *)
Definition label_and_args (label : Z) (args : list Z) : sstring :=
  SComps (push_args [CRef label] args).

(** decodeme/event.rs:62-65 [struct Parser] *)
Record parser := mkParser { full_text : bytes; pos : Z }.

(** [u8::is_ascii_whitespace]: space, tab, line feed, form feed, carriage return *)
Definition is_ascii_whitespace (b : Z) : bool :=
  (b =? 32) || (b =? 9) || (b =? 10) || (b =? 12) || (b =? 13).
(** [u8::is_ascii_control]: 0..=31 and 127 *)
Definition is_ascii_control (b : Z) : bool := ((0 <=? b) && (b <=? 31)) || (b =? 127).

(** decodeme/event.rs:119-126 [err]: formats a message, which requires [full_text] to be UTF-8 *)
Definition parser_err {A} (p : parser) : res A :=
  if utf8_valid (full_text p) then Err else Panic.

(** decodeme/event.rs:128-136 [substring]; [unwrap] of [from_utf8] *)
Definition substring (p : parser) (start end_ : Z) : res bytes :=
  let s := zslice start end_ (full_text p) in
  if utf8_valid s then Ok s else Panic.

(** decodeme/event.rs:83-105 [parse_separator_terminated_text]; the new position is returned also
    when the result is an error *)
Definition parse_separator_terminated_text (p : parser) : res bytes * parser :=
  let start := pos p in
  if zlen (full_text p) <? start then (Panic, p)
  else
    let end_ := match memchr SEPARATOR_BYTE (zdrop start (full_text p)) with
                | Some n => n + start
                | None => zlen (full_text p)
                end in
    if start =? end_ then (parser_err p, p)
    else
      let p' := mkParser (full_text p) end_ in
      if existsb is_ascii_control
           (filter (fun x => negb (is_ascii_whitespace x)) (zslice start end_ (full_text p)))
      then (parser_err p', p')
      else (substring p' start end_, p').

(** decodeme/event.rs:78-81 [parse_label] *)
Definition parse_label (p : parser) : res bytes * parser :=
  if pos p =? 0 then parse_separator_terminated_text p else (Panic, p).

(** decodeme/event.rs:107-117 [parse_arg]; [peek] (:74-76) indexes *)
Definition parse_arg (p : parser) : res bytes * parser :=
  match znth (pos p) (full_text p) with
  | None => (Panic, p)
  | Some b =>
      if b =? SEPARATOR_BYTE
      then parse_separator_terminated_text (mkParser (full_text p) (pos p + 1))
      else (parser_err p, p)
  end.

(** decodeme/event.rs:46-55 the [while] loop; [fuel] bounds the number of iterations *)
Fixpoint parse_args (fuel : nat) (p : parser) : res (list bytes) :=
  match fuel with
  | O => Diverge
  | S f =>
      if pos p =? zlen (full_text p) then Ok []
      else
        match parse_arg p with
        | (Ok arg, p') => do rest <- parse_args f p'; Ok (arg :: rest)
        | (Err, _) => Ok []
        | (Panic, _) => Panic
        | (Diverge, _) => Diverge
        end
  end.

(** decodeme/event.rs:38: "<parse error>" *)
Definition PARSE_ERROR : bytes := [60; 112; 97; 114; 115; 101; 32; 101; 114; 114; 111; 114; 62].

(** decodeme/event.rs:30-58 [parse_event_id].  The two cases of the [Cow] differ only in whether the
    text is copied. *)
Definition parse_event_id (event_id : bytes) : res (bytes * list bytes) :=
  let p := mkParser event_id 0 in
  match parse_label p with
  | (Ok label, p') =>
      do args <- parse_args (S (length event_id)) p';
      Ok (label, args)
  | (Err, _) => Ok (PARSE_ERROR, [])
  | (Panic, _) => Panic
  | (Diverge, _) => Diverge
  end.
