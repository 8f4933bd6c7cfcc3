(** Model of mmview/src/main.rs (cited as mmview) and mmedit/src/main.rs (cited as mmedit).

    Simplifications: command line parsing and file access are left out.  A lightweight event is
    represented by the full event it decodes to (as in M_Collapse.v); times are nanoseconds. *)
From Coq Require Import String ZArith List Lia Bool.
From Verif Require Import M_Base M_Raw M_V8 M_Map M_Sink M_Header M_Crox.
Import ListNotations.
Open Scope Z_scope.

(** ** mmview *)
(** mmview:37-41 [system_time_to_micros_since] ([u128], cannot overflow) *)
Definition micros_since (t since : Z) : Z := (if since <=? t then t - since else 0) / 1000.
(** [slice::join(",")] *)
Fixpoint join (sep : bytes) (l : list bytes) : bytes :=
  match l with [] => [] | [x] => x | x :: l' => x ++ sep ++ join sep l' end.
(** [println!] ends lines with a line feed. *)
Definition LF : bytes := [10].
(** mmview:46-56 *)
Definition payload_text (p : payload) (global_start_time : Z) : bytes :=
  match p with
  | Timestamp (Instant t) => decimal (micros_since t global_start_time) ++ str " μs"
  | Timestamp (Interval s e) =>
      decimal (micros_since s global_start_time) ++ str " μs - " ++ decimal (micros_since e global_start_time) ++ str " μs"
  | Integer i => decimal i
  end.
(** mmview:43-67 [print_event] *)
Definition print_event (e : event) (global_start_time : Z) : bytes :=
  str "{" ++ LF ++
  str "    kind: " ++ ev_kind e ++ str "," ++ LF ++
  str "    label: " ++ ev_label e ++ str "," ++ LF ++
  str "    additional_data: [" ++ join (str ",") (ev_args e) ++ str "]," ++ LF ++
  str "    payload: " ++ payload_text (ev_payload e) global_start_time ++ str "," ++ LF ++
  str "    thread_id: " ++ decimal (ev_thread e) ++ str "," ++ LF ++
  str "}" ++ LF.
(** [Iterator::min] *)
Definition iter_min (l : list Z) : option Z :=
  match l with [] => None | x :: l' => Some (fold_left Z.min l' x) end.
(** [LightweightEvent::start] for all events, [filter_map] *)
Definition starts_of (evs : list event) : list Z :=
  concat (map (fun e => match p_timestamp (ev_payload e) with Some t => [ts_start t] | None => [] end) evs).
(** mmview:21-34 [main]: what is printed to the standard output, or the message on the error output *)
Inductive view_out := Printed (text : bytes) | NoEvents.
Fixpoint print_events (thread_id : option Z) (g : Z) (evs : list event) : bytes :=
  match evs with
  | [] => []
  | e :: evs' =>
      match thread_id with
      | Some t => if negb (ev_thread e =? t) then print_events thread_id g evs' else print_event e g ++ print_events thread_id g evs'
      | None => print_event e g ++ print_events thread_id g evs'
      end
  end.
Definition mmview_main (thread_id : option Z) (evs : list event) : view_out :=
  match iter_min (starts_of evs) with
  | Some global_start_time => Printed (print_events thread_id global_start_time evs)
  | None => NoEvents
  end.

(** ** mmedit *)
(** mmedit:30-58: the loop of [truncate].  The rest of the data plays the role of [pos]; every
    iteration consumes a byte, so the length of the data is enough fuel.  [usize] additions cannot
    overflow on a 64-bit machine. *)
Fixpoint truncate_loop (fuel : nat) (data : bytes) (truncated : bytes) (event_page_emitted : bool) : res bytes :=
  match data with
  | [] => Ok truncated
  | tb :: rest =>
      match fuel with
      | O => Diverge
      | S f =>
          match tag_of_byte tb with
          | None => Panic
          | Some t =>
              if zlen rest <? 4 then Panic
              else
                let page_size := le_val (ztake 4 rest) in
                if page_size <=? 0 then Panic
                else if zlen data <? 5 + page_size then Panic
                else
                  let page_bytes := ztake (5 + page_size) data in
                  let data' := zdrop (5 + page_size) data in
                  match t with
                  | TEvents =>
                      if negb event_page_emitted then truncate_loop f data' (truncated ++ page_bytes) true
                      else truncate_loop f data' truncated event_page_emitted
                  | TStrData | TStrIndex => truncate_loop f data' (truncated ++ page_bytes) event_page_emitted
                  end
          end
      end
  end.
(** mmedit:19-61 [truncate] *)
Definition truncate (file_contents : bytes) : res bytes :=
  do file_version <- read_file_header file_contents FILE_MAGIC_TOP_LEVEL;
  if (file_version <? 7) || (8 <? file_version) then Err
  else
    let paged_data := zdrop FILE_HEADER_SIZE file_contents in
    truncate_loop (List.length paged_data) paged_data (ztake FILE_HEADER_SIZE file_contents) false.
