(** Specification for C38 and C39. *)
From Coq Require Import String ZArith List Lia Bool.
From Verif Require Import M_Base M_Raw M_V8 M_Map M_Sink S_Sink S_Crox.
Import ListNotations.
Open Scope Z_scope.

(** ** mmview *)
(** [d] is the decimal numeral of [n]: digits only, no leading zero. *)
Definition numeral (d : bytes) (n : Z) : Prop :=
  Forall (fun c => 48 <= c <= 57) d /\ denotes d = n /\ (n = 0 -> d = [48]) /\ (0 < n -> exists c t, d = c :: t /\ c <> 48).
(** The earliest start of an instant or interval. *)
Definition starts_at (e : event) (t : Z) : Prop :=
  match ev_payload e with Timestamp (Interval s _) => t = s | Timestamp (Instant i) => t = i | Integer _ => False end.
Definition earliest_start (evs : list event) (t0 : Z) : Prop :=
  (exists e, In e evs /\ starts_at e t0) /\ forall e t, In e evs -> starts_at e t -> t0 <= t.
(** The time of a payload in whole microseconds after [t0]; an end before [t0] shows as 0. *)
Definition shown_payload (t0 : Z) (p : payload) (txt : bytes) : Prop :=
  match p with
  | Timestamp (Instant t) => exists d, numeral d ((t - t0) / 1000) /\ txt = d ++ str " μs"
  | Timestamp (Interval s e) => exists ds de, numeral ds ((s - t0) / 1000) /\ numeral de (Z.max 0 (e - t0) / 1000) /\ txt = ds ++ str " μs - " ++ de ++ str " μs"
  | Integer i => numeral txt i
  end.
(** The additional data, separated by commas. *)
Fixpoint comma_separated (l : list bytes) (txt : bytes) : Prop :=
  match l with
  | [] => txt = []
  | [x] => txt = x
  | x :: l' => exists t, comma_separated l' t /\ txt = x ++ str "," ++ t
  end.
(** The seven lines printed for one event. *)
Definition lines (l : list bytes) : bytes := concat (map (fun x => x ++ [10]) l).
Definition shown (t0 : Z) (e : event) (txt : bytes) : Prop :=
  exists args pay thr, comma_separated (ev_args e) args /\ shown_payload t0 (ev_payload e) pay /\ numeral thr (ev_thread e) /\
    txt = lines [str "{"; str "    kind: " ++ ev_kind e ++ str ","; str "    label: " ++ ev_label e ++ str ",";
                 str "    additional_data: [" ++ args ++ str "],"; str "    payload: " ++ pay ++ str ",";
                 str "    thread_id: " ++ thr ++ str ","; str "}"].
Definition wanted (thread_id : option Z) (e : event) : bool := match thread_id with Some t => ev_thread e =? t | None => true end.
(** [u32] thread ids and [u64] integer payloads *)
Definition event_sane (e : event) : Prop := 0 <= ev_thread e /\ match ev_payload e with Integer i => 0 <= i | _ => True end.

(** ** mmedit *)
Definition no_events_page (p : page) : Prop := fst p <> TEvents.
(** [qs] consists of all string pages of [ps] and its first events page, in the same order. *)
Definition truncation (ps qs : list page) : Prop :=
  (Forall no_events_page ps /\ qs = ps) \/
  (exists pre e post, ps = pre ++ (TEvents, e) :: post /\ Forall no_events_page pre /\
     qs = pre ++ (TEvents, e) :: filter (fun p => negb (tag_eqb (fst p) TEvents)) post).
(** A paged file: magic "MMPD", version, pages. *)
Definition paged_file (version : Z) (ps : list page) : bytes := [77; 77; 80; 68] ++ le_bytes 4 version ++ enc_pages ps.
