(** What it means that a file contains exactly what several threads recorded. *)
From Coq Require Import ZArith List Lia Bool.
From Verif Require Import M_Base M_Sink S_Sink M_Conc S_Conc M_Raw M_V8 M_Strings S_Utf8 S_Strings S_EventId M_Session S_Session M_Run.
Import ListNotations.
Open Scope Z_scope.

(** The observable history of a sequence of operations executed by one thread. *)
Definition calls_hist (tid : Z) (l : list (op * Z)) : list hev :=
  flat_map (fun x => [HInv tid (fst x); HRet tid (snd x)]) l.

(** [c0]: the state when [Profiler::with_counter] has returned (before that nobody else can use the
    sinks): one thread wrote the headers, allocated the metadata string at [r0] and indexed it. *)
Definition started (md : bytes) (r0 : Z) (c0 : conf) : Prop :=
  exists acts tid H o2 r2, c0 = exec acts conf0 /\ all_idle c0 /\
    map fst H = init_headers /\ init_op2 r0 = Ok o2 /\
    hist c0 = calls_hist tid (H ++ [(init_alloc md, r0); (o2, r2)]).

Definition ucalls_ok (acts : list uact) : Prop := forall tid k, In (UCall tid k) acts -> call_ok k.

(** A history in which every call takes effect once, between its invocation and its return. *)
Inductive ugev :=
| UGInv (tid : Z) (k : call)
| UGEff (tid : Z) (k : call) (r : Z)
| UGRet (tid : Z) (r : Z).
Definition ug_tid (e : ugev) : Z := match e with UGInv t _ | UGEff t _ _ | UGRet t _ => t end.
Fixpoint uerase (g : list ugev) : list uev :=
  match g with
  | [] => []
  | UGInv t k :: g' => UInv t k :: uerase g'
  | UGEff _ _ _ :: g' => uerase g'
  | UGRet t r :: g' => URet t r :: uerase g'
  end.
(** The calls in the order of their effects, with the results returned. *)
Fixpoint ueffects (g : list ugev) : list (call * Z) :=
  match g with
  | [] => []
  | UGEff _ k r :: g' => (k, r) :: ueffects g'
  | _ :: g' => ueffects g'
  end.
Definition uproj (tid : Z) (g : list ugev) : list ugev := filter (fun e => ug_tid e =? tid) g.
(** The life of a thread: one call after the other. *)
Definition thread_life (tid : Z) (l : list (call * Z)) : list ugev :=
  flat_map (fun x => [UGInv tid (fst x); UGEff tid (fst x) (snd x); UGRet tid (snd x)]) l.

(** [K] is a linearization of the observable history [h] of completed calls. *)
Definition linearization (h : list uev) (K : list (call * Z)) : Prop :=
  exists g, uerase g = h /\ ueffects g = K /\ forall tid, exists l, uproj tid g = thread_life tid l.

(** The text an id reads back as; excluded are the entries on which [to_string] is wrong (C15): the
    entry begins with a reference and its first terminator is (address + 9) bytes after its start. *)
Definition faulty (addr : Z) (e : bytes) : Prop :=
  znth 0 e = Some 254 /\ znth (addr + 9) e = Some 255 /\ ~ In 255 (ztake (addr + 9) e).
Definition reads (md : bytes) (r0 : Z) (K : list (call * Z)) (id : Z) (text : bytes) : Prop :=
  denotes (allocated md r0 K) (resolved r0 K) id text /\
  forall c s, (id = c \/ id <= 100000001 /\ resolved r0 K id = Some c) -> allocated md r0 K c s ->
    ~ faulty (c - 100000003) (enc s).

(** The event that should be read for a recorded one. *)
Definition should_read (md : bytes) (r0 : Z) (K : list (call * Z)) (st : Z) (w : Z * Z * Z * want) (e : event) : Prop :=
  match w with
  | (kind, id, tid, w) =>
      reads md r0 K kind (ev_kind e) /\
      (exists text, reads md r0 K id text /\
         ((text = join (ev_label e) (ev_args e) /\ good_text (ev_label e) /\ Forall good_text (ev_args e)))) /\
      ev_payload e = shown st w /\ ev_thread e = tid
  end.

(** The same with calls still in progress: a thread may have called, or the effect may have happened
    without the call having returned. *)
Definition unfinished (tid : Z) (s : option (call * option Z)) : list ugev :=
  match s with
  | None => []
  | Some (k, None) => [UGInv tid k]
  | Some (k, Some r) => [UGInv tid k; UGEff tid k r]
  end.
Definition partial_linearization (h : list uev) (K : list (call * Z)) : Prop :=
  exists g, uerase g = h /\ ueffects g = K /\
    forall tid, exists l s, uproj tid g = thread_life tid l ++ unfinished tid s.

(** 32 bytes that decode, on any machine, to a recorded event. *)
Definition event_record (b : bytes) (w : Z * Z * Z * want) : Prop :=
  zlen b = 32 /\ forall en, exists e, deserialize en b = Ok e /\
    event_kind e = fst (fst (fst w)) /\ event_id e = snd (fst (fst w)) /\ thread_id e = snd (fst w) /\
    forall st, payload_from_raw_event e st = Ok (shown st (snd w)).
