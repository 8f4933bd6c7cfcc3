(** What a profiling session is and what its file should contain. *)
From Coq Require Import ZArith List Lia Bool.
From Verif Require Import M_Base M_Sink S_Sink M_Conc S_Conc M_Raw M_Strings S_Utf8 S_Strings M_Session.
Import ListNotations.
Open Scope Z_scope.

(** Arguments have the types Rust demands. *)
Definition call_ok (k : call) : Prop :=
  match k with
  | KAlloc s => sstring_ok s
  | KMap v c => is_u64 v /\ is_u64 c
  | KBulk vs c => Forall is_u64 vs /\ is_u64 c
  | KInstant kind id tid now => is_u64 kind /\ is_u64 id /\ is_u32 tid /\ is_u64 now
  | KInteger kind id tid v => is_u64 kind /\ is_u64 id /\ is_u32 tid /\ is_u64 v
  | KInterval kind id tid start now =>
      is_u64 kind /\ is_u64 id /\ is_u32 tid /\ is_u64 start /\ is_u64 now
  end.

(** [K]: accepted calls and the value the sink returned to each; [L]: the sink operations. *)
Inductive effects (en : endian) : list (call * Z) -> list (op * Z) -> Prop :=
| ef_nil : effects en [] []
| ef_cons k r o K L : call_ok k -> call_op en k = Ok o -> effects en K L ->
    effects en ((k, r) :: K) ((o, r) :: L).

(** A session: what [Profiler::with_counter] does, then the calls of the user.  [md] is the metadata
    text, [r0] the address its allocation returned.  [L] lists all sink operations in the order in
    which they took effect, and their results. *)
Definition session (en : endian) (md : bytes) (r0 : Z) (K : list (call * Z)) (L : list (op * Z)) : Prop :=
  utf8 md /\ sequentially_correct L /\
  exists H o2 r2 L2,
    map fst H = init_headers /\ init_op2 r0 = Ok o2 /\ effects en K L2 /\
    L = H ++ (init_alloc md, r0) :: (o2, r2) :: L2.

(** The string allocations of a session and the ids they returned (the metadata string included). *)
Definition allocated (md : bytes) (r0 : Z) (K : list (call * Z)) (id : Z) (s : sstring) : Prop :=
  (s = SStr md /\ alloc_result r0 = Ok id) \/
  (exists r, In (KAlloc s, r) K /\ alloc_result r = Ok id).

(** The mappings of virtual ids made by the calls, in order. *)
Definition call_mappings (k : call) : list (Z * Z) :=
  match k with
  | KMap v c => [(v, c)]
  | KBulk vs c => map (fun v => (v, c)) vs
  | _ => []
  end.
Definition mappings (K : list (call * Z)) : list (Z * Z) := flat_map (fun k => call_mappings (fst k)) K.
(** The last mapping of a virtual id wins. *)
Fixpoint last_mapping (v : Z) (ms : list (Z * Z)) (d : option Z) : option Z :=
  match ms with
  | [] => d
  | (v', c) :: ms' => last_mapping v ms' (if v' =? v then Some c else d)
  end.
(** What a virtual id stands for: user ids by their last mapping, 100000001 is the metadata. *)
Definition resolved (r0 : Z) (K : list (call * Z)) (v : Z) : option Z :=
  if v =? 100000001 then Some (r0 + 100000003) else last_mapping v (mappings K) None.

(** The event a recording call asks for. *)
Inductive want := WInstant (t : Z) | WInteger (v : Z) | WInterval (s e : Z).
Definition call_event (k : call) : option (Z * Z * Z * want) :=   (* kind, id, thread, payload *)
  match k with
  | KInstant kind id tid now => Some (kind, id, tid, WInstant now)
  | KInteger kind id tid v => Some (kind, id, tid, WInteger v)
  | KInterval kind id tid start now => Some (kind, id, tid, WInterval start now)
  | _ => None
  end.
Fixpoint recorded (K : list (call * Z)) : list (Z * Z * Z * want) :=
  match K with
  | [] => []
  | (k, _) :: K' => match call_event k with Some e => e :: recorded K' | None => recorded K' end
  end.
(** The payload the reader should show: times are the counter value after the profiler's start. *)
Definition shown (start_time : Z) (w : want) : payload :=
  match w with
  | WInstant t => Timestamp (Instant (start_time + t))
  | WInteger v => Integer v
  | WInterval s e => Timestamp (Interval (start_time + s) (start_time + e))
  end.
