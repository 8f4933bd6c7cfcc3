(** Model of analyzeme/src/testing_common.rs, the end-to-end check that the crate exports: what the threads of
    [generate_profiling_data] do, and what [process_profiling_data] does with the file.

    Simplifications: the main thread is thread 0 and the worker with number i is thread 1 + i; the time of day and the counter values
    are inputs; a failed assertion and a failed [unwrap] are [Panic]. *)
From Coq Require Import String ZArith List Lia Bool.
From Verif Require Import M_Base M_Map M_Sink M_Conc M_Raw M_V8 M_Strings M_EventId M_Iter M_Session M_Run M_Guard M_Index S_Whole.
Import ListNotations.
Open Scope Z_scope.

(** testing_common.rs:19-34 [ExpectedEvent] *)
Record template := mkTemplate { t_kind : bytes; t_label : bytes; t_args : list bytes }.
(** testing_common.rs:63-67 *)
Definition templates : list template :=
  [mkTemplate (str "Generic") (str "SomeGenericActivity") [];
   mkTemplate (str "Query") (str "SomeQuery") [];
   mkTemplate (str "QueryWithArg") (str "AQueryWithArg") [str "some_arg"]].
(** testing_common.rs:265-276, 295-301, 308-317: the event that is expected; times are not compared *)
Definition expect (t : template) (tid : Z) (p : payload) : event := mkEv (t_kind t) (t_label t) (t_args t) p tid.

Section Worker.
(** Compiled with overflow checks *)
Variable oc : bool.
(** testing_common.rs:47-60 [event_ids]: kinds and event ids *)
Variable ids : list (Z * Z).
(** The thread number that is recorded *)
Variable tid : Z.

(** The operations on the profiler, each at the counter value it is given, and the events expected of them *)
Definition work : Type := list (Z -> gop) * list event.
(** [event_ids[random % event_ids.len()]] and [expected_events_templates[...]] *)
Definition pick {A} (l : list A) (random : Z) : res A :=
  match znth (random mod zlen ids) l with Some x => Ok x | None => Panic end.
(** testing_common.rs:279-302 *)
Definition pseudo_integer_event (random : Z) : res work :=
  do payload_value <- usize_mul oc random 33;
  do e <- pick ids random;
  do t <- pick templates random;
  Ok ([fun _ => GCall (KInteger (fst e) (snd e) tid payload_value)], [expect t tid (Integer payload_value)]).
(** testing_common.rs:304-319 *)
Definition pseudo_instant_event (random : Z) : res work :=
  do e <- pick ids random;
  do t <- pick templates random;
  Ok ([fun now => GCall (KInstant (fst e) (snd e) tid now)], [expect t tid (Timestamp (Instant 0))]).
(** testing_common.rs:217-277; [_prof_guard] is dropped last; guards are named after [recursions_left] *)
Fixpoint pseudo_invocation (random : Z) (recursions_left : nat) : res work :=
  match recursions_left with
  | O => Ok ([], [])
  | S r =>
      do e <- pick ids random;
      do random7 <- usize_mul oc random 7;
      do a <- pseudo_integer_event random7;
      do random17 <- usize_mul oc random 17;
      do b <- pseudo_invocation random17 r;
      do random23 <- usize_mul oc random 23;
      do c <- pseudo_instant_event random23;
      do t <- pick templates random;
      let h := Z.of_nat (S r) in
      Ok ([fun _ => GStart h (fst e) (snd e) tid] ++ fst a ++ fst b ++ fst c ++ [fun _ => GDrop h],
          snd a ++ snd b ++ snd c ++ [expect t tid (Timestamp (Interval 0 0))])
  end.
(** testing_common.rs:76-92: one thread *)
Definition worker (num_stacks : nat) : res work :=
  do l <- mapM (fun i => pseudo_invocation (Z.of_nat i) 4) (seq 0 num_stacks);
  Ok (concat (map fst l), concat (map snd l)).
End Worker.

(** The operations at their counter values *)
Definition at_times (ops : list (Z -> gop)) (ts : list Z) : list (gop * Z) := map (fun x => (fst x (snd x), snd x)) (combine ops ts).
(** What a thread called and what was returned to it *)
Definition thread_history (tid : Z) (l : list (call * Z)) : list uev := flat_map (fun x => [UInv tid (fst x); URet tid (snd x)]) l.
Definition uev_tid (e : uev) : Z := match e with UInv t _ | URet t _ | UPanic t => t end.
(** testing_common.rs:37-112 [generate_profiling_data]: the history of the calls of its threads, and the list it returns *)
Definition generates (oc : bool) (num_stacks num_threads : nat) (h : list uev) (expected : list event) : Prop :=
  exists addrs generic activity query with_arg label arg event_id some_query r works,
    Forall2 (fun a id => alloc_result a = Ok id) addrs [generic; activity; query; with_arg; label; arg; event_id; some_query] /\
    filter (fun e => uev_tid e =? 0) h = thread_history 0
      (combine (map KAlloc [SStr (str "Generic"); SStr (str "SomeGenericActivity"); SStr (str "Query"); SStr (str "QueryWithArg");
                            SStr (str "AQueryWithArg"); SStr (str "some_arg"); label_and_arg label arg; SStr (str "SomeQuery")]) addrs
       ++ [(KMap 42 some_query, r)]) /\
    let ids := [(generic, from_label activity); (query, from_label 42); (with_arg, event_id)] in
    mapM (fun i => worker oc ids (Z.of_nat i mod 2 ^ 32) num_stacks) (seq 0 num_threads) = Ok works /\
    (forall i w, nth_error works i = Some w -> exists ts, length ts = length (fst w) /\ calls_by (1 + Z.of_nat i) h = grun (fun _ => None) (at_times (fst w) ts)) /\
    (forall t, t < 0 \/ Z.of_nat num_threads < t -> calls_by t h = []) /\
    expected = concat (map snd works).

(** [assert!], [assert_eq!] *)
Definition assert (b : bool) : res unit := if b then Ok tt else Panic.
(** testing_common.rs:182-195 [collect_events_per_thread]: the events of one thread *)
Definition of_thread (t : Z) (es : list event) : list event := filter (fun e => ev_thread e =? t) es.
(** The thread numbers in the order of their first events *)
Fixpoint insertions (seen : list Z) (es : list event) : list Z :=
  match es with
  | [] => seen
  | e :: es' => insertions (if existsb (Z.eqb (ev_thread e)) seen then seen else seen ++ [ev_thread e]) es'
  end.
Fixpoint list_eqb {A} (eqb : A -> A -> bool) (a b : list A) : bool :=
  match a, b with
  | [], [] => true
  | x :: a', y :: b' => eqb x y && list_eqb eqb a' b'
  | _, _ => false
  end.
(** [PartialEq for EventPayload], on the integers *)
Definition same_integer (a b : payload) : bool := match a, b with Integer x, Integer y => x =? y | _, _ => false end.
(** testing_common.rs:158-173 *)
Definition same_event (a e : event) : bool :=
  beq (ev_kind a) (ev_kind e) && beq (ev_label a) (ev_label e) && list_eqb beq (ev_args a) (ev_args e) &&
  Bool.eqb (p_is_interval (ev_payload a)) (p_is_interval (ev_payload e)) &&
  Bool.eqb (p_is_instant (ev_payload a)) (p_is_instant (ev_payload e)) &&
  (if p_is_integer (ev_payload e) then same_integer (ev_payload a) (ev_payload e) else true).

Section Check.
(** The order in which a [FxHashMap] yields its keys, given the order of insertion *)
Variable key_order : list Z -> list Z.
(** testing_common.rs:151-177, the loop: the number of pairs compared *)
Fixpoint check_threads (keys : list Z) (actual expected : list event) : res Z :=
  match keys with
  | [] => Ok 0
  | t :: keys' =>
      let a := of_thread t actual in
      let e := of_thread t expected in
      do _ <- assert (zlen a =? zlen e);
      do _ <- assert (forallb (fun p => same_event (fst p) (snd p)) (combine a e));
      do n <- check_threads keys' actual expected;
      Ok (zlen (combine a e) + n)
  end.
(** testing_common.rs:132-180 [check_profiling_data]; [hint]: the size hint of the iterator over [actual] *)
Definition check_profiling_data (hint : Z * option Z) (actual expected : list event) : res unit :=
  let n := zlen expected in
  do _ <- assert ((fst hint =? n) && match snd hint with Some m => m =? n | None => false end);
  let keys es := key_order (insertions [] es) in
  do _ <- assert (list_eqb Z.eqb (keys actual) (keys expected));
  do count <- check_threads (keys actual) actual expected;
  assert (count =? n).

Variable parse_metadata : bytes -> res metadata.
Variable fuel : nat.
Variable en : endian.
(** testing_common.rs:116-130 [process_profiling_data] on the contents of the file: forwards and backwards *)
Definition process_profiling_data (file : bytes) (expected : list event) : res unit :=
  do d <- decoder_new parse_metadata fuel file;
  do n <- num_events d;
  do hint <- iter_size_hint (iter_new n);
  do forwards <- iter_collect (decode_lightweight_event en d) fuel (iter_new n);
  do actual <- mapM (fun lw => decode_full_event fuel en d (lw_index lw)) forwards;
  do _ <- check_profiling_data hint actual expected;
  do backwards <- iter_collect_back (decode_lightweight_event en d) fuel (iter_new n);
  do actual <- mapM (fun lw => decode_full_event fuel en d (lw_index lw)) backwards;
  check_profiling_data hint actual (rev expected).
End Check.
