(** JSON texts and what they denote, after RFC 8259 (specification for C57-C59).  An object is the list
    of its members in order; a number with a fraction or an exponent is [JFloat] of its text,
    and so is -0 (an integer of a program cannot be minus zero). *)
From Coq Require Import String ZArith List Lia Bool.
From Verif Require Import M_Base M_Raw M_V8 M_Map M_Crox S_Utf8 S_Crox M_Analysis M_Metadata.
Import ListNotations.
Open Scope Z_scope.

(** section 2: insignificant white space *)
Definition ws (b : bytes) : Prop := Forall (fun c => c = 32 \/ c = 9 \/ c = 10 \/ c = 13) b.
(** section 6: numbers *)
Definition digits (ds : bytes) : Prop := Forall (fun d => 48 <= d <= 57) ds.
Definition int_part (ds : bytes) : Prop := digits ds /\ (ds = [48] \/ exists d t, ds = d :: t /\ d <> 48).
Definition frac_part (b : bytes) : Prop := b = [] \/ exists ds, b = 46 :: ds /\ ds <> [] /\ digits ds.
Definition exp_part (b : bytes) : Prop :=
  b = [] \/ exists m s ds, b = m :: s ++ ds /\ (m = 101 \/ m = 69) /\ (s = [] \/ s = [43] \/ s = [45]) /\ ds <> [] /\ digits ds.
Definition sign (neg : bool) : bytes := if neg then [45] else [].
(** a number with a fraction or an exponent *)
Definition float_text (b : bytes) : Prop := exists neg ds f e, b = sign neg ++ ds ++ f ++ e /\ int_part ds /\ frac_part f /\ exp_part e /\ f ++ e <> [].
(** section 7: strings *)
Definition hex_is (h d : Z) : Prop := 48 <= h <= 57 /\ d = h - 48 \/ 97 <= h <= 102 /\ d = h - 87 \/ 65 <= h <= 70 /\ d = h - 55.
Definition hex4_is (h1 h2 h3 h4 u : Z) : Prop :=
  exists a b c d, hex_is h1 a /\ hex_is h2 b /\ hex_is h3 c /\ hex_is h4 d /\ u = ((a * 16 + b) * 16 + c) * 16 + d.
Definition short_escapes : list (Z * Z) := [(34, 34); (92, 92); (47, 47); (98, 8); (102, 12); (110, 10); (114, 13); (116, 9)].
(** what stands between the quotes, and the characters it denotes in UTF-8 *)
Inductive jchars : bytes -> bytes -> Prop :=
| C_nil : jchars [] []
| C_plain c b s : 32 <= c -> c <> 34 -> c <> 92 -> jchars b s -> jchars (c :: b) (c :: s)
| C_short e c b s : In (e, c) short_escapes -> jchars b s -> jchars (92 :: e :: b) (c :: s)
| C_u h1 h2 h3 h4 u b s : hex4_is h1 h2 h3 h4 u -> ~ 55296 <= u <= 57343 -> jchars b s ->
    jchars (92 :: 117 :: h1 :: h2 :: h3 :: h4 :: b) (encode u ++ s)
| C_pair h1 h2 h3 h4 u l1 l2 l3 l4 v b s : hex4_is h1 h2 h3 h4 u -> 55296 <= u <= 56319 ->
    hex4_is l1 l2 l3 l4 v -> 56320 <= v <= 57343 -> jchars b s ->
    jchars (92 :: 117 :: h1 :: h2 :: h3 :: h4 :: 92 :: 117 :: l1 :: l2 :: l3 :: l4 :: b) (encode (65536 + (u - 55296) * 1024 + (v - 56320)) ++ s).
(** sections 3-5 *)
Inductive jtext : bytes -> json -> Prop :=
| T_null : jtext (str "null") JNull
| T_true : jtext (str "true") (JBool true)
| T_false : jtext (str "false") (JBool false)
| T_int neg ds : int_part ds -> ~ (neg = true /\ ds = [48]) -> jtext (sign neg ++ ds) (JInt (if neg then - denotes ds else denotes ds))
| T_negative_zero : jtext (str "-0") (JFloat (str "-0"))
| T_float neg ds f e : int_part ds -> frac_part f -> exp_part e -> f ++ e <> [] -> jtext (sign neg ++ ds ++ f ++ e) (JFloat (sign neg ++ ds ++ f ++ e))
| T_str b s : jchars b s -> jtext (34 :: b ++ [34]) (JStr s)
| T_arr0 w : ws w -> jtext (91 :: w ++ [93]) (JArr [])
| T_arr b l : jelems b l -> jtext (91 :: b ++ [93]) (JArr l)
| T_obj0 w : ws w -> jtext (123 :: w ++ [125]) (JObj [])
| T_obj b l : jmembers b l -> jtext (123 :: b ++ [125]) (JObj l)
with jelems : bytes -> list json -> Prop :=
| E_one w1 b w2 v : ws w1 -> jtext b v -> ws w2 -> jelems (w1 ++ b ++ w2) [v]
| E_cons w1 b w2 v b' l : ws w1 -> jtext b v -> ws w2 -> jelems b' l -> jelems (w1 ++ b ++ w2 ++ 44 :: b') (v :: l)
with jmembers : bytes -> list (bytes * json) -> Prop :=
| M_one w1 kb k w2 w3 b w4 v : ws w1 -> jchars kb k -> ws w2 -> ws w3 -> jtext b v -> ws w4 ->
    jmembers (w1 ++ 34 :: kb ++ 34 :: w2 ++ 58 :: w3 ++ b ++ w4) [(k, v)]
| M_cons w1 kb k w2 w3 b w4 v b' l : ws w1 -> jchars kb k -> ws w2 -> ws w3 -> jtext b v -> ws w4 -> jmembers b' l ->
    jmembers (w1 ++ 34 :: kb ++ 34 :: w2 ++ 58 :: w3 ++ b ++ w4 ++ 44 :: b') ((k, v) :: l).
Scheme jtext_mind := Minimality for jtext Sort Prop
  with jelems_mind := Minimality for jelems Sort Prop
  with jmembers_mind := Minimality for jmembers Sort Prop.
Combined Scheme jtext_mutind from jtext_mind, jelems_mind, jmembers_mind.
(** a JSON document *)
Definition document (b : bytes) (v : json) : Prop := exists w1 t w2, b = w1 ++ t ++ w2 /\ ws w1 /\ ws w2 /\ jtext t v.

(** ** What the readers accept *)
(** A structure with the given fields is an object in which every field stands exactly once, among any other
    members in any order, or an array of the values of the fields in order. *)
Definition structure (names : list bytes) (v : json) (vals : list json) : Prop :=
  (exists l, v = JObj l /\ Forall2 (fun k x => exists before after, l = before ++ (k, x) :: after /\ ~ In k (map fst (before ++ after))) names vals) \/
  (v = JArr vals /\ List.length vals = List.length names).
Definition unsigned_value (bound : Z) (v : json) (n : Z) : Prop := v = JInt n /\ 0 <= n < bound.
(** a duration of [n] nanoseconds: seconds and nanoseconds and nothing else *)
Definition duration_value (v : json) (n : Z) : Prop :=
  exists vs vn s ns, structure [str "secs"; str "nanos"] v [vs; vn] /\
    (forall l k x, v = JObj l -> In (k, x) l -> k = str "secs" \/ k = str "nanos") /\
    unsigned_value (2 ^ 64) vs s /\ unsigned_value (2 ^ 32) vn ns /\ n = s * 1000000000 + ns /\ n < 2 ^ 64 * 1000000000.
Definition query_value (v : json) (q : qdata) : Prop :=
  exists v1 v2 v3 v4 v5 v6 v7 v8,
    structure (map str ["label"; "time"; "self_time"; "number_of_cache_misses"; "number_of_cache_hits"; "invocation_count"; "blocked_time"; "incremental_load_time"; "incremental_hashing_time"]%string)
      v [JStr (q_label q); v1; v2; v3; v4; v5; v6; v7; v8] /\
    duration_value v1 (q_time q) /\ duration_value v2 (q_self_time q) /\ unsigned_value (2 ^ 64) v3 (q_misses q) /\ unsigned_value (2 ^ 64) v4 (q_hits q) /\
    unsigned_value (2 ^ 64) v5 (q_count q) /\ duration_value v6 (q_blocked q) /\ duration_value v7 (q_load q) /\ duration_value v8 (q_hashing q).
Definition artifact_value (v : json) (a : artifact) : Prop :=
  exists x, structure [str "label"; str "value"] v [JStr (art_label a); x] /\ unsigned_value (2 ^ 64) x (art_value a).
Definition results_value (v : json) (r : results) : Prop :=
  exists qs as_ t, structure [str "query_data"; str "artifact_sizes"; str "total_time"] v [JArr qs; JArr as_; t] /\
    Forall2 query_value qs (query_data r) /\ Forall2 artifact_value as_ (artifact_sizes r) /\ duration_value t (total_time r).
(** the metadata of a profile *)
Definition metadata_value (v : json) (m : metadata) : Prop :=
  exists t p, structure [str "start_time"; str "process_id"; str "cmd"] v [t; p; JStr (md_cmd m)] /\
    unsigned_value (2 ^ 64) t (md_start_time m) /\ unsigned_value (2 ^ 32) p (md_process_id m).

(** ** What the exported files must say *)
(** an object with exactly these members, none of them twice *)
Definition object_with (o : json) (ms : list (bytes * json)) : Prop :=
  exists l, o = JObj l /\ NoDup (map fst l) /\ forall m, In m l <-> In m ms.
(** an interval event in the trace event format of the Chrome profiler (times in microseconds) *)
Definition chrome_object (pid tid : Z) (e : event) (o : json) : Prop :=
  exists a b args, ev_payload e = Timestamp (Interval a b) /\
    object_with o [(str "name", JStr (ev_label e)); (str "cat", JStr (ev_kind e)); (str "ph", JStr (str "X"));
                   (str "ts", JInt (a / 1000)); (str "dur", JInt ((b - a) / 1000)); (str "pid", JInt pid); (str "tid", JInt tid); (str "args", args)] /\
    (ev_args e = [] /\ args = JNull \/
     ev_args e <> [] /\ exists m, args = JObj m /\ NoDup (map fst m) /\
       forall k v, In (k, v) m <-> exists i s, 0 <= i /\ k = str "arg" ++ decimal i /\ znth i (ev_args e) = Some s /\ v = JStr s).
(** a metadata record of the format: [name] is the kind, [arg] its only argument *)
Definition metadata_object (name : bytes) (pid : Z) (arg : bytes * json) (o : json) : Prop :=
  object_with o [(str "name", JStr name); (str "ph", JStr (str "M")); (str "ts", JInt 0); (str "tid", JInt 0); (str "cat", JStr []); (str "pid", JInt pid); (str "args", JObj [arg])].
(** the objects of one file *)
Definition file_objects (minimum : option Z) (shown : Z -> Z) (md : metadata) (evs : list event) (os : list json) : Prop :=
  exists eos nos so, os = eos ++ nos ++ [so] /\
    Forall2 (fun e o => chrome_object (md_process_id md) (shown (ev_thread e)) e o) (filter (selected minimum) evs) eos /\
    ((exists name o, crate_name_of (md_cmd md) name /\ nos = [o] /\ metadata_object (str "process_name") (md_process_id md) (str "name", JStr name) o) \/
     ((forall pre rest, md_cmd md <> pre ++ str " --crate-name " ++ rest) /\ nos = [])) /\
    metadata_object (str "process_sort_index") (md_process_id md) (str "sort_index", JInt (md_start_time md / 1000)) so.
(** the strings of a profile are Rust strings *)
Definition event_strings (e : event) : Prop := utf8 (ev_label e) /\ utf8 (ev_kind e) /\ Forall utf8 (ev_args e).

(** ** Analysis results *)
(** the values Rust's types admit ([String], [Duration], [usize], [u64]) *)
Definition duration_ok (d : Z) : Prop := 0 <= d <= 18446744073709551615 * 1000000000 + 999999999.
Definition query_ok (q : qdata) : Prop :=
  utf8 (q_label q) /\ duration_ok (q_time q) /\ duration_ok (q_self_time q) /\ is_u64 (q_misses q) /\ is_u64 (q_hits q) /\ is_u64 (q_count q) /\
  duration_ok (q_blocked q) /\ duration_ok (q_load q) /\ duration_ok (q_hashing q).
Definition artifact_ok (a : artifact) : Prop := utf8 (art_label a) /\ is_u64 (art_value a).
Definition results_ok (r : results) : Prop := Forall query_ok (query_data r) /\ Forall artifact_ok (artifact_sizes r) /\ duration_ok (total_time r).
(** a profile as the decoder delivers it *)
Definition event_ok (e : event) : Prop :=
  event_strings e /\ match ev_payload e with Integer v => is_u64 v | _ => True end.
