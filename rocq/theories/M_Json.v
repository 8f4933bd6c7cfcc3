(** Model of the JSON output: crox/src/main.rs (cited as crox main.rs), summarize/src/main.rs and the
    [Serialize]/[Deserialize] derives of analyzeme/src/analysis.rs.

    serde and serde_json are external crates; the compact printer of serde_json (src/ser.rs,
    [CompactFormatter], [format_escaped_str]) is modelled here, its parser in M_Metadata.v.
    Simplification: a number with a fraction is represented by its text. *)
From Coq Require Import String ZArith List Lia Bool.
From Verif Require Import M_Base M_V8 M_Map M_Crox M_Analysis M_Metadata.
Import ListNotations.
Open Scope Z_scope.

(** ** The printer *)
(** serde_json src/ser.rs, table [ESCAPE] and [write_char_escape] *)
Definition json_escape (c : Z) : bytes :=
  if c =? 34 then [92; 34]
  else if c =? 92 then [92; 92]
  else if c =? 8 then [92; 98]
  else if c =? 9 then [92; 116]
  else if c =? 10 then [92; 110]
  else if c =? 12 then [92; 102]
  else if c =? 13 then [92; 114]
  else if c <? 32 then [92; 117; 48; 48; hex_digit (c / 16); hex_digit (c mod 16)]
  else [c].
(** serde_json src/ser.rs [format_escaped_str] *)
Definition json_string (s : bytes) : bytes := 34 :: flat_map json_escape s ++ [34].
(** elements separated by a comma *)
Fixpoint join (l : list bytes) : bytes :=
  match l with
  | [] => []
  | [x] => x
  | x :: l' => x ++ 44 :: join l'
  end.
(** serde_json src/ser.rs [Serializer] with [CompactFormatter] *)
Fixpoint print (v : json) : bytes :=
  match v with
  | JNull => str "null"
  | JBool true => str "true"
  | JBool false => str "false"
  | JInt n => if n <? 0 then 45 :: decimal (- n) else decimal n
  | JFloat text => text
  | JStr s => json_string s
  | JArr l => 91 :: join (map print l) ++ [93]
  | JObj l => 123 :: join (map (fun m => json_string (fst m) ++ 58 :: print (snd m)) l) ++ [125]
  end.

(** ** crox *)
(** crox main.rs:27-43 [#[derive(Serialize)] struct Event], 186-212 [json!] (a [BTreeMap]: members in
    the order of their names) *)
Definition record_json (r : record) : json :=
  match r with
  | Complete name cat ts dur pid tid args =>
      JObj [(str "name", JStr name); (str "cat", JStr cat); (str "ph", JStr (str "X")); (str "ts", JInt ts); (str "dur", JInt dur);
            (str "pid", JInt pid); (str "tid", JInt tid);
            (str "args", match args with None => JNull | Some m => JObj (map (fun a => (fst a, JStr (snd a))) m) end)]
  | ProcessName pid name =>
      JObj [(str "args", JObj [(str "name", JStr name)]); (str "cat", JStr []); (str "name", JStr (str "process_name")); (str "ph", JStr (str "M"));
            (str "pid", JInt pid); (str "tid", JInt 0); (str "ts", JInt 0)]
  | ProcessSortIndex pid i =>
      JObj [(str "args", JObj [(str "sort_index", JInt i)]); (str "cat", JStr []); (str "name", JStr (str "process_sort_index")); (str "ph", JStr (str "M"));
            (str "pid", JInt pid); (str "tid", JInt 0); (str "ts", JInt 0)]
  end.
(** crox main.rs:140-143 [serialize_seq], 174, 197, 212 [serialize_element]: what has been written after
    some records; crox main.rs:215 [seq.end()] *)
Definition crox_written (rs : list record) : bytes := 91 :: join (map (fun r => print (record_json r)) rs).
Definition crox_text (rs : list record) : bytes := crox_written rs ++ [93].

(** ** The results of [summarize --json] *)
(** serde's [Serialize for Duration] *)
Definition duration_json (d : Z) : json := JObj [(str "secs", JInt (d / 1000000000)); (str "nanos", JInt (d mod 1000000000))].
(** analysis.rs:305-316 *)
Definition query_json (q : qdata) : json :=
  JObj [(str "label", JStr (q_label q)); (str "time", duration_json (q_time q)); (str "self_time", duration_json (q_self_time q));
        (str "number_of_cache_misses", JInt (q_misses q)); (str "number_of_cache_hits", JInt (q_hits q)); (str "invocation_count", JInt (q_count q));
        (str "blocked_time", duration_json (q_blocked q)); (str "incremental_load_time", duration_json (q_load q));
        (str "incremental_hashing_time", duration_json (q_hashing q))].
(** analysis.rs:327-331 *)
Definition artifact_json (a : artifact) : json := JObj [(str "label", JStr (art_label a)); (str "value", JInt (art_value a))].
(** analysis.rs:282-287 *)
Definition results_json (r : results) : json :=
  JObj [(str "query_data", JArr (map query_json (query_data r))); (str "artifact_sizes", JArr (map artifact_json (artifact_sizes r)));
        (str "total_time", duration_json (total_time r))].
(** summarize main.rs:75-82 [write_results_json]: the text of the file *)
Definition results_text (r : results) : bytes := print (results_json r).

(** a field of a derived [Deserialize]: exactly once *)
Definition field (k : bytes) (l : list (bytes * json)) : res json := match fields k l with [v] => Ok v | _ => Err end.
Definition as_object (names : list bytes) (v : json) : res (list (bytes * json)) := match members_of names v with Some l => Ok l | None => Err end.
Definition as_array (v : json) : res (list json) := match v with JArr l => Ok l | _ => Err end.
Definition as_string (v : json) : res bytes := match v with JStr s => Ok s | _ => Err end.
Definition as_unsigned (bound : Z) (v : json) : res Z := match v with JInt n => if (0 <=? n) && (n <? bound) then Ok n else Err | _ => Err end.
(** serde's [Deserialize for Duration]: no other members; the sum must not overflow *)
Definition as_duration (v : json) : res Z :=
  do l <- as_object [str "secs"; str "nanos"] v;
  if forallb (fun m => beq (fst m) (str "secs") || beq (fst m) (str "nanos")) l then
    do s <- field (str "secs") l; do n <- field (str "nanos") l;
    do s <- as_unsigned U64 s; do n <- as_unsigned (2 ^ 32) n;
    if s + n / 1000000000 <? U64 then Ok (s * 1000000000 + n) else Err
  else Err.
Fixpoint read_all {A} (f : json -> res A) (l : list json) : res (list A) :=
  match l with
  | [] => Ok []
  | x :: l' => do y <- f x; do ys <- read_all f l'; Ok (y :: ys)
  end.
Definition as_query (v : json) : res qdata :=
  do l <- as_object [str "label"; str "time"; str "self_time"; str "number_of_cache_misses"; str "number_of_cache_hits"; str "invocation_count"; str "blocked_time"; str "incremental_load_time"; str "incremental_hashing_time"] v;
  do a <- field (str "label") l; do a <- as_string a;
  do b <- field (str "time") l; do b <- as_duration b;
  do c <- field (str "self_time") l; do c <- as_duration c;
  do d <- field (str "number_of_cache_misses") l; do d <- as_unsigned U64 d;
  do e <- field (str "number_of_cache_hits") l; do e <- as_unsigned U64 e;
  do f <- field (str "invocation_count") l; do f <- as_unsigned U64 f;
  do g <- field (str "blocked_time") l; do g <- as_duration g;
  do h <- field (str "incremental_load_time") l; do h <- as_duration h;
  do i <- field (str "incremental_hashing_time") l; do i <- as_duration i;
  Ok (mkQ a b c d e f g h i).
Definition as_artifact (v : json) : res artifact :=
  do l <- as_object [str "label"; str "value"] v;
  do a <- field (str "label") l; do a <- as_string a;
  do b <- field (str "value") l; do b <- as_unsigned U64 b;
  Ok (mkArt a b).
Definition as_results (v : json) : res results :=
  do l <- as_object [str "query_data"; str "artifact_sizes"; str "total_time"] v;
  do q <- field (str "query_data") l; do q <- as_array q; do q <- read_all as_query q;
  do a <- field (str "artifact_sizes") l; do a <- as_array a; do a <- read_all as_artifact a;
  do t <- field (str "total_time") l; do t <- as_duration t;
  Ok (mkRes q a t).
(** summarize main.rs:63-67 [serde_json::from_reader]; the text must be UTF-8 only inside strings *)
Definition read_results (text : bytes) : res results := match from_str text with Some v => as_results v | None => Err end.
