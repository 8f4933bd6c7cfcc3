(** Model of [summarize diff] as a whole: summarize/src/main.rs:99-165 (cited as main.rs) with the complete rows of
    summarize/src/diff.rs (cited as diff.rs), and of their JSON form (the [Serialize] and [Deserialize] derives of diff.rs).

    serde_json prints a finite [f64] with the ryu crate ([fmt] below) and reads one with its own parser ([rd]);
    both are parameters. *)
From Coq Require Import String ZArith List Lia Bool.
From Flocq Require Import BinarySingleNaN.
From Verif Require Import M_Base M_V8 M_Map M_Crox M_Analysis M_Metadata M_Json M_Diff M_Summarize M_Float.
Import ListNotations.
Open Scope Z_scope.

(** diff.rs:99-113 [QueryDataDiff]: a row of M_Diff.v and its two percentages *)
Record full_row := mkFull { fr_row : qdiff; fr_time_change : f64; fr_self_time_change : f64 }.
(** diff.rs:9-14 [DiffResults] *)
Record full_diff := mkFD { fd_query : list full_row; fd_artifacts : list adiff; fd_total : sdur }.
(** diff.rs:53-63, 116-185: one row *)
Definition full_query_row (oc : bool) (base change : list qdata) (l : bytes) : res full_row :=
  do r <- query_row oc base change l;
  do t <- row_percent q_time base change l;
  do s <- row_percent q_self_time base change l;
  Ok (mkFull r t s).
(** diff.rs:34-97 [calculate_diff] *)
Definition full_calculate_diff (oc : bool) (order : bool -> list bytes -> list bytes) (base change : results) : res full_diff :=
  do rows <- collectM (full_query_row oc (query_data base) (query_data change))
               (order true (label_set (map q_label (query_data base) ++ map q_label (query_data change))));
  do arts <- collectM (artifact_row oc (artifact_sizes base) (artifact_sizes change))
               (order false (label_set (map art_label (artifact_sizes base) ++ map art_label (artifact_sizes change))));
  Ok (mkFD (sort_desc (fun r => sd_duration (d_self_time (fr_row r))) rows) (sort_desc ad_change arts)
        (sd_sub (sd_from (total_time change)) (sd_from (total_time base)))).

(** ** Writing *)
Section Write.
Variable fmt : f64 -> bytes.
(** serde_json src/ser.rs [serialize_f64]: NaN and the infinities become [null] *)
Definition float_json (x : f64) : json := if is_finite x then JFloat (fmt x) else JNull.
(** diff.rs:216-220 *)
Definition sdur_json (d : sdur) : json := JObj [(str "duration", duration_json (sd_duration d)); (str "is_positive", JBool (sd_is_positive d))].
(** diff.rs:99-113 *)
Definition full_row_json (f : full_row) : json :=
  let r := fr_row f in
  JObj [(str "label", JStr (d_label r)); (str "time", sdur_json (d_time r)); (str "time_change", float_json (fr_time_change f));
        (str "self_time", sdur_json (d_self_time r)); (str "self_time_change", float_json (fr_self_time_change f));
        (str "number_of_cache_misses", JInt (d_misses r)); (str "number_of_cache_hits", JInt (d_hits r)); (str "invocation_count", JInt (d_count r));
        (str "blocked_time", sdur_json (d_blocked r)); (str "incremental_load_time", sdur_json (d_load r));
        (str "incremental_hashing_time", sdur_json (d_hashing r))].
(** diff.rs:188-192 *)
Definition adiff_json (a : adiff) : json := JObj [(str "label", JStr (ad_label a)); (str "size_change", JInt (ad_change a))].
(** diff.rs:9-14 *)
Definition diff_json (d : full_diff) : json :=
  JObj [(str "query_data", JArr (map full_row_json (fd_query d))); (str "artifact_sizes", JArr (map adiff_json (fd_artifacts d)));
        (str "total_time", sdur_json (fd_total d))].

(** main.rs:99-165 [diff], the files already loaded: the text written to the JSON file, or the two tables *)
Inductive diff_out := WroteJson (text : bytes) | Printed (activities artifacts : table).
(** the percentage columns of the first table are left out, as in M_Summarize.v; they are in the JSON file *)
Definition diff_main (oc : bool) (order : bool -> list bytes -> list bytes) (json : bool) (exclude : list bytes) (base change : results) : res diff_out :=
  do d <- full_calculate_diff oc order base change;
  if json then Ok (WroteJson (print (diff_json d)))
  else let '(a, b) := diff_tables exclude (mkDR (map fr_row (fd_query d)) (fd_artifacts d) (fd_total d)) in Ok (Printed a b).
End Write.

(** ** Reading *)
Section Read.
Variable rd : bytes -> f64.
(** serde's [Deserialize for f64], from JSON: any number, nothing else *)
Definition as_f64 (v : json) : res f64 := match v with JFloat t => Ok (rd t) | JInt n => Ok (of_int n) | _ => Err end.
(** serde's [Deserialize for i64] and [bool] *)
Definition as_signed (v : json) : res Z := match v with JInt n => if (- I64 <=? n) && (n <? I64) then Ok n else Err | _ => Err end.
Definition as_bool (v : json) : res bool := match v with JBool b => Ok b | _ => Err end.
Definition as_sdur (v : json) : res sdur :=
  do l <- as_object [str "duration"; str "is_positive"] v;
  do d <- field (str "duration") l; do d <- as_duration d;
  do p <- field (str "is_positive") l; do p <- as_bool p;
  Ok (mkSd d p).
Definition as_full_row (v : json) : res full_row :=
  do l <- as_object [str "label"; str "time"; str "time_change"; str "self_time"; str "self_time_change"; str "number_of_cache_misses"; str "number_of_cache_hits"; str "invocation_count"; str "blocked_time"; str "incremental_load_time"; str "incremental_hashing_time"] v;
  do a <- field (str "label") l; do a <- as_string a;
  do b <- field (str "time") l; do b <- as_sdur b;
  do x <- field (str "time_change") l; do x <- as_f64 x;
  do c <- field (str "self_time") l; do c <- as_sdur c;
  do y <- field (str "self_time_change") l; do y <- as_f64 y;
  do d <- field (str "number_of_cache_misses") l; do d <- as_signed d;
  do e <- field (str "number_of_cache_hits") l; do e <- as_signed e;
  do f <- field (str "invocation_count") l; do f <- as_signed f;
  do g <- field (str "blocked_time") l; do g <- as_sdur g;
  do h <- field (str "incremental_load_time") l; do h <- as_sdur h;
  do i <- field (str "incremental_hashing_time") l; do i <- as_sdur i;
  Ok (mkFull (mkQD a b c d e f g h i) x y).
Definition as_adiff (v : json) : res adiff :=
  do l <- as_object [str "label"; str "size_change"] v;
  do a <- field (str "label") l; do a <- as_string a;
  do b <- field (str "size_change") l; do b <- as_signed b;
  Ok (mkAD a b).
(** the [Deserialize] of [DiffResults] *)
Definition as_full_diff (v : json) : res full_diff :=
  do l <- as_object [str "query_data"; str "artifact_sizes"; str "total_time"] v;
  do q <- field (str "query_data") l; do q <- as_array q; do q <- read_all as_full_row q;
  do a <- field (str "artifact_sizes") l; do a <- as_array a; do a <- read_all as_adiff a;
  do t <- field (str "total_time") l; do t <- as_sdur t;
  Ok (mkFD q a t).
Definition read_diff (text : bytes) : res full_diff := match from_str text with Some v => as_full_diff v | None => Err end.
End Read.
