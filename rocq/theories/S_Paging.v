(** Files that hold the same streams in different pages. *)
From Coq Require Import String ZArith List Lia Bool.
From Verif Require Import M_Base M_Map M_Sink S_Sink M_Path M_Programs.
Import ListNotations.
Open Scope Z_scope.

(** The same bytes, or two profiles of version 9 whose pages, put together by stream, are the same. *)
Inductive repaged : bytes -> bytes -> Prop :=
| rp_same b : repaged b b
| rp_pages ps qs : Forall page_wf ps -> Forall page_wf qs -> (forall t, stream t ps = stream t qs) ->
    repaged (str "MMPD" ++ le_bytes 4 9 ++ enc_pages ps) (str "MMPD" ++ le_bytes 4 9 ++ enc_pages qs).
(** The same files, up to the pages of the profiles; a file named [json] (which [summarize diff] reads as results) is the same. *)
Record same_files (w w' : world) : Prop := mkSame {
  sf_exists : forall p, w p = None <-> w' p = None;
  sf_contents : forall p b b', w p = Some b -> w' p = Some b' -> repaged b b';
  sf_json : forall p, file_name p = Some (str "json") -> w p = w' p }.
(** One program after the other: the commands and how each ended. *)
Inductive session (s : setup) (inferno : list bytes -> bytes * bool) : world -> list (command * ending) -> world -> Prop :=
| se_done w : session s inferno w [] w
| se_ran w c w1 e l w2 : ran s inferno w c w1 e -> session s inferno w1 l w2 -> session s inferno w ((c, e) :: l) w2.
(** The same change: none, or one file with one contents. *)
Definition same_change (w w1 w' w1' : world) : Prop :=
  (w1 = w /\ w1' = w') \/ exists p text, w1 = create w p text /\ w1' = create w' p text.
