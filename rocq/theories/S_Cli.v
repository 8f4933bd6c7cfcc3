(** Specification for C81: what can be typed on the command line of a tool, and what it means. *)
From Coq Require Import String ZArith List Lia Bool.
From Flocq Require Import BinarySingleNaN.
From Verif Require Import M_Base M_Map M_Utf8 M_Path M_Float M_Programs M_Cli.
Import ListNotations.
Open Scope Z_scope.

(** An argument that looks like an option: a hyphen and something more. *)
Definition option_like (a : bytes) : Prop := exists c r, a = 45 :: c :: r.
(** The ways of writing a word, a flag, an option and its value. *)
Inductive spelled (g : grammar) : piece -> list bytes -> Prop :=
| sp_word w : ~ option_like w -> spelled g (Word w) [w]
| sp_flag o : In o (g_options g) -> o_arity o = Flag -> spelled g (Flagged (o_long o)) [str "--" ++ o_long o]
| sp_equals o v : In o (g_options g) -> o_arity o <> Flag -> spelled g (Valued (o_long o) v) [str "--" ++ o_long o ++ str "=" ++ v]
| sp_next o v : In o (g_options g) -> o_arity o <> Flag -> ~ option_like v -> spelled g (Valued (o_long o) v) [str "--" ++ o_long o; v]
| sp_short_next o c v : In o (g_options g) -> o_short o = Some c -> ~ option_like v -> spelled g (Valued (o_long o) v) [[45; c]; v]
| sp_short_equals o c v : In o (g_options g) -> o_short o = Some c -> spelled g (Valued (o_long o) v) [45 :: c :: 61 :: v]
| sp_short o c x v : In o (g_options g) -> o_short o = Some c -> x <> 61 -> spelled g (Valued (o_long o) (x :: v)) [45 :: c :: x :: v].
(** A command line: pieces one after the other; after [--] everything is a word. *)
Inductive typed (g : grammar) : list piece -> list bytes -> Prop :=
| ty_end : typed g [] []
| ty_dashes ws : typed g (map Word ws) (str "--" :: ws)
| ty_piece p a ps args : spelled g p a -> typed g ps args -> typed g (p :: ps) (a ++ args).
(** A command line before any [--]. *)
Inductive entered (g : grammar) : list piece -> list bytes -> Prop :=
| en_end : entered g [] []
| en_piece p a ps args : spelled g p a -> entered g ps args -> entered g (p :: ps) (a ++ args).
(** Asking for help: [--help], [-h] (whatever follows the letter). *)
Definition asks_help (a : bytes) : Prop := a = str "--help" \/ exists r, a = str "-h" ++ r.
(** What is refused: empty words, too many of them, a value that cannot be read, an option given twice (unless it collects). *)
Definition named (n : bytes) (p : piece) : bool := match p with Word _ => false | Flagged n' | Valued n' _ => beq n' n end.
Record allowed (g : grammar) (ps : list piece) : Prop := {
  al_words : ~ In [] (words ps);
  al_count : forall n, g_words g = Some n -> zlen (words ps) <= n;
  al_values : forall o v, In o (g_options g) -> In (Valued (o_long o) v) ps -> o_valid o v = true;
  al_once : forall o, In o (g_options g) -> o_arity o <> Many -> zlen (filter (named (o_long o)) ps) <= 1 }.
(** The options of a tool can be told apart from one another and from [-h], [--help] and [--]. *)
Record wf_grammar (g : grammar) : Prop := {
  wf_long : forall o o', In o (g_options g) -> In o' (g_options g) -> o_long o = o_long o' -> o = o';
  wf_short : forall o o' c, In o (g_options g) -> In o' (g_options g) -> o_short o = Some c -> o_short o' = Some c -> o = o';
  wf_name : forall o, In o (g_options g) -> ~ In 61 (o_long o) /\ o_long o <> [] /\ o_long o <> str "help";
  wf_letter : forall o c, In o (g_options g) -> o_short o = Some c -> c <> 104 /\ c <> 45 /\ o_arity o <> Flag;
  wf_max : forall n, g_words g = Some n -> 0 <= n }.

(** Decimal numerals. *)
Definition number (ds : list Z) (n : Z) : Prop :=
  ds <> [] /\ Forall (fun d => 0 <= d <= 9) ds /\ n = fold_left (fun a d => 10 * a + d) ds 0.
Definition numeral (text : bytes) (n : Z) : Prop :=
  exists s ds, (s = [] \/ s = str "+") /\ number ds n /\ text = s ++ map (fun d => 48 + d) ds.
(** Zero can also be written with a minus sign where a thread id is expected. *)
Definition thread_numeral (text : bytes) (n : Z) : Prop :=
  (numeral text n \/ n = 0 /\ exists ds, number ds 0 /\ text = str "-" ++ map (fun d => 48 + d) ds) /\ n < 2 ^ 32.
(** At most one value of an option, and what it is. *)
Definition given (ps : list piece) (n : bytes) (v : option bytes) : Prop :=
  match v with Some v => In (Valued n v) ps | None => forall v, ~ In (Valued n v) ps end.
Definition flag_given (ps : list piece) (n : bytes) (b : bool) : Prop := b = true <-> In (Flagged n) ps.
(** Somewhere before [--], and before anything that is refused, help is asked for. *)
Definition helped (g : grammar) (args : list bytes) : Prop :=
  exists ps before h after, args = before ++ h :: after /\ entered g ps before /\ allowed g ps /\ asks_help h.
(** An option and what it accepts. *)
Definition described (o : option_spec) (long : bytes) (short : option bytes) (a : arity) (valid : bytes -> Prop) : Prop :=
  o_long o = long /\ option_map (fun c => [c]) (o_short o) = short /\ o_arity o = a /\ forall v, o_valid o v = true <-> valid v.
(** The files, and the options without an order among different ones: two lines that mean the same. *)
Definition same (ps ps' : list piece) : Prop :=
  words ps = words ps' /\ (forall n, values n ps = values n ps') /\ forall n, In (Flagged n) ps <-> In (Flagged n) ps'.
(** The tools, the subcommand, and its options. *)
Inductive syntax (read_f64 : bytes -> option f64) : program -> list bytes -> grammar -> Prop :=
| sy_view : syntax read_f64 MmviewTool [] mmview_grammar
| sy_flame : syntax read_f64 FlamegraphTool [] (only_words (Some 1))
| sy_collapse : syntax read_f64 StackCollapseTool [] (only_words (Some 1))
| sy_crox : syntax read_f64 CroxTool [] crox_grammar
| sy_edit : syntax read_f64 MmeditTool [str "truncate"] (only_words (Some 1))
| sy_aggregate : syntax read_f64 SummarizeTool [str "aggregate"] (only_words None)
| sy_diff : syntax read_f64 SummarizeTool [str "diff"] diff_grammar
| sy_summarize : syntax read_f64 SummarizeTool [str "summarize"] (summarize_grammar read_f64).
(** The lines of the tools without options. *)
Definition takes_one_file (args : list bytes) (file : bytes) : Prop :=
  file <> [] /\ (~ option_like file /\ (args = [file] \/ args = [file; str "--"]) \/ args = [str "--"; file]).
(** A name between slashes. *)
Definition name_means (n : bytes) (l : list comp) : Prop :=
  (n = [] \/ n = str ".") /\ l = [] \/ n = str ".." /\ l = [ParentDir] \/ n <> [] /\ n <> str "." /\ n <> str ".." /\ l = [Normal n].
