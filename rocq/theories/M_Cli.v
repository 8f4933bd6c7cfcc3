(** Model of the command lines of the tools: the [clap] declarations in summarize/src/main.rs:14-63, crox/src/main.rs:45-59,
    mmview/src/main.rs:7-14, mmedit/src/main.rs:7-18, flamegraph/src/main.rs:10-13, stack_collapse/src/main.rs:10-13 and what
    clap 4.5 (an external crate) does with them.

    Simplifications: arguments are byte strings (Unix); texts of errors and of the help are not modelled; reading an [f64] is a
    parameter; the entries of a directory (crox/src/main.rs:145-153) are an input. *)
From Coq Require Import String ZArith List Lia Bool.
From Flocq Require Import BinarySingleNaN.
From Verif Require Import M_Base M_Map M_Utf8 M_Path M_Float M_Programs.
Import ListNotations.
Open Scope Z_scope.

(** ** Values *)
(** [Path::components] of a text, on Unix: a leading [/] is the root; empty components are skipped, and [.] except at the beginning *)
Fixpoint split_slash (b cur : bytes) : list bytes :=
  match b with
  | [] => [rev cur]
  | c :: b' => if c =? SLASH then rev cur :: split_slash b' [] else split_slash b' (c :: cur)
  end.
Definition component (n : bytes) : list comp :=
  if beq n [] || beq n [DOT] then [] else if beq n [DOT; DOT] then [ParentDir] else [Normal n].
Definition path_of (b : bytes) : path :=
  match split_slash b [] with
  | [] => []
  | first :: rest =>
      (match b with c :: _ => if c =? SLASH then [RootDir] else if beq first [DOT] then [CurDir] else component first | [] => [] end)
      ++ flat_map component rest
  end.
(** Decimal digits, at least one *)
Fixpoint digits (b : bytes) (acc : Z) : option Z :=
  match b with
  | [] => Some acc
  | c :: b' => if (48 <=? c) && (c <=? 57) then digits b' (10 * acc + (c - 48)) else None
  end.
Definition unsigned (b : bytes) : option Z := match b with [] => None | _ => digits b 0 end.
(** A leading sign *)
Definition sign (b : bytes) : option bool * bytes :=
  match b with
  | c :: r => if c =? 43 then (Some true, r) else if c =? 45 then (Some false, r) else (None, b)
  | [] => (None, b)
  end.
(** [i64::from_str] and the range check of clap's [RangedI64ValueParser<u32>] *)
Definition read_u32 (b : bytes) : option Z :=
  let '(s, r) := sign b in
  match unsigned r with
  | Some n => let n := match s with Some false => - n | _ => n end in if (0 <=? n) && (n <? 2 ^ 32) then Some n else None
  | None => None
  end.
(** [u128::from_str] *)
Definition read_u128 (b : bytes) : option Z :=
  let '(s, r) := sign b in
  match s, unsigned r with
  | Some false, _ => None
  | _, Some n => if n <? 2 ^ 128 then Some n else None
  | _, None => None
  end.

(** ** clap *)
Inductive arity := Flag | Single | Many.
Record option_spec := mkO { o_long : bytes; o_short : option Z; o_arity : arity; o_valid : bytes -> bool }.
(** [g_words]: how many positional arguments there can be at most ([None]: any number) *)
Record grammar := mkG { g_options : list option_spec; g_words : option Z }.
(** What an argument (or an option and its value) means *)
Inductive piece := Word (w : bytes) | Flagged (name : bytes) | Valued (name v : bytes).
Inductive scanned := ShowHelp | Bad | Pieces (l : list piece).

Definition find_long (g : grammar) (n : bytes) : option option_spec := find (fun o => beq (o_long o) n) (g_options g).
Definition find_short (g : grammar) (c : Z) : option option_spec :=
  find (fun o => match o_short o with Some c' => c' =? c | None => false end) (g_options g).
Definition words (l : list piece) : list bytes := flat_map (fun p => match p with Word w => [w] | _ => [] end) l.
Definition values (n : bytes) (l : list piece) : list bytes :=
  flat_map (fun p => match p with Valued n' v => if beq n' n then [v] else [] | _ => [] end) l.
Definition flags (n : bytes) (l : list piece) : list bytes :=
  flat_map (fun p => match p with Flagged n' => if beq n' n then [n] else [] | _ => [] end) l.
(** The checks clap makes when an argument has been read: the value parser, at most one occurrence unless the option collects, no
    positional argument too many; [PathBufValueParser] refuses the empty value *)
Definition acceptable (g : grammar) (before : list piece) (p : piece) : bool :=
  match p with
  | Word w => negb (beq w []) && match g_words g with Some n => zlen (words before) <? n | None => true end
  | Flagged n => match flags n before with [] => true | _ => false end
  | Valued n v =>
      match find_long g n with
      | Some o => o_valid o v && match o_arity o with Many => true | _ => match values n before with [] => true | _ => false end end
      | None => false
      end
  end.
Fixpoint split_equals (b : bytes) : bytes * option bytes :=
  match b with
  | [] => ([], None)
  | c :: b' => if c =? 61 then ([], Some b') else let '(n, v) := split_equals b' in (c :: n, v)
  end.
(** What an argument looks like (clap_lex's [ParsedArg]); a single hyphen is a word *)
Inductive shape := Plain | Dashes | Long (name_value : bytes) | Short (c : Z) (attached : bytes).
Definition shape_of (a : bytes) : shape :=
  match a with
  | d :: c :: r => if d =? 45 then if c =? 45 then match r with [] => Dashes | _ => Long r end else Short c r else Plain
  | _ => Plain
  end.

Definition HELP : bytes := str "help".
(** The value attached to a short option *)
Definition after_equals (v : bytes) : bytes := match v with c :: r => if c =? 61 then r else v | [] => v end.
(** The loop of clap's [Parser::get_matches_with]; [rest_words]: after [--]. A group of short options: no short option of the tools is
    a flag, except [-h]. *)
Fixpoint scan (g : grammar) (before : list piece) (rest_words : bool) (args : list bytes) : scanned :=
  let add p r := if acceptable g before p then match r with Pieces l => Pieces (p :: l) | x => x end else Bad in
  match args with
  | [] => Pieces []
  | a :: args' =>
      match (if rest_words then Plain else shape_of a) with
      | Plain => add (Word a) (scan g (before ++ [Word a]) rest_words args')
      | Dashes => scan g before true args'
      | Long name_value =>
          let '(n, v) := split_equals name_value in
          if beq n HELP then match v with None => ShowHelp | Some _ => Bad end
          else
            match find_long g n with
            | None => Bad
            | Some o =>
                match o_arity o, v with
                | Flag, None => add (Flagged n) (scan g (before ++ [Flagged n]) rest_words args')
                | Flag, Some _ => Bad
                | _, Some v => add (Valued n v) (scan g (before ++ [Valued n v]) rest_words args')
                | _, None =>
                    match args' with
                    | v :: args'' =>
                        match shape_of v with Plain => add (Valued n v) (scan g (before ++ [Valued n v]) rest_words args'') | _ => Bad end
                    | [] => Bad
                    end
                end
            end
      | Short c attached =>
          if c =? 104 then ShowHelp
          else
            match find_short g c with
            | None => Bad
            | Some o =>
                let n := o_long o in
                match attached with
                | _ :: _ =>
                    let v := after_equals attached in add (Valued n v) (scan g (before ++ [Valued n v]) rest_words args')
                | [] =>
                    match args' with
                    | v :: args'' =>
                        match shape_of v with Plain => add (Valued n v) (scan g (before ++ [Valued n v]) rest_words args'') | _ => Bad end
                    | [] => Bad
                    end
                end
            end
      end
  end.

(** ** The programs *)
Inductive program := SummarizeTool | CroxTool | MmviewTool | MmeditTool | FlamegraphTool | StackCollapseTool.
Inductive request := Usage | Help | Start (c : command).

Section Cli.
Variable read_f64 : bytes -> option f64.
Variable entries : path -> list path.

Definition any_path (b : bytes) : bool := negb (beq b []).
Definition is_some {A} (o : option A) : bool := match o with Some _ => true | None => false end.
Definition only_words (n : option Z) : grammar := mkG [] n.
(** summarize/src/main.rs:14-47 *)
Definition EXCLUDE : option_spec := mkO (str "exclude") (Some 101) Many utf8_valid.
Definition JSON : option_spec := mkO (str "json") None Flag (fun _ => true).
Definition PERCENT : option_spec := mkO (str "percent-above") (Some 112) Single (fun v => utf8_valid v && is_some (read_f64 v)).
Definition diff_grammar : grammar := mkG [EXCLUDE; JSON] (Some 2).
Definition summarize_grammar : grammar := mkG [JSON; PERCENT] (Some 1).
(** crox/src/main.rs:45-59 *)
Definition DIR : option_spec := mkO (str "dir") None Single any_path.
Definition COLLAPSE : option_spec := mkO (str "collapse-threads") None Flag (fun _ => true).
Definition MINIMUM : option_spec := mkO (str "minimum-duration") None Single (fun v => is_some (read_u128 v)).
Definition crox_grammar : grammar := mkG [DIR; COLLAPSE; MINIMUM] None.
(** mmview/src/main.rs:7-14 *)
Definition THREAD : option_spec := mkO (str "thread-id") (Some 116) Single (fun v => is_some (read_u32 v)).
Definition mmview_grammar : grammar := mkG [THREAD] (Some 1).

Definition flagged (o : option_spec) (l : list piece) : bool := match flags (o_long o) l with [] => false | _ => true end.
Definition value (o : option_spec) (l : list piece) : option bytes := hd_error (values (o_long o) l).
Definition with_pieces (r : scanned) (k : list piece -> request) : request :=
  match r with ShowHelp => Help | Bad => Usage | Pieces l => k l end.
Definition one_word (l : list piece) (k : path -> request) : request := match words l with [w] => k (path_of w) | _ => Usage end.

(** The subcommands of summarize: summarize/src/main.rs:49-62 *)
Definition diff_line (args : list bytes) : request :=
  with_pieces (scan diff_grammar [] false args) (fun l =>
    match words l with
    | [b; c] => Start (Diff (path_of b) (path_of c) (values (o_long EXCLUDE) l) (flagged JSON l))
    | _ => Usage
    end).
Definition aggregate_line (args : list bytes) : request :=
  with_pieces (scan (only_words None) [] false args) (fun l => Start (Aggregate (map path_of (words l)))).
Definition summarize_line (args : list bytes) : request :=
  with_pieces (scan summarize_grammar [] false args) (fun l => one_word l (fun p =>
    match read_f64 (match value PERCENT l with Some v => v | None => str "0.0" end) with
    | Some x => Start (Summarize p (flagged JSON l) x)
    | None => Usage
    end)).
Definition truncate_line (args : list bytes) : request :=
  with_pieces (scan (only_words (Some 1)) [] false args) (fun l => one_word l (fun p => Start (Truncate p))).
(** A program with subcommands: the first argument names it; [help] shows the help (of a subcommand) *)
Definition subcommands (table : list (bytes * (list bytes -> request))) (args : list bytes) : request :=
  match args with
  | [] => Usage
  | a :: args' =>
      match find (fun x => beq (fst x) a) table with
      | Some x => snd x args'
      | None =>
          if beq a HELP then
            match args' with
            | [] => Help
            | [n] => if beq n HELP || existsb (fun x => beq (fst x) n) table then Help else Usage
            | _ => Usage
            end
          else match scan (only_words (Some 0)) [] false [a] with ShowHelp => Help | _ => Usage end
      end
  end.
(** [Opt::parse] of the six programs *)
Definition command_line (p : program) (args : list bytes) : request :=
  match p with
  | SummarizeTool => subcommands [(str "aggregate", aggregate_line); (str "diff", diff_line); (str "summarize", summarize_line)] args
  | MmeditTool => subcommands [(str "truncate", truncate_line)] args
  | MmviewTool =>
      with_pieces (scan mmview_grammar [] false args) (fun l => one_word l (fun p =>
        Start (View p (match value THREAD l with Some v => read_u32 v | None => None end))))
  | FlamegraphTool => with_pieces (scan (only_words (Some 1)) [] false args) (fun l => one_word l (fun p => Start (Flamegraph p)))
  | StackCollapseTool => with_pieces (scan (only_words (Some 1)) [] false args) (fun l => one_word l (fun p => Start (StackCollapse p)))
  | CroxTool =>
      with_pieces (scan crox_grammar [] false args) (fun l =>
        match words l, value DIR l with
        | [], None => Usage
        | ws, d =>
            Start (Crox (map path_of ws) (match d with Some d => entries (path_of d) | None => [] end) (flagged COLLAPSE l)
                        (match value MINIMUM l with Some v => read_u128 v | None => None end))
        end)
  end.
End Cli.
