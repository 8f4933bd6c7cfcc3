(** Specification for C72 and C73: what the programs may do to files, and which events have to be readable. *)
From Coq Require Import String ZArith List Lia Bool.
From Verif Require Import M_Base M_Map M_Raw M_V8 M_Path Prop_Path M_Crox M_Programs S_Utf8 S_Json.
Import ListNotations.
Open Scope Z_scope.

(** The only file a command may write, by its documented name. *)
Inductive may_write : command -> path -> Prop :=
| mw_summary dir n p : may_write (Summarize (in_dir dir n) true p) (in_dir dir (name_stem n ++ str ".json"))
| mw_diff base dir n x : may_write (Diff base (in_dir dir n) x true) (in_dir dir (name_stem n ++ str ".json"))
| mw_stacks f : may_write (StackCollapse f) [Normal (str "out.stacks_folded")]
| mw_flamegraph f : may_write (Flamegraph f) [Normal (str "rustc.svg")]
| mw_truncate dir n : may_write (Truncate (in_dir dir n)) (in_dir dir (name_stem n ++ str ".truncated.mm_profdata"))
| mw_crox ps es c m : may_write (Crox ps es c m) [Normal (str "chrome_profiler.json")].
(** The path by which a command names its output has a file name. *)
Definition named (c : command) : Prop :=
  match c with
  | Summarize f true _ | Diff _ f _ true | Truncate f => exists dir n, path_ok f /\ f = in_dir dir n
  | _ => True
  end.

(** The events of a profile as far as a tool looks at them: thread and time of all, the strings of those it needs. *)
Definition readable (need : event -> bool) (p : profile) (es : list event) : Prop :=
  exists lws, pf_iter p = Ok lws /\
    Forall2 (fun l e => lw_thread l = ev_thread e /\ lw_payload l = ev_payload e /\ (need e = true -> pf_full p (lw_index l) = Ok e)) lws es.
(** All texts are valid strings. *)
Definition texts_ok (p : profile) : Prop :=
  utf8 (md_cmd (pf_metadata p)) /\ forall i e, pf_full p i = Ok e -> event_strings e.
