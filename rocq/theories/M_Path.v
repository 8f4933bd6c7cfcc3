(** Model of the file names the tools use.

    [std::path::Path] (Unix) is modelled by its components ([Path::components], which is also what
    path equality and the file system see): a path is a list of components. *)
From Coq Require Import ZArith List Lia Bool String.
From Verif Require Import M_Base M_Map.
Import ListNotations.
Open Scope Z_scope.

(** std::path::Component *)
Inductive comp := RootDir | CurDir | ParentDir | Normal (name : bytes).
Definition path := list comp.
Definition DOT : Z := 46.
Definition SLASH : Z := 47.

(** [rsplitn(2, '.')]: the part before the last dot and the part after it *)
Fixpoint split_last_dot (b : bytes) : option (bytes * bytes) :=
  match b with
  | [] => None
  | x :: b' =>
      match split_last_dot b' with
      | Some (before, after) => Some (x :: before, after)
      | None => if x =? DOT then Some ([], b') else None
      end
  end.
(** std::path [rsplit_file_at_dot], as used by [file_stem] and [extension]: a name that starts with its
    only dot has no extension *)
Definition name_stem (name : bytes) : bytes :=
  match split_last_dot name with
  | Some ([], _) => name
  | Some (before, _) => before
  | None => name
  end.
Definition name_extension (name : bytes) : option bytes :=
  match split_last_dot name with
  | Some ([], _) => None
  | Some (_, after) => Some after
  | None => None
  end.
(** [Path::file_name] *)
Fixpoint file_name (p : path) : option bytes :=
  match p with
  | [] => None
  | [Normal n] => Some n
  | [_] => None
  | _ :: p' => file_name p'
  end.
(** [Path::with_extension] for a non-empty extension *)
Fixpoint with_extension (p : path) (ext : bytes) : path :=
  match p with
  | [] => []
  | [Normal n] => [Normal (name_stem n ++ [DOT] ++ ext)]
  | [c] => [c]
  | c :: p' => c :: with_extension p' ext
  end.
(** [Path::parent]: [None] for the empty path and for the root *)
Definition parent (p : path) : option path :=
  match rev p with
  | [] => None
  | RootDir :: _ => None
  | _ :: r => Some (rev r)
  end.
(** [Path::ends_with] with a one-component argument: compares whole components *)
Definition ends_with (p : path) (name : bytes) : bool :=
  match file_name p with Some n => beq n name | None => false end.

(** measureme/src/file_header.rs:15 *)
Definition FILE_EXTENSION : bytes := str "mm_profdata".

(** measureme/src/profiler.rs:30-33 [Profiler::with_counter]: the file it creates; panics when the
    path has no parent *)
Definition writer_path (path_stem : path) : res path :=
  let p := with_extension path_stem FILE_EXTENSION in
  match parent p with Some _ => Ok p | None => Panic end.
(** analyzeme/src/profiling_data.rs:23-24 [ProfilingData::new]: the file it opens *)
Definition reader_path (path_stem : path) : path := with_extension path_stem FILE_EXTENSION.
(** summarize/src/main.rs:62-73 [process_results] *)
Inductive diff_input := JsonResults (p : path) | Profile (p : path).
Definition process_results (file : path) : diff_input :=
  if ends_with file (str "json") then JsonResults file else Profile (reader_path file).
(** summarize/src/main.rs:75-82 [write_results_json]: the file it creates *)
Definition json_path (file : path) : path := with_extension file (str "json").
(** mmedit/src/main.rs:70: the file [truncate] creates *)
Definition truncated_path (file : path) : path := with_extension file (str "truncated.mm_profdata").
(** crox/src/main.rs:225: the files picked from a directory *)
Definition crox_picks (p : path) : bool :=
  match file_name p with
  | Some n => match name_extension n with Some e => beq e FILE_EXTENSION | None => false end
  | None => false
  end.
(** crox/src/main.rs:155-157, 219-231 [file_prefixes_in_dir]: the profiles it reads, in order; [entries]: the paths
    [read_dir] yields for the directory, in any order *)
Definition crox_inputs (file_prefix : list path) (entries : list path) : list path := map reader_path (file_prefix ++ filter crox_picks entries).
(** summarize/src/main.rs:103-106, 174-177: the files written with [--json] *)
Definition summarize_json_output (file_prefix : path) : path := json_path file_prefix.
Definition diff_json_output (base change : path) : path := json_path change.
