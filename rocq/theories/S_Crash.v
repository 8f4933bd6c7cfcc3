(** What it means that a file was left behind by a process that died, and that a reader shows the
    part of the recording that had reached the file. *)
From Coq Require Import ZArith List Lia Bool.
From Verif Require Import M_Base M_Sink S_Sink M_Conc S_Conc M_Raw M_V8 M_Strings S_Strings M_Session S_Session M_Run S_Run.
Import ListNotations.
Open Scope Z_scope.

(** The process died while threads were recording, or (all calls having returned) after some of the
    sinks had been dropped.  The file holds the first part of the bytes handed to the operating
    system, cut anywhere. *)
Inductive left_behind (en : endian) (c0 : conf) (acts : list uact) (file : bytes) : Prop :=
| lb_recording :
    prefix file (file_of (disk (cmem (uc (urun en acts (mkU c0 [])))))) ->
    left_behind en c0 acts file
| lb_dropping drops :
    all_idle (uc (urun en acts (mkU c0 []))) -> Forall is_drop drops ->
    prefix file (file_of (disk (snd (run_ops drops (cmem (uc (urun en acts (mkU c0 [])))))))) ->
    left_behind en c0 acts file.

(** The strings allocated by the calls, with the address each got. *)
Fixpoint allocations (K : list (call * Z)) : list (sstring * Z) :=
  match K with
  | [] => []
  | (KAlloc s, r) :: K' => (s, r) :: allocations K'
  | _ :: K' => allocations K'
  end.

(** [K'] is what is left of the calls [K] when the three streams of the file have these lengths (a
    stream begins with a header of 8 bytes, the string index with the entry of the metadata): the
    strings that are in the file to their last byte, the first mappings, the first events. *)
Definition cut_to (strings ids events : Z) (K K' : list (call * Z)) : Prop :=
  allocations K' = filter (fun a => snd a + zlen (enc (fst a)) <=? strings) (allocations K) /\
  prefix (mappings K') (mappings K) /\ ids = 8 + 16 * (1 + zlen (mappings K')) /\
  prefix (recorded K') (recorded K) /\ events = 8 + 32 * zlen (recorded K').
