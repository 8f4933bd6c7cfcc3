(** Programs using timing guards (measureme/src/profiler.rs:119-228): which recording calls they
    make.  Guards are moved between scopes and threads freely; [h] names a guard or detached timing. *)
From Coq Require Import ZArith List Lia Bool.
From Verif Require Import M_Base M_Sink M_Conc M_Raw M_Session.
Import ListNotations.
Open Scope Z_scope.

Inductive gop :=
| GStart (h kind id tid : Z)          (* start_recording_interval_event, profiler.rs:121-135 *)
| GStartDetached (h kind id tid : Z)  (* start_recording_interval_event_detached, :146-158 *)
| GDrop (h : Z)                       (* dropping a TimingGuard, :203-217 *)
| GOverride (h id : Z)                (* finish_with_override_event_id, :219-228 *)
| GFinishDetached (h : Z)             (* finish_recording_interval_event, :163-173 *)
| GCall (k : call).                   (* any other recording call *)

(** One operation at counter value [now].  Rust's ownership rules make operations on a guard that
    does not exist, or starting a second one under the same name, impossible: they do nothing here. *)
Definition gstep (gs : Z -> option guard) (o : gop) (now : Z) : (Z -> option guard) * list call :=
  let set h v := fun x => if x =? h then v else gs x in
  match o with
  | GStart h kind id tid => (set h (Some (start_recording kind id tid now)), [])
  | GStartDetached h kind id tid => (set h (Some (start_recording_detached kind id tid now)), [])
  | GDrop h => match gs h with Some g => (set h None, [guard_drop g now]) | None => (gs, []) end
  | GOverride h id => match gs h with Some g => (set h None, [finish_with_override g id now]) | None => (gs, []) end
  | GFinishDetached h => match gs h with Some g => (set h None, [finish_detached g now]) | None => (gs, []) end
  | GCall k => (gs, [k])
  end.

Fixpoint grun (gs : Z -> option guard) (p : list (gop * Z)) : list call :=
  match p with
  | [] => []
  | (o, now) :: p' => let (gs', out) := gstep gs o now in out ++ grun gs' p'
  end.
Fixpoint gstate (gs : Z -> option guard) (p : list (gop * Z)) : Z -> option guard :=
  match p with
  | [] => gs
  | (o, now) :: p' => gstate (fst (gstep gs o now)) p'
  end.
