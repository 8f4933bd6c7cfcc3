(** What several sinks of one backing storage should do. *)
From Coq Require Import ZArith List Lia Bool.
From Verif Require Import M_Base M_Sink S_Sink M_Conc S_Conc M_Multi.
Import ListNotations.
Open Scope Z_scope.

(** The calls and returns that concern sink [i]. *)
Definition hist_of (i : Z) (h : list (Z * hev)) : list hev :=
  map snd (filter (fun e => fst e =? i) h).

(** The contents of the pages written by sink [i], in the order of the file. *)
Definition pages_of (i : Z) (ps : list (Z * page)) : list page :=
  map snd (filter (fun p => fst p =? i) ps).
Definition contents (ps : list page) : bytes := concat (map snd ps).

Definition mall_idle (c : mconf) : Prop := forall tid, mthr c tid = None.

(** All calls made by a schedule are admissible. *)
Definition macts_ok (acts : list maction) : Prop :=
  forall tid i o, In (MInvoke tid i o) acts -> op_ok o.

(** Thread 0 drops the sinks [l], one after the other (a drop takes at most eight actions). *)
Definition drop_sinks (l : list Z) : list maction :=
  flat_map (fun i => MInvoke 0 i (ODrop TEvents) :: repeat (MTick 0) 8) l.

(** Sink [i] is used in a schedule. *)
Definition used (i : Z) (acts : list maction) : Prop := exists tid o, In (MInvoke tid i o) acts.

(** The operations of sink [i] in a list of operations with the sinks they belong to. *)
Definition ops_of (i : Z) (l : list (Z * op)) : list op := map snd (filter (fun e => fst e =? i) l).

(** The calls on sink [i] take effect in an order [g] that respects the order of calls and returns,
    each returning what the only sink in the world would return. *)
Definition linearized (i : Z) (c : mconf) (g : list gev) : Prop :=
  erase g = hist_of i (mhist c) /\ (forall tid, exists s, protocol tid (proj tid g) s) /\
  sequentially_correct (lins g).
