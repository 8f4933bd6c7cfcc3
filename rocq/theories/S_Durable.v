(** When data written by concurrent threads is safe from a crash of the process. *)
From Coq Require Import ZArith List Lia Bool.
From Verif Require Import M_Base M_Sink S_Sink M_Conc S_Conc.
Import ListNotations.
Open Scope Z_scope.

Definition hev_tid (e : hev) : Z := match e with HInv tid _ | HRet tid _ | HPanic tid => tid end.

(** Thread [tid] has called [o] and the call has not returned. *)
Definition pending (h : list hev) (tid : Z) (o : op) : Prop :=
  exists h1 h2, h = h1 ++ HInv tid o :: h2 /\ forall e, In e h2 -> hev_tid e <> tid.

(** No call on stream [t] is in progress. *)
Definition quiet (h : list hev) (t : tag) : Prop := forall tid o, pending h tid o -> op_tag o <> t.

(** The history [h] consists of [h1], then a call of [o] by [tid] that returned [r], and more. *)
Definition completed (h h1 : list hev) (tid : Z) (o : op) (r : Z) : Prop :=
  exists h2 h3, h = h1 ++ HInv tid o :: h2 ++ HRet tid r :: h3 /\ forall e, In e h2 -> hev_tid e <> tid.

(** [g] explains the observed history [h] as an atomic execution: every call takes effect once,
    between its call and its return, with the result the sequential specification demands. *)
Definition explains (g : list gev) (h : list hev) : Prop :=
  erase g = h /\ (forall tid, exists s, protocol tid (proj tid g) s) /\ sequentially_correct (lins g).

(** A file consisting of the complete pages [pages] and possibly a part of one more. *)
Definition file_holds (file : bytes) (pages : list page) : Prop :=
  exists rest, file = enc_pages pages ++ rest /\ Forall page_ok pages /\
    (rest = [] \/ exists p, page_ok p /\ prefix rest (enc_page p)).
