(** Vocabulary for timing guards. *)
From Coq Require Import ZArith List Lia Bool Sorted.
From Verif Require Import M_Base M_Sink M_Conc M_Raw M_Session M_Guard.
Import ListNotations.
Open Scope Z_scope.

(** The guard an operation starts or finishes. *)
Definition starts (o : gop) (h kind id tid : Z) : Prop :=
  o = GStart h kind id tid \/ o = GStartDetached h kind id tid.
(** [finishes o h id id']: [o] finishes [h], and the event gets the id [id'] if it was started with [id]. *)
Definition finishes (o : gop) (h id id' : Z) : Prop :=
  (o = GDrop h /\ id' = id) \/ (o = GFinishDetached h /\ id' = id) \/ o = GOverride h id'.
Definition about (o : gop) (h : Z) : Prop :=
  match o with
  | GStart x _ _ _ | GStartDetached x _ _ _ | GDrop x | GOverride x _ | GFinishDetached x => x = h
  | GCall _ => False
  end.

(** Properly nested use: scopes. *)
Inductive nested : list (gop * Z) -> Prop :=
| ne_nil : nested []
| ne_call k t p : (forall kind id tid s e, k <> KInterval kind id tid s e) -> nested p -> nested ((GCall k, t) :: p)
| ne_scope o o' h kind id id' tid t0 t1 p q :
    starts o h kind id tid -> finishes o' h id id' -> (forall x, In x p -> ~ about (fst x) h) ->
    nested p -> nested q -> nested ((o, t0) :: p ++ (o', t1) :: q).
(** The counter never goes backwards. *)
Definition monotone (p : list (gop * Z)) : Prop := Sorted Z.le (map snd p).
(** The intervals recorded by calls, in order. *)
Fixpoint spans (ks : list call) : list (Z * Z) :=
  match ks with
  | [] => []
  | KInterval _ _ _ s e :: r => (s, e) :: spans r
  | _ :: r => spans r
  end.
(** Properly nested recordings, in order of recording: an earlier interval ends before a later one
    starts, or lies inside it. *)
Definition nests (a b : Z * Z) : Prop := snd a <= fst b \/ (fst b <= fst a /\ snd a <= snd b).
Fixpoint laminar (l : list (Z * Z)) : Prop :=
  match l with
  | [] => True
  | a :: r => fst a <= snd a /\ Forall (nests a) r /\ laminar r
  end.
