(** C98 for stack_collapse: the counts of the threads add up.  Specification S_Split.v, S_Collapse.v. *)
From Coq Require Import String ZArith List Lia Bool Permutation Sorted.
From Verif Require Import M_Base F_Base M_Raw M_V8 M_Map M_Session M_Guard S_Guard M_Analysis S_Analysis S_Summary F_Analysis F_Analysis2 F_Analysis3
  Prop_Analysis M_Collapse S_Collapse F_Collapse Prop_Collapse S_Schedule Prop_Schedule S_Split Prop_Split.
Import ListNotations.
Open Scope list_scope.
Open Scope Z_scope.

Lemma ancestors_group q e w : q (ev_thread e) = true -> ancestors e w = ancestors e (group q w).
Proof.
  intros H. induction w as [|x w IH]; [reflexivity|]. rewrite group_cons. cbn [ancestors]. destruct (q (ev_thread x)) eqn:E; cbn [ancestors].
  - destruct (encloses x e) eqn:X; [|exact IH]. apply encloses_thread in X. f_equal.
    clear -E. induction w as [|y w IH]; [reflexivity|]. rewrite group_cons. cbn [ancestors]. destruct (q (ev_thread y)) eqn:Ey; cbn [ancestors]; [|rewrite encloses_other by congruence; exact IH].
    destruct (encloses y x) eqn:Y; [|exact IH]. f_equal. revert Ey. clear. revert y. induction w as [|z w IH]; intros y Ey; [reflexivity|]. rewrite group_cons. cbn [ancestors].
    destruct (q (ev_thread z)) eqn:Ez; cbn [ancestors]; [|rewrite encloses_other by congruence; apply IH, Ey]. destruct (encloses z y); [f_equal; apply IH, Ez|apply IH, Ey].
  - rewrite encloses_other by congruence. exact IH.
Qed.
Lemma lines_group q evs : group q (with_lines evs) = with_lines (group q evs).
Proof.
  induction evs as [|e evs IH]; [reflexivity|]. cbn [with_lines]. rewrite !group_cons. change (ev_thread (relabel e (stack_line e evs))) with (ev_thread e).
  destruct (q (ev_thread e)) eqn:E; [|exact IH]. cbn [with_lines]. unfold stack_line. rewrite (ancestors_group q e evs E), IH. reflexivity.
Qed.
Lemma top_group q t evs : q t = true -> top_level_time t evs = top_level_time t (group q evs).
Proof.
  intros H. induction evs as [|e evs IH]; [reflexivity|]. rewrite group_cons. cbn [top_level_time]. destruct (q (ev_thread e)) eqn:E; cbn [top_level_time].
  - rewrite IH, (existsb_group q e evs E). reflexivity.
  - destruct (Z.eqb_spec (ev_thread e) t); [congruence|]. cbn [andb]. rewrite IH. lia.
Qed.
(** What the collapsed stacks say about a line; 0 if it is not there. *)
Definition cnt (k : bytes) (m : list (bytes * Z)) : Z := match map_get beq k m with Some v => v | None => 0 end.
Lemma counts_of oc evs t0 W T : nested_recording evs ->
  0 <= W -> NoDup T -> zlen T * W < 2 ^ 64 -> (forall t, thread_spans t evs <> [] -> In t T) ->
  (forall e a b, In e evs -> ev_payload e = Timestamp (Interval a b) -> t0 <= a /\ b <= t0 + W) ->
  exists m spans, collapse_stacks oc evs = Ok m /\ all_thread_spans evs spans /\
    forall k, cnt k m = if beq k (str "rustc") then zsum (map (fun x => snd (snd x) - fst (snd x) - top_level_time (fst x) evs) spans) else self_time_sum (labelled k) (with_lines evs).
Proof.
  intros HN HW HT HTW HTT HWin. destruct (C30_lines oc evs t0 W T HN HW HT HTW HTT HWin) as (m & sp & M & D & S1 & R). exists m, sp. split; [exact M|]. split; [exact S1|].
  intros k. unfold cnt. destruct (beq k (str "rustc")) eqn:E.
  - apply beq_true in E. subst k. pose proof (proj2 (R (str "rustc") _) (or_introl (conj eq_refl eq_refl))) as H. apply (In_get beq beq_eq) in H; [|exact D]. rewrite H. reflexivity.
  - destruct (map_get beq k m) as [v|] eqn:G.
    + apply (get_In beq beq_eq) in G. apply R in G. destruct G as [(-> & _)|(_ & ->)]; [|reflexivity]. rewrite beq_refl in E. discriminate.
    + symmetry. apply self_none. intros x Hx Hl. destruct (is_interval x) eqn:I; [|reflexivity]. exfalso.
      assert (H : has_line (with_lines evs) k) by (exists x; apply beq_true in Hl; auto). apply has_line_split in H.
      pose proof (proj2 (R k _) (or_intror (conj H eq_refl))) as H'. apply (In_get beq beq_eq) in H'; [|exact D]. congruence.
Qed.
Theorem C98_stacks : forall p oc evs t0 W T, nested_recording evs ->
  0 <= W -> NoDup T -> zlen T * W < 2 ^ 64 -> (forall t, thread_spans t evs <> [] -> In t T) ->
  (forall e a b, In e evs -> ev_payload e = Timestamp (Interval a b) -> t0 <= a /\ b <= t0 + W) ->
  exists m m1 m2, collapse_stacks oc evs = Ok m /\ collapse_stacks oc (group p evs) = Ok m1 /\ collapse_stacks oc (group (fun t => negb (p t)) evs) = Ok m2 /\
    forall k, (match map_get beq k m with Some v => v | None => 0 end) =
              (match map_get beq k m1 with Some v => v | None => 0 end) + (match map_get beq k m2 with Some v => v | None => 0 end).
Proof.
  intros p oc evs t0 W T HN HW HT HTW HTT HWin. destruct (counts_of oc evs t0 W T HN HW HT HTW HTT HWin) as (m & sp & M & S0 & R).
  assert (G : forall q, exists m spans, collapse_stacks oc (group q evs) = Ok m /\ all_thread_spans (group q evs) spans /\
    forall k, cnt k m = if beq k (str "rustc") then zsum (map (fun x => snd (snd x) - fst (snd x) - top_level_time (fst x) (group q evs)) spans) else self_time_sum (labelled k) (with_lines (group q evs))).
  { intros q. apply (counts_of oc (group q evs) t0 W T); auto.
    - apply group_nested, HN.
    - intros t Ht. apply HTT. rewrite group_spans in Ht. destruct (q t); [exact Ht|contradiction].
    - intros e a b He. apply (HWin e a b). apply filter_In in He. tauto. }
  destruct (G p) as (m1 & sp1 & M1 & S1 & R1). destruct (G (fun t => negb (p t))) as (m2 & sp2 & M2 & S2 & R2).
  exists m, m1, m2. split; [exact M|]. split; [exact M1|]. split; [exact M2|]. intros k. change (cnt k m = cnt k m1 + cnt k m2). rewrite R, R1, R2. destruct (beq k (str "rustc")).
  - pose proof (C27_unique _ _ _ S1 (group_all_spans p p evs sp S0)) as P1. pose proof (C27_unique _ _ _ S2 (group_all_spans p (fun t => negb (p t)) evs sp S0)) as P2.
    rewrite (zsum_perm _ _ (Permutation_map _ P1)), (zsum_perm _ _ (Permutation_map _ P2)). clear. unfold zsum.
    induction sp as [|(t, (a, b)) l IH]; [reflexivity|]. cbn [filter map fst snd fold_right]. destruct (p t) eqn:E; cbn [negb map fst snd fold_right].
    + rewrite (top_group p t evs E). lia.
    + rewrite (top_group (fun t => negb (p t)) t evs) by (rewrite E; reflexivity). lia.
  - rewrite <- !lines_group. apply split_self.
Qed.
Example ex_C98_stacks : exists m m1 m2, collapse_stacks true ex_pair = Ok m /\ collapse_stacks true (group (fun t => t =? 1) ex_pair) = Ok m1 /\
  collapse_stacks true (group (fun t => negb (t =? 1)) ex_pair) = Ok m2 /\
  map_get beq (str "rustc;main;typeck") m1 = Some 200 /\ map_get beq (str "rustc;typeck") m2 = Some 700 /\ map_get beq (str "rustc;typeck") m = Some 700.
Proof. eexists. eexists. eexists. split; [vm_compute; reflexivity|]. split; [vm_compute; reflexivity|]. split; [vm_compute; reflexivity|]. vm_compute. auto. Qed.
Print Assumptions C98_stacks.
