(** C91: the interleaving of the threads does not matter to the analyses.  Vocabulary S_Schedule.v. *)
From Coq Require Import String ZArith List Lia Bool Permutation Sorted.
From Verif Require Import M_Base F_Base M_Raw M_V8 M_Map M_Session M_Guard S_Guard M_Analysis S_Analysis S_Summary F_Analysis F_Analysis2 F_Analysis3
  Prop_Analysis M_Collapse S_Collapse F_Collapse Prop_Collapse S_Schedule.
From Verif Require Import M_Diff M_Crox S_Crox Prop_Crox.
Import ListNotations.
Open Scope list_scope.
Open Scope Z_scope.

(** ** Swaps of neighbouring events of different threads *)
Inductive interleave : list event -> list event -> Prop :=
| il_refl l : interleave l l
| il_swap w x y r : ev_thread x <> ev_thread y -> interleave (w ++ x :: y :: r) (w ++ y :: x :: r)
| il_trans a b c : interleave a b -> interleave b c -> interleave a c.

Lemma il_cons z a b : interleave a b -> interleave (z :: a) (z :: b).
Proof. induction 1 as [l|w x y r N|a b c _ IH1 _ IH2]; [constructor|apply (il_swap (z :: w)), N|eapply il_trans; eauto]. Qed.
Lemma il_sym a b : interleave a b -> interleave b a.
Proof. induction 1 as [l|w x y r N|a b c _ IH1 _ IH2]; [constructor|apply il_swap; auto|eapply il_trans; eauto]. Qed.
Lemma il_front x w r : Forall (fun e => ev_thread e <> ev_thread x) w -> interleave (w ++ x :: r) (x :: w ++ r).
Proof.
  induction 1 as [|y w N _ IH]; [constructor|]. cbn [app]. eapply il_trans; [apply il_cons, IH|]. apply (il_swap [] y x (w ++ r)), N.
Qed.
Lemma first_of t l x r : by_thread t l = x :: r -> exists w r', l = w ++ x :: r' /\ Forall (fun e => ev_thread e <> t) w /\ ev_thread x = t /\ by_thread t r' = r.
Proof.
  unfold by_thread. induction l as [|y l IH]; cbn [filter]; [discriminate|]. destruct (Z.eqb_spec (ev_thread y) t) as [E|N].
  - intros H. injection H as -> <-. exists [], l. auto.
  - intros H. destruct (IH H) as (w & r' & -> & F & T & R). exists (y :: w), r'. split; [reflexivity|]. auto.
Qed.
Lemma same_interleave evs : forall evs', same_threads evs evs' -> interleave evs evs'.
Proof.
  induction evs as [|x evs IH]; intros evs' H.
  - destruct evs' as [|y evs']; [constructor|]. specialize (H (ev_thread y)). unfold by_thread in H. cbn [filter] in H. rewrite Z.eqb_refl in H. discriminate.
  - pose proof (H (ev_thread x)) as Hx. unfold by_thread in Hx at 1. cbn [filter] in Hx. rewrite Z.eqb_refl in Hx.
    symmetry in Hx. destruct (first_of _ _ _ _ Hx) as (w & r & -> & F & _ & R).
    apply il_sym. eapply il_trans; [apply il_front, F|]. apply il_sym, il_cons, IH. intros t. specialize (H t). unfold by_thread in *.
    rewrite filter_app in H |- *. cbn [filter] in H. destruct (Z.eqb_spec (ev_thread x) t) as [E|N]; [|exact H].
    assert (G : filter (fun e => ev_thread e =? t) w = []).
    { clear -F E. induction F as [|y w N _ IH]; [reflexivity|]. cbn [filter]. destruct (Z.eqb_spec (ev_thread y) t); [congruence|auto]. }
    rewrite G in H |- *. cbn [app] in *. injection H as H. exact H.
Qed.

Lemma il_perm a b : interleave a b -> Permutation a b.
Proof. induction 1; [apply Permutation_refl|apply Permutation_app_head, perm_swap|eapply Permutation_trans; eauto]. Qed.
Lemma il_in a b e : interleave a b -> In e a -> In e b.
Proof. intros H. apply Permutation_in, il_perm, H. Qed.

(** ** Every quantity of the specification is the same after a swap *)
Lemma perm_filter {A} (f : A -> bool) a b : Permutation a b -> Permutation (filter f a) (filter f b).
Proof.
  induction 1 as [|x a b _ IH|x y a|a b c _ IH1 _ IH2]; cbn [filter]; [constructor| |destruct (f x), (f y); try constructor; apply Permutation_refl|eapply Permutation_trans; eauto].
  destruct (f x); [constructor|]; exact IH.
Qed.
Lemma zsum_perm a b : Permutation a b -> zsum a = zsum b.
Proof. unfold zsum. induction 1; cbn [fold_right]; lia. Qed.
Lemma il_count P a b : interleave a b -> count P a = count P b.
Proof. intros H. unfold count, zlen. rewrite (Permutation_length (perm_filter P _ _ (il_perm _ _ H))). reflexivity. Qed.
Lemma time_sum_app P a b : time_sum P (a ++ b) = time_sum P a + time_sum P b.
Proof. induction a as [|x a IH]; cbn [app time_sum]; lia. Qed.
Lemma il_time P a b : interleave a b -> time_sum P a = time_sum P b.
Proof. induction 1; [reflexivity|rewrite !time_sum_app; cbn [time_sum]; lia|congruence]. Qed.
Lemma il_artifacts a b l : interleave a b -> artifact_total a l = artifact_total b l.
Proof. intros H. unfold artifact_total. apply zsum_perm, Permutation_map, perm_filter, il_perm, H. Qed.

Lemma encloses_thread x e : encloses x e = true -> ev_thread x = ev_thread e.
Proof.
  unfold encloses. destruct (ev_payload x) as [[]|]; try discriminate. destruct (ev_payload e) as [[]|]; try discriminate.
  rewrite !andb_true_iff. intros [[H _] _]. apply Z.eqb_eq, H.
Qed.
Lemma encloses_other x e : ev_thread x <> ev_thread e -> encloses x e = false.
Proof. intros N. destruct (encloses x e) eqn:E; auto. apply encloses_thread in E. congruence. Qed.

Lemma il_existsb f a b : interleave a b -> existsb f a = existsb f b.
Proof.
  induction 1; [reflexivity| |congruence]. rewrite !existsb_app. cbn [existsb]. f_equal. destruct (f x), (f y); reflexivity.
Qed.
Lemma il_children a b : interleave a b -> forall p, children_time a p = children_time b p.
Proof.
  induction 1 as [l|w x y r N|a b c _ IH1 _ IH2]; intros p; [reflexivity| |rewrite IH1; auto].
  induction w as [|z w IH].
  - cbn [app children_time existsb]. rewrite (encloses_other y x), (encloses_other x y) by congruence. cbn [orb]. lia.
  - cbn [app children_time]. rewrite IH. rewrite (il_existsb (fun x0 => encloses x0 z) _ _ (il_swap w x y r N)). reflexivity.
Qed.
Lemma self_from_before P evs : forall a b, interleave a b -> self_from P a evs = self_from P b evs.
Proof.
  induction evs as [|p r IH]; intros a b H; [reflexivity|]. cbn [self_from]. rewrite (il_children _ _ H p). f_equal. apply IH.
  clear -H. induction H as [l|w x y r N|a b c _ IH1 _ IH2]; [constructor| |eapply il_trans; eauto]. rewrite <- !app_assoc. cbn [app]. apply il_swap, N.
Qed.
Lemma children_snoc w x p : ev_thread x <> ev_thread p -> children_time (w ++ [x]) p = children_time w p.
Proof.
  intros N. induction w as [|z w IH]; cbn [app children_time existsb].
  - rewrite (encloses_other p x) by congruence. reflexivity.
  - rewrite IH. destruct (encloses p z) eqn:E; [|reflexivity]. rewrite existsb_app. cbn [existsb].
    apply encloses_thread in E. rewrite (encloses_other x z) by congruence. rewrite !orb_false_r. reflexivity.
Qed.
Lemma il_self_from P a b : interleave a b -> forall w, self_from P w a = self_from P w b.
Proof.
  induction 1 as [l|v x y r N|a b c _ IH1 _ IH2]; intros w; [reflexivity| |rewrite IH1; auto].
  revert w. induction v as [|z v IH]; intros w; cbn [app self_from]; [|rewrite IH; reflexivity].
  rewrite !children_snoc by congruence. rewrite <- !app_assoc. cbn [app].
  rewrite (self_from_before P r _ _ (il_swap w x y [] N)). lia.
Qed.
Lemma il_self P a b : interleave a b -> self_time_sum P a = self_time_sum P b.
Proof. intros H. apply il_self_from, H. Qed.

Lemma thread_spans_app' t a b : thread_spans t (a ++ b) = thread_spans t a ++ thread_spans t b.
Proof. induction a as [|e a IH]; [reflexivity|]. cbn [app thread_spans]. destruct (ev_payload e) as [[]|]; auto. destruct (_ =? t); cbn [app]; f_equal; auto. Qed.
Lemma il_spans t a b : interleave a b -> thread_spans t a = thread_spans t b.
Proof.
  induction 1 as [l|w x y r N|a b c _ IH1 _ IH2]; [reflexivity| |congruence]. rewrite !thread_spans_app'. f_equal. cbn [thread_spans].
  destruct (ev_payload x) as [[]|], (ev_payload y) as [[]|]; auto; destruct (Z.eqb_spec (ev_thread x) t), (Z.eqb_spec (ev_thread y) t); auto; congruence.
Qed.
Lemma il_nested a b : interleave a b -> nested_recording a -> nested_recording b.
Proof. intros H HN t. rewrite <- (il_spans t _ _ H). apply HN. Qed.
Lemma il_all_spans a b l : interleave a b -> all_thread_spans a l -> all_thread_spans b l.
Proof.
  intros H (N & K & S1). split; [exact N|]. split.
  - intros t. rewrite K, (il_spans t _ _ H). tauto.
  - intros t x y Hin. specialize (S1 t x y Hin). unfold spans_thread in *. rewrite <- (il_spans t _ _ H). exact S1.
Qed.
Lemma il_row a b l : interleave a b -> expected_row a l = expected_row b l.
Proof. intros H. unfold expected_row. rewrite !(il_time _ _ _ H), !(il_self _ _ _ H), !(il_count _ _ _ H). reflexivity. Qed.
Lemma il_has_row a b l : interleave a b -> has_row a l -> has_row b l.
Proof. intros H (e & He & R). exists e. split; auto. eapply il_in; eauto. Qed.

(** ** The summary *)
Theorem C91_summary : forall oc order order' evs evs' r r',
  (forall l, Permutation l (order l)) -> (forall l, Permutation l (order' l)) ->
  same_threads evs evs' -> nested_recording evs -> integers_ok evs ->
  perform_analysis oc order evs = Ok r -> perform_analysis oc order' evs' = Ok r' ->
  Permutation (query_data r) (query_data r') /\ artifact_sizes r = artifact_sizes r' /\ total_time r = total_time r'.
Proof.
  intros oc order order' evs evs' r r' HO HO' HS HN HI H H'. apply same_interleave in HS. pose proof (il_nested _ _ HS HN) as HN'.
  assert (HI' : integers_ok evs') by (intros e v He; apply (HI e v); eapply il_in; [apply il_sym, HS|exact He]).
  split; [|split].
  - destruct (C25_rows _ _ _ _ HO HN H) as (D & R). destruct (C25_rows _ _ _ _ HO' HN' H') as (D' & R').
    apply NoDup_Permutation; [eapply NoDup_map_inv, D|eapply NoDup_map_inv, D'|]. intros q. rewrite R, R'. rewrite (il_row _ _ (q_label q) HS).
    split; intros [X Y]; (split; [|exact Y]); eapply il_has_row; eauto. apply il_sym, HS.
  - destruct (C29_artifacts _ _ _ _ HI H) as (D & R). destruct (C29_artifacts _ _ _ _ HI' H') as (D' & R').
    assert (E : forall a, In a (artifact_sizes r) <-> In a (artifact_sizes r')).
    { intros [l v]. rewrite R, R'. rewrite (il_artifacts _ _ l HS). split; intros [(e & He & X) Y]; (split; [|exact Y]); exists e; (split; [|exact X]); eapply il_in; eauto. apply il_sym, HS. }
    clear -D D' E. assert (NR : forall x : bytes, ~ lex_lt x x) by (induction x as [|z x IH]; intros C; inversion C; subst; [lia|auto]).
    assert (AS : forall x y : bytes, lex_lt x y -> ~ lex_lt y x).
    { intros x y X. induction X as [z b|z z' a b L|z a b X IH]; intros C; inversion C; subst; try lia; auto. }
    revert D D' E. generalize (artifact_sizes r) as a, (artifact_sizes r') as b. induction a as [|x a IH]; intros [|y b] D D' E; auto.
    + exfalso. apply (proj2 (E y)). left; auto.
    + exfalso. apply (proj1 (E x)). left; auto.
    + cbn [map] in D, D'. inversion D as [|? ? D1 D2]; inversion D' as [|? ? D3 D4]; subst.
      assert (EX : x = y).
      { destruct (proj1 (E x) (or_introl eq_refl)) as [X|X]; auto. destruct (proj2 (E y) (or_introl eq_refl)) as [Y|Y]; auto. exfalso.
        rewrite Forall_forall in D2, D4. apply (AS (art_label y) (art_label x)); [apply D4, in_map, X|apply D2, in_map, Y]. }
      subst y. f_equal. apply IH; auto. intros z. specialize (E z). rewrite Forall_forall in D2, D4.
      split; intros Hz.
      * destruct (proj1 E (or_intror Hz)) as [X|X]; auto. subst z. exfalso. apply (NR (art_label x)), D2, in_map, Hz.
      * destruct (proj2 E (or_intror Hz)) as [X|X]; auto. subst z. exfalso. apply (NR (art_label x)), D4, in_map, Hz.
  - destruct (C27_total_time _ _ _ _ H) as (l & L & ->). destruct (C27_total_time _ _ _ _ H') as (l' & L' & ->).
    apply (il_all_spans _ _ _ HS) in L. apply zsum_perm, Permutation_map. eapply C27_unique; eauto.
Qed.
Print Assumptions C91_summary.

(** ... and if one of them is analysed without trouble because of its bounds, so is the other. *)
Theorem C91_both : forall oc order order' evs evs' t0 W,
  same_threads evs evs' -> nested_recording evs -> integers_ok evs ->
  (forall e a b, In e evs -> ev_payload e = Timestamp (Interval a b) -> t0 <= a /\ b <= t0 + W) ->
  0 <= W -> zlen evs * W <= DURATION_MAX ->
  (oc = true -> forall l, artifact_total evs l < 2 ^ 64) ->
  (exists r, perform_analysis oc order evs = Ok r) /\ (exists r', perform_analysis oc order' evs' = Ok r').
Proof.
  intros oc order order' evs evs' t0 W HS HN HI HW W0 HL HA. split; [eapply C26_no_panic; eauto|].
  apply same_interleave in HS. pose proof (il_sym _ _ HS) as HS'.
  apply (C26_no_panic oc order' evs' t0 W); [eapply il_nested; eauto| | |exact W0| |].
  - intros e v He. apply (HI e v). eapply il_in; eauto.
  - intros e a b He. apply (HW e a b). eapply il_in; eauto.
  - unfold zlen in *. rewrite <- (Permutation_length (il_perm _ _ HS)). exact HL.
  - intros Ho l. rewrite <- (il_artifacts _ _ l HS). auto.
Qed.
Print Assumptions C91_both.

(** ** The collapsed stacks *)
Lemma il_ancestors a b : interleave a b -> forall e, ancestors e a = ancestors e b.
Proof.
  induction 1 as [l|w x y r N|a b c _ IH1 _ IH2]; intros e; [reflexivity| |rewrite IH1; auto].
  revert e. induction w as [|z w IH]; intros e.
  - cbn [app ancestors]. destruct (encloses x e) eqn:Ex, (encloses y e) eqn:Ey; auto.
    + apply encloses_thread in Ex, Ey. congruence.
    + rewrite (encloses_other y x) by congruence. reflexivity.
    + rewrite (encloses_other x y) by congruence. reflexivity.
  - cbn [app ancestors]. rewrite !IH. reflexivity.
Qed.
Lemma il_lines a b : interleave a b -> interleave (with_lines a) (with_lines b).
Proof.
  induction 1 as [l|w x y r N|a b c _ IH1 _ IH2]; [constructor| |eapply il_trans; eauto].
  induction w as [|z w IH].
  - cbn [app with_lines]. unfold stack_line. cbn [ancestors]. rewrite (encloses_other y x), (encloses_other x y) by congruence.
    apply (il_swap [] (relabel x _) (relabel y _) (with_lines r)). exact N.
  - cbn [app with_lines]. unfold stack_line. rewrite (il_ancestors _ _ (il_swap w x y r N) z). apply il_cons, IH.
Qed.
Lemma il_top t a b : interleave a b -> top_level_time t a = top_level_time t b.
Proof.
  induction 1 as [l|w x y r N|a b c _ IH1 _ IH2]; [reflexivity| |congruence].
  induction w as [|z w IH].
  - cbn [app top_level_time existsb]. rewrite (encloses_other y x), (encloses_other x y) by congruence. cbn [orb]. lia.
  - cbn [app top_level_time]. rewrite IH. rewrite (il_existsb (fun x0 => encloses x0 z) _ _ (il_swap w x y r N)). reflexivity.
Qed.

Theorem C91_stacks : forall oc evs evs' t0 W T, same_threads evs evs' -> nested_recording evs ->
  0 <= W -> NoDup T -> zlen T * W < 2 ^ 64 -> (forall t, thread_spans t evs <> [] -> In t T) ->
  (forall e a b, In e evs -> ev_payload e = Timestamp (Interval a b) -> t0 <= a /\ b <= t0 + W) ->
  exists m m', collapse_stacks oc evs = Ok m /\ collapse_stacks oc evs' = Ok m' /\ Permutation m m'.
Proof.
  intros oc evs evs' t0 W T HS HN HW HT HTW HTT HWin. apply same_interleave in HS. pose proof (il_sym _ _ HS) as HS'.
  destruct (C30_lines oc evs t0 W T HN HW HT HTW HTT HWin) as (m & sp & M & D & S1 & R).
  destruct (C30_lines oc evs' t0 W T (il_nested _ _ HS HN) HW HT HTW) as (m' & sp' & M' & D' & S1' & R').
  { intros t Ht. apply HTT. rewrite (il_spans t _ _ HS). exact Ht. }
  { intros e a b He. apply (HWin e a b). eapply il_in; eauto. }
  exists m, m'. split; [exact M|]. split; [exact M'|].
  apply NoDup_Permutation; [eapply NoDup_map_inv, D|eapply NoDup_map_inv, D'|]. intros [k v]. rewrite R, R'.
  assert (Z1 : zsum (map (fun x => snd (snd x) - fst (snd x) - top_level_time (fst x) evs) sp) = zsum (map (fun x => snd (snd x) - fst (snd x) - top_level_time (fst x) evs') sp')).
  { rewrite (map_ext _ (fun x => snd (snd x) - fst (snd x) - top_level_time (fst x) evs')) by (intros x; rewrite (il_top _ _ _ HS); reflexivity).
    apply zsum_perm, Permutation_map. apply (il_all_spans _ _ _ HS) in S1. eapply C27_unique; eauto. }
  pose proof (il_lines _ _ HS) as HL. rewrite Z1, (il_self (labelled k) _ _ HL). rewrite <- !has_line_split.
  assert (G : has_line (with_lines evs) k <-> has_line (with_lines evs') k).
  { unfold has_line. split; intros (e & He & X); exists e; (split; [|exact X]); eapply il_in; eauto. apply il_sym, HL. }
  rewrite G. tauto.
Qed.
Print Assumptions C91_stacks.

(** ** The Chrome export: the same records, in another order (for any order of the events) *)
Lemma alive_perm a b : Permutation a b -> forall t x y, alive_span a t x y -> alive_span b t x y.
Proof.
  intros H t x y. pose proof (fun e => Permutation_in e H) as I1. pose proof (fun e => Permutation_in e (Permutation_sym H)) as I2.
  unfold alive_span. intros ((e & h & A1 & A2) & (e' & l & B1 & B2) & C). split; [|split].
  - exists e, h. split; [apply I1, A1|exact A2].
  - exists e', l. split; [apply I1, B1|exact B2].
  - intros f lo hi Hf. apply C, I2, Hf.
Qed.
Lemma spans_perm a b : Permutation a b -> Permutation (thread_start_and_end a) (thread_start_and_end b).
Proof.
  intros H. apply NoDup_Permutation; [eapply NoDup_map_inv, spans_keys|eapply NoDup_map_inv, spans_keys|].
  intros [t [x y]]. rewrite !spans_spec. split; apply alive_perm; auto. apply Permutation_sym, H.
Qed.
Lemma mapping_perm oc c a b r : Permutation a b -> thread_mapping oc c a r -> thread_mapping oc c b r.
Proof.
  intros H M. inversion M as [E|ends starts E (P1 & S1) (P2 & S2)]; subst; [constructor; auto|].
  pose proof (spans_perm _ _ (Permutation_sym H)) as HP.
  constructor; auto; split; auto; (eapply Permutation_trans; [apply Permutation_map, HP|assumption]).
Qed.
Lemma collect_perm {A B} (f : A -> res B) a b : Permutation a b -> forall ra, collectM f a = Ok ra -> exists rb, collectM f b = Ok rb /\ Permutation ra rb.
Proof.
  induction 1 as [|x a b _ IH|x y a|a b c _ IH1 _ IH2]; intros ra H.
  - exists ra. split; [exact H|apply Permutation_refl].
  - cbn [collectM] in *. destruct (f x) as [v| | |]; cbn [bind] in *; try discriminate. destruct (collectM f a) as [vs| | |] eqn:E; cbn [bind] in *; try discriminate.
    injection H as <-. destruct (IH vs eq_refl) as (rb & -> & P). cbn [bind]. exists (v :: rb). split; [reflexivity|constructor; exact P].
  - cbn [collectM] in *. destruct (f y) as [v| | |]; cbn [bind] in *; try discriminate. destruct (f x) as [w| | |]; cbn [bind] in *; try discriminate.
    destruct (collectM f a) as [vs| | |]; cbn [bind] in *; try discriminate. injection H as <-. exists (w :: v :: vs). split; [reflexivity|constructor].
  - destruct (IH1 ra H) as (rb & Hb & P1). destruct (IH2 rb Hb) as (rc & Hc & P2). exists rc. split; [exact Hc|eapply Permutation_trans; eauto].
Qed.
Lemma concat_perm {A} (a b : list (list A)) : Permutation a b -> Permutation (concat a) (concat b).
Proof.
  induction 1 as [|x a b _ IH|x y a|a b c _ IH1 _ IH2]; cbn [concat]; [constructor|apply Permutation_app_head, IH| |eapply Permutation_trans; eauto].
  rewrite !app_assoc. apply Permutation_app_tail, Permutation_app_comm.
Qed.

Theorem C91_chrome : forall oc collapse minimum files files' out,
  Forall2 (fun f f' => fst f = fst f' /\ Permutation (snd f) (snd f')) files files' ->
  crox_main oc collapse minimum files (Ok out) ->
  exists out', crox_main oc collapse minimum files' (Ok out') /\ Permutation out out'.
Proof.
  intros oc collapse minimum files files' out H. revert out. induction H as [|[md evs] [md' evs'] files files' (E & P) _ IH]; intros out HM.
  - exists out. split; [exact HM|apply Permutation_refl].
  - cbn [fst snd] in E, P. subst md'. inversion HM as [| |md0 evs0 fs m rs r TM EX CM|]; subst.
    destruct r as [r| | |]; cbn [bind] in *; try discriminate. match goal with X : Ok _ = Ok _ |- _ => injection X as X; try subst out end.
    destruct (IH r CM) as (r' & CM' & PR).
    unfold export_file in EX. destruct (collectM _ evs) as [rss| | |] eqn:EC; cbn [bind] in EX; try discriminate.
    destruct (collect_perm _ _ _ P _ EC) as (rss' & EC' & PC).
    destruct (sort_index_record md) as [last| | |] eqn:EL; cbn [bind] in EX; try discriminate. injection EX as <-.
    exists ((concat rss' ++ crate_name_record md ++ [last]) ++ r'). split.
    + apply (cm_cons _ _ _ _ _ _ m _ (Ok r')); [eapply mapping_perm; eauto| |exact CM']. unfold export_file. rewrite EC'. cbn [bind]. rewrite EL. reflexivity.
    + apply Permutation_app; [|exact PR]. apply Permutation_app_tail, concat_perm, PC.
Qed.
Print Assumptions C91_chrome.

(** A concrete case: the two threads of [ex_events] (Prop_Analysis.v) interleaved differently.  The
    condition is needed: with two events of one thread exchanged the summary differs. *)
Definition ex_other : list event :=
  [mkEv (str "Query") (str "p") [] (Timestamp (Interval 3 5)) 2;
   mkEv (str "IncrementalResultHashing") (str "q") [] (Timestamp (Interval 12 14)) 1;
   mkEv (str "QueryCacheHit") (str "q") [] (Timestamp (Instant 15)) 1;
   mkEv (str "ArtifactSize") (str "x") [] (Integer 6) 2;
   mkEv (str "Query") (str "q") [] (Timestamp (Interval 10 20)) 1;
   mkEv (str "ArtifactSize") (str "x") [] (Integer 4) 1;
   mkEv (str "IncrementalLoadResult") (str "q") [] (Timestamp (Interval 20 21)) 1;
   mkEv (str "ArtifactSize") (str "a") [] (Integer 5) 1;
   mkEv (str "GenericActivity") (str "p") [] (Timestamp (Interval 10 30)) 1].
Example ex_C91 : same_threads ex_events ex_other /\ nested_recording ex_events /\ integers_ok ex_events /\
  perform_analysis true (fun l => l) ex_other =
  Ok (mkRes [mkQ (str "p") 22 11 2 0 2 0 0 0; mkQ (str "q") 11 11 1 1 2 0 1 2]
            [mkArt (str "a") 5; mkArt (str "x") 10] 22).
Proof.
  split; [|split; [apply ex_nested|split; [apply ex_nested|vm_compute; reflexivity]]].
  intros t. unfold by_thread, ex_events, ex_other. cbn [filter ev_thread]. destruct (Z.eqb_spec 1 t), (Z.eqb_spec 2 t); try lia; reflexivity.
Qed.
Theorem C91_order_matters : exists evs evs' r r', Permutation evs evs' /\ nested_recording evs /\ ~ same_threads evs evs' /\
  perform_analysis true (fun l => l) evs = Ok r /\ perform_analysis true (fun l => l) evs' = Ok r' /\ ~ Permutation (query_data r) (query_data r').
Proof.
  set (a := mkEv (str "Query") (str "a") [] (Timestamp (Interval 2 4)) 1). set (b := mkEv (str "Query") (str "b") [] (Timestamp (Interval 2 4)) 1).
  exists [a; b], [b; a]. eexists. eexists. split; [apply perm_swap|]. split.
  { intros t. unfold a, b. cbn [thread_spans ev_payload ev_thread]. destruct (Z.eqb_spec 1 t); cbn [laminar]; auto.
    unfold nests. cbn [fst snd]. split; [lia|]. split; [constructor; [cbn; lia|constructor]|]. split; [lia|]. split; [constructor|exact Logic.I]. }
  split; [intros H; specialize (H 1); vm_compute in H; discriminate H|].
  split; [vm_compute; reflexivity|]. split; [vm_compute; reflexivity|]. intros P. cbn [query_data] in P.
  apply (Permutation_in (mkQ (str "a") 2 2 1 0 1 0 0 0)) in P; [|cbn; auto].
  cbn in P. repeat (destruct P as [P|P]; [vm_compute in P; discriminate P|]). exact P.
Qed.
Print Assumptions C91_order_matters.
