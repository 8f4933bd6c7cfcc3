(** C43 and C51: the printed tables.  Model M_Summarize.v, specification S_Summarize.v. *)
From Coq Require Import ZArith List Lia Bool String Permutation Sorted.
From Verif Require Import M_Base F_Base M_Raw M_V8 M_Map S_Guard M_Analysis S_Analysis S_Summary F_Analysis M_Diff S_Diff F_Diff M_Summarize S_Summarize.
Import ListNotations.
Open Scope Z_scope.

Lemma set_flags_spec l : forall f,
  let g := set_flags f l in
  (has_hits g = true <-> has_hits f = true \/ exists q, In q l /\ 0 < q_hits q) /\
  (has_blocked g = true <-> has_blocked f = true \/ exists q, In q l /\ 0 < q_blocked q) /\
  (has_load g = true <-> has_load f = true \/ exists q, In q l /\ 0 < q_load q) /\
  (has_hashing g = true -> has_hashing f = true \/ exists q, In q l /\ 0 < q_hashing q) /\
  (has_hashing f = true \/ (exists q, In q l /\ 0 < q_hashing q) -> has_hashing g = true \/ has_hits g = true /\ has_blocked g = true /\ has_load g = true).
Proof.
  assert (E : forall (field : qdata -> Z) q l, (exists q', In q' (q :: l) /\ 0 < field q') <-> (0 <? field q) = true \/ exists q', In q' l /\ 0 < field q').
  { intros field q l0. rewrite Z.ltb_lt. cbn [In]. split.
    - intros (q' & [<-|H] & H'); eauto.
    - intros [H|(q' & H1 & H2)]; eauto. }
  induction l as [|q l IH]; intros f g.
  - unfold g. cbn [set_flags]. assert (F : forall field, (exists q : qdata, In q [] /\ 0 < field q) <-> False). { split; [intros (? & [] & _)|tauto]. }
    rewrite !F. tauto.
  - unfold g. clear g. rewrite (E q_hits), (E q_blocked), (E q_load), (E q_hashing). cbn [set_flags].
    set (f' := mkFlags _ _ _ _).
    assert (A1 : has_hits f' = true <-> has_hits f = true \/ (0 <? q_hits q) = true) by (unfold f'; cbn; apply orb_true_iff).
    assert (A2 : has_blocked f' = true <-> has_blocked f = true \/ (0 <? q_blocked q) = true) by (unfold f'; cbn; apply orb_true_iff).
    assert (A3 : has_load f' = true <-> has_load f = true \/ (0 <? q_load q) = true) by (unfold f'; cbn; apply orb_true_iff).
    assert (A4 : has_hashing f' = true <-> has_hashing f = true \/ (0 <? q_hashing q) = true) by (unfold f'; cbn; apply orb_true_iff).
    destruct (has_hits f' && has_blocked f' && has_load f') eqn:B.
    + rewrite !andb_true_iff in B. destruct B as ((B1 & B2) & B3). tauto.
    + destruct (IH f') as (I1 & I2 & I3 & I4 & I5). tauto.
Qed.

Lemma summary_rows_filter f below l : (forall x y, x <= y -> below y = true -> below x = true) -> descending q_self_time l ->
  summary_rows f below l = map (fun q => filter_cells (summary_cells f q)) (filter (fun q => negb (below (q_self_time q))) l).
Proof.
  intros M. induction 1 as [|q l S IH F]; cbn [summary_rows filter map]; auto.
  destruct (below (q_self_time q)) eqn:B; cbn [negb].
  - replace (filter _ l) with (@nil qdata); auto. symmetry. clear IH S. induction l as [|q' l IH]; auto.
    inversion F; subst. cbn [filter]. rewrite (M (q_self_time q') (q_self_time q)) by auto. cbn. auto.
  - cbn [map]. rewrite IH. reflexivity.
Qed.
Lemma cells_columns f q : filter_cells (summary_cells f q) = map (column_value q) (filter_cells (columns f)).
Proof. unfold summary_cells, columns. destruct f as [[] [] [] []]; reflexivity. Qed.

(** The rows of the summary table: in order of decreasing self time, exactly the rows that are not
    below the requested percentage (a test that depends on the self time only and is monotone: see
    C61_percent), each showing in every column of the header the value of that column. *)
Theorem C43_rows : forall below r, (forall x y, x <= y -> below y = true -> below x = true) ->
  exists q, Permutation q (query_data r) /\ descending q_self_time q /\
    rows (fst (summarize below r)) =
      map (fun q => map (column_value q) (header (fst (summarize below r)))) (filter (fun q => negb (below (q_self_time q))) q).
Proof.
  intros below r M. exists (sort_desc q_self_time (query_data r)). split; [apply sort_desc_perm|]. split; [apply sort_desc_sorted|].
  unfold summarize. cbn [fst rows header]. rewrite summary_rows_filter by (auto; apply sort_desc_sorted).
  apply map_ext. intros q. apply cells_columns.
Qed.
(** The columns: five are always there; cache hits, blocked time and incremental load time are there
    iff some row has a non-zero value; the hashing time only if some row has one, and if some row has
    one then it is there unless the three others are (see C43_hashing_refuted). *)
Theorem C43_columns : forall below r, let h := header (fst (summarize below r)) in
  let Q := query_data r in
  (exists opt, h = map str ["Item"; "Self time"; "% of total time"; "Time"; "Item count"]%string ++ opt) /\ NoDup h /\
  (forall c, In c h -> In c (map str ["Item"; "Self time"; "% of total time"; "Time"; "Item count"; "Cache hits"; "Blocked time"; "Incremental load time"; "Incremental result hashing time"]%string)) /\
  (In (str "Cache hits") h <-> exists q, In q Q /\ 0 < q_hits q) /\
  (In (str "Blocked time") h <-> exists q, In q Q /\ 0 < q_blocked q) /\
  (In (str "Incremental load time") h <-> exists q, In q Q /\ 0 < q_load q) /\
  (In (str "Incremental result hashing time") h -> exists q, In q Q /\ 0 < q_hashing q) /\
  ((exists q, In q Q /\ 0 < q_hashing q) -> In (str "Incremental result hashing time") h \/
      In (str "Cache hits") h /\ In (str "Blocked time") h /\ In (str "Incremental load time") h).
Proof.
  intros below r h Q. unfold h, summarize. cbn [fst header]. clear h.
  assert (P : forall field, (exists q, In q (sort_desc q_self_time (query_data r)) /\ 0 < field q) <-> (exists q, In q Q /\ 0 < field q)).
  { intros field. split; intros (q & H1 & H2); exists q; split; auto; (eapply Permutation_in; [|exact H1]); [|symmetry]; apply sort_desc_perm. }
  destruct (set_flags_spec (sort_desc q_self_time (query_data r)) (mkFlags false false false false)) as (I1 & I2 & I3 & I4 & I5).
  cbn [has_hits has_blocked has_load has_hashing] in I1, I2, I3, I4, I5. rewrite P in I1, I2, I3, I4, I5.
  assert (FF : forall X : Prop, (false = true \/ X) <-> X) by (intros X; split; [intros [H|H]; [discriminate|auto]|auto]).
  rewrite FF in I1, I2, I3, I4, I5.
  set (f := set_flags _ _) in *. clearbody f.
  assert (C : (In (str "Cache hits") (filter_cells (columns f)) <-> has_hits f = true) /\
              (In (str "Blocked time") (filter_cells (columns f)) <-> has_blocked f = true) /\
              (In (str "Incremental load time") (filter_cells (columns f)) <-> has_load f = true) /\
              (In (str "Incremental result hashing time") (filter_cells (columns f)) <-> has_hashing f = true)).
  { clear. destruct f as [[] [] [] []]; vm_compute; intuition discriminate. }
  destruct C as (C1 & C2 & C3 & C4). rewrite C1, C2, C3, C4.
  split; [|split; [|split; [|tauto]]]; clear.
  - exists (filter_cells [(str "Cache hits", has_hits f); (str "Blocked time", has_blocked f); (str "Incremental load time", has_load f);
      (str "Incremental result hashing time", has_hashing f)]). reflexivity.
  - assert (N : NoDup (map fst (columns f))). { vm_compute. repeat constructor; cbn; intuition discriminate. }
    unfold filter_cells. induction (columns f) as [|(c, b) l IH]; [constructor|]. cbn [map fst] in N. inversion N; subst. cbn [filter snd].
    destruct b; auto. cbn [map fst]. constructor; auto. intros H. apply H1. apply in_map_iff in H. destruct H as (x & <- & H).
    apply filter_In in H. apply in_map. tauto.
  - intros c H. unfold filter_cells in H. apply in_map_iff in H. destruct H as (x & <- & H). apply filter_In in H. destruct H as (H & _).
    apply (in_map fst) in H. exact H.
Qed.
(** A properly nested recording whose activity "b" spends time on incremental hashing, which is
    shown as a row, and no column shows it. *)
Definition hash_events : list event :=
  let iv kind l a b := mkEv (str kind) l [] (Timestamp (Interval a b)) 1 in
  [mkEv (str "QueryCacheHit") (str "a") [] (Timestamp (Instant 1)) 1;
   iv "QueryBlocked" (str "a") 10 20; iv "IncrementalLoadResult" (str "a") 20 30; iv "Query" (str "a") 5 90;
   iv "IncrementalResultHashing" (str "b") 100 110; iv "Query" (str "b") 95 120]%string.
Theorem C43_hashing_refuted : nested_recording hash_events /\ exists r, perform_analysis true (fun l => l) hash_events = Ok r /\
  (exists q, In q (query_data r) /\ q_label q = str "b" /\ q_hashing q = 10) /\
  List.length (rows (fst (summarize (fun _ => false) r))) = 2%nat /\
  ~ In (str "Incremental result hashing time") (header (fst (summarize (fun _ => false) r))).
Proof.
  split.
  - intros t. unfold hash_events. cbn [thread_spans ev_payload ev_thread].
    destruct (Z.eqb_spec 1 t); cbn [laminar]; unfold nests; cbn [fst snd]; repeat split; try lia; repeat (constructor; cbn [fst snd]; try lia).
  - destruct (perform_analysis true (fun l => l) hash_events) as [r| | |] eqn:E; vm_compute in E; try discriminate.
    injection E as <-. eexists. split; [reflexivity|]. split; [|split].
    + eexists. split; [left; reflexivity|]. split; reflexivity.
    + reflexivity.
    + vm_compute. intuition discriminate.
Qed.
(** The artifact table lists every artifact in order. *)
Theorem C43_artifacts : forall below r, header (snd (summarize below r)) = [str "Item"; str "Artifact Size"] /\
  rows (snd (summarize below r)) = map (fun a => [Text (art_label a); Num (art_value a)]) (artifact_sizes r).
Proof. split; reflexivity. Qed.
Example C43_example : exists q, In q (query_data (mkRes [mkQ (str "a") 5 5 1 2 1 0 0 0] [] 5)) /\ 0 < q_hits q.
Proof. eexists. split; [left; reflexivity|]. reflexivity. Qed.

(** * C51: exclusion in diff tables *)
Lemma starts_with_spec p : forall b, starts_with p b = true <-> exists v, b = p ++ v.
Proof.
  induction p as [|x p IH]; intros b; cbn [starts_with app].
  - split; eauto.
  - destruct b as [|y b]. { split; [discriminate|intros (v & H); discriminate]. }
    rewrite andb_true_iff, Z.eqb_eq, IH. split.
    + intros (-> & v & ->). eauto.
    + intros (v & [= -> ->]). eauto.
Qed.
Lemma str_contains_spec p : forall b, str_contains b p = true <-> substring p b.
Proof.
  induction b as [|y b IH]; cbn [str_contains]; rewrite orb_true_iff, starts_with_spec; unfold substring.
  - split; [intros [(v & H)|H]; [exists [], v; auto|discriminate]|]. intros (u & v & H). left. exists v. destruct u; [auto|discriminate].
  - rewrite IH. unfold substring. split.
    + intros [(v & H)|(u & v & ->)]; [exists [], v; auto|exists (y :: u), v; auto].
    + intros (u & v & H). destruct u as [|y' u]; [left; eauto|]. injection H as <- ->. right. eauto.
Qed.
Theorem C51_exclude : forall exclude d,
  exists keep : bytes -> bool,
    (forall l, keep l = true <-> ~ exists e, In e exclude /\ substring e l) /\
    rows (fst (diff_tables exclude d)) =
      map (fun q => [Text (d_label q); SDur (d_self_time q); SDur (d_time q); SNum (d_count q); SNum (d_hits q); SDur (d_blocked q); SDur (d_load q); SDur (d_hashing q)])
        (filter (fun q => keep (d_label q)) (dr_query d)) /\
    rows (snd (diff_tables exclude d)) =
      map (fun a => [Text (ad_label a); SNum (ad_change a)]) (filter (fun a => keep (ad_label a)) (dr_artifacts d)).
Proof.
  intros exclude d. exists (fun l => negb (excluded exclude l)). split; [|split; reflexivity].
  intros l. unfold excluded. rewrite negb_true_iff. split.
  - intros H (e & H1 & H2). apply str_contains_spec in H2. apply not_true_iff_false in H. apply H. apply existsb_exists. eauto.
  - intros H. apply not_true_iff_false. intros H'. apply existsb_exists in H'. destruct H' as (e & H1 & H2). apply H. exists e. split; auto. apply str_contains_spec; auto.
Qed.
Print Assumptions C51_exclude.
