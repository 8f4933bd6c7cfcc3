(** C93: changes add up.  Specifications S_Diff.v, S_Chain.v. *)
From Coq Require Import ZArith List Lia Bool Permutation.
From Verif Require Import M_Base F_Base M_Map M_V8 M_Raw M_Analysis S_Analysis F_Analysis F_Analysis3 M_Diff S_Diff F_Diff Prop_Diff S_Chain S_Summary S_Schedule Prop_Analysis Prop_Schedule.
Import ListNotations.
Open Scope Z_scope.

Lemma find_label {A} (label : A -> bytes) (l : bytes) (data : list A) : match find (fun r => beq (label r) l) data with Some r => In r data /\ label r = l | None => ~ In l (map label data) end.
Proof.
  destruct (find _ data) as [r|] eqn:F.
  - apply find_some in F. destruct F as (F1 & F2). apply beq_true in F2. auto.
  - intros H. apply in_map_iff in H. destruct H as (x & <- & H). eapply find_none in F; eauto. cbn in F. rewrite beq_refl in F. discriminate.
Qed.
Lemma delta_absent {A} (label : A -> bytes) (field : A -> Z) base change l : ~ In l (map label base) -> ~ In l (map label change) -> delta label field base change l = 0.
Proof. intros H1 H2. unfold delta, value. rewrite !entry_not_In by auto. reflexivity. Qed.
(** The columns of the analysis, in the order of [fields]. *)
Definition columns : list (qdata -> Z) := [q_time; q_self_time; q_blocked; q_load; q_hashing; q_misses; q_hits; q_count].
Lemma exact_fields base change r : exact_row base change r -> Forall2 (fun f q => f r = delta q_label q base change (d_label r)) fields columns.
Proof. intros (H1 & H2 & H3 & H4 & H5 & H6 & H7 & H8). unfold fields, columns. repeat (constructor; [assumption|]). constructor. Qed.
Lemma Forall2_says {A B} (P Q : A -> B -> Prop) la lb : (forall a b, P a b -> Q a b) -> Forall2 P la lb -> Forall2 Q la lb.
Proof. intros H F. induction F; constructor; auto. Qed.
Lemma says_delta oc order base change d : (forall k (l : list bytes), Permutation (order k l) l) -> results_fit base -> results_fit change ->
  calculate_diff oc order base change = Ok d ->
  (forall l, Forall2 (fun f q => says f l d = delta q_label q (query_data base) (query_data change) l) fields columns) /\
  (forall l, says_size l d = delta art_label art_value (artifact_sizes base) (artifact_sizes change) l) /\
  as_nanos (dr_total d) = total_time change - total_time base.
Proof.
  intros HO Fb Fc E. destruct (C31_diff oc order base change HO Fb Fc) as (d1 & E1 & _ & H2 & H3 & _ & _ & H6 & H7 & _ & H9).
  rewrite E in E1. injection E1 as <-. rewrite Forall_forall in H3, H7. split; [|split; [|exact H9]]; intros l.
  - unfold says. pose proof (find_label d_label l (dr_query d)) as F. destruct (find _ (dr_query d)) as [r|].
    + destruct F as (F1 & <-). apply exact_fields, H3, F1.
    + assert (N : ~ In l (map q_label (query_data base)) /\ ~ In l (map q_label (query_data change))) by (split; intros X; apply F, H2; auto).
      destruct N as (N1 & N2). unfold fields, columns. repeat (constructor; [symmetry; apply delta_absent; assumption|]). constructor.
  - unfold says_size. pose proof (find_label ad_label l (dr_artifacts d)) as F. destruct (find _ (dr_artifacts d)) as [r|].
    + destruct F as (F1 & <-). apply H7, F1.
    + symmetry. apply delta_absent; intros X; apply F, H6; auto.
Qed.
Lemma last_cons {A} (rs : list A) : forall a b, last (a :: rs) b = last rs a.
Proof. induction rs as [|c rs IH]; intros a b; [reflexivity|]. cbn [last] in *. destruct rs; [reflexivity|]. apply (IH a b). Qed.

(** The change from the first profile to the last is the sum of the changes in between, whatever labels the profiles in between have. *)
Theorem C93_adds_up : forall oc order first rest ds whole,
  (forall k (l : list bytes), Permutation (order k l) l) -> results_fit first -> Forall results_fit rest ->
  steps oc first rest ds -> calculate_diff oc order first (last rest first) = Ok whole ->
  (forall f l, In f fields -> zsum (map (says f l) ds) = says f l whole) /\
  (forall l, zsum (map (says_size l) ds) = says_size l whole) /\
  zsum (map (fun d => as_nanos (dr_total d)) ds) = as_nanos (dr_total whole).
Proof.
  intros oc order first rest ds whole HO Ff Fr S E.
  assert (G : (forall l, Forall2 (fun f q => zsum (map (says f l) ds) = delta q_label q (query_data first) (query_data (last rest first)) l) fields columns) /\
    (forall l, zsum (map (says_size l) ds) = delta art_label art_value (artifact_sizes first) (artifact_sizes (last rest first)) l) /\
    zsum (map (fun d => as_nanos (dr_total d)) ds) = total_time (last rest first) - total_time first).
  { clear HO E. revert Ff Fr. induction S as [r|order' r r' rs d ds HO E S IH]; intros Ff Fr.
    - cbn [map last]. unfold zsum. cbn [fold_right]. split; [|split]; [| |lia]; intros l; unfold delta; [|lia]. unfold fields, columns. repeat (constructor; [lia|]). constructor.
    - inversion Fr as [|? ? F1 F2]; subst. destruct (IH F1 F2) as (I1 & I2 & I3). destruct (says_delta oc order' r r' d HO Ff F1 E) as (D1 & D2 & D3).
      rewrite last_cons. cbn [map]. split; [|split].
      + intros l. specialize (I1 l). specialize (D1 l). unfold fields, columns in *.
        repeat match goal with H : Forall2 _ (_ :: _) (_ :: _) |- _ => inversion H; clear H; subst | H : Forall2 _ [] [] |- _ => clear H end.
        repeat (constructor; [rewrite zsum_cons; unfold delta in *; lia|]). constructor.
      + intros l. rewrite zsum_cons, D2, I2. unfold delta. lia.
      + rewrite zsum_cons, D3, I3. lia. }
  assert (Fl : results_fit (last rest first)). { clear - Ff Fr. revert first Ff. induction Fr as [|r rs F1 F2 IH]; intros first Ff; [exact Ff|]. rewrite last_cons. apply IH, F1. }
  destruct (says_delta oc order first _ whole HO Ff Fl E) as (D1 & D2 & D3). destruct G as (G1 & G2 & G3). split; [|split].
  - intros f l Hf. specialize (G1 l). specialize (D1 l). clear - Hf G1 D1. revert G1 D1 Hf. generalize columns. generalize fields.
    intros fs. induction fs as [|g fs IH]; intros qs G D H; [destruct H|]. inversion G as [|? q ? qs' G1 G2]; subst. inversion D as [|? ? ? ? D1 D2]; subst.
    destruct H as [<-|H]; [congruence|eapply IH; eauto].
  - intros l. rewrite G2, D2. reflexivity.
  - rewrite G3, D3. reflexivity.
Qed.
(** These diffs exist. *)
Theorem C93_exists : forall oc order first rest, (forall k (l : list bytes), Permutation (order k l) l) -> results_fit first -> Forall results_fit rest ->
  exists ds whole, steps oc first rest ds /\ calculate_diff oc order first (last rest first) = Ok whole.
Proof.
  intros oc order first rest HO Ff Fr.
  assert (Fl : results_fit (last rest first)). { revert first Ff. induction Fr as [|r rs F1 F2 IH]; intros first Ff; [exact Ff|]. rewrite last_cons. apply IH, F1. }
  assert (G : exists ds, steps oc first rest ds).
  { clear Fl. revert first Ff. induction Fr as [|r rs F1 F2 IH]; intros first Ff; [eexists; constructor|].
    destruct (IH r F1) as (ds & S). destruct (C31_diff oc order first r HO Ff F1) as (d & E & _). exists (d :: ds). econstructor; eauto. }
  destruct G as (ds & S). destruct (C31_diff oc order first (last rest first) HO Ff Fl) as (d & E & _). eauto.
Qed.
(** A diff says nothing exactly if the two profiles have the same numbers for every label. *)
Theorem C93_no_change : forall oc order base change d, (forall k (l : list bytes), Permutation (order k l) l) -> results_fit base -> results_fit change ->
  calculate_diff oc order base change = Ok d ->
  ((forall f l, In f fields -> says f l d = 0) <-> forall q l, In q columns -> value q_label q (query_data base) l = value q_label q (query_data change) l) /\
  ((forall l, says_size l d = 0) <-> forall l, value art_label art_value (artifact_sizes base) l = value art_label art_value (artifact_sizes change) l) /\
  (as_nanos (dr_total d) = 0 <-> total_time base = total_time change).
Proof.
  intros oc order base change d HO Fb Fc E. destruct (says_delta oc order base change d HO Fb Fc E) as (D1 & D2 & D3). split; [|split; [|lia]].
  - assert (P : forall l, Forall2 (fun f q => says f l d = 0 <-> value q_label q (query_data base) l = value q_label q (query_data change) l) fields columns).
    { intros l. eapply Forall2_says; [|exact (D1 l)]. cbv beta. intros f q ->. unfold delta. lia. }
    clear D1. split; intros H.
    + intros q l Hq. specialize (P l). assert (H' : forall f, In f fields -> says f l d = 0) by (intros; apply H; auto). clear H. revert P H' Hq. generalize columns. generalize fields.
      intros fs. induction fs as [|f fs IH]; intros qs P H I; inversion P as [|? q' ? qs' P1 P2]; subst; [destruct I|].
      destruct I as [<-|I]; [apply P1, H; left; reflexivity|]. eapply IH; eauto. intros g Hg. apply H. right. exact Hg.
    + intros f l Hf. specialize (P l). assert (H' : forall q, In q columns -> value q_label q (query_data base) l = value q_label q (query_data change) l) by (intros; apply H; auto).
      clear H. revert P H' Hf. generalize columns. generalize fields.
      intros fs. induction fs as [|g fs IH]; intros qs P H I; inversion P as [|? q' ? qs' P1 P2]; subst; [destruct I|].
      destruct I as [<-|I]; [apply P1, H; left; reflexivity|]. eapply IH; eauto. intros q Hq. apply H. right. exact Hq.
  - split; intros H l; specialize (H l); rewrite D2 in *; unfold delta in *; lia.
Qed.

(** ** The order of the rows of the profiles *)
Lemma entry_perm {A} (label : A -> bytes) data data' l : NoDup (map label data) -> Permutation data data' -> entry label data l = entry label data' l.
Proof.
  intros N P. destruct (entry label data l) as [x|] eqn:E, (entry label data' l) as [y|] eqn:E'; auto.
  - f_equal. apply entry_Some in E, E'. destruct E as (I1 & L1), E' as (I2 & L2). apply Permutation_sym in P. apply (Permutation_in _ P) in I2.
    clear P. induction data as [|z data IH]; [destruct I1|]. cbn [map] in N. inversion N as [|? ? N1 N2]; subst.
    destruct I1 as [->|I1], I2 as [->|I2]; auto; exfalso; apply N1; [rewrite <- L2|rewrite L2]; apply in_map; assumption.
  - apply entry_Some in E. destruct E as (I1 & L1). apply entry_None in E'. destruct E'. rewrite <- L1. apply in_map. eapply Permutation_in; eauto.
  - apply entry_Some in E'. destruct E' as (I1 & L1). apply entry_None in E. destruct E. rewrite <- L1. apply in_map. apply Permutation_sym in P. eapply Permutation_in; eauto.
Qed.
Lemma collectM_ext {A B} (f g : A -> res B) l : (forall x, f x = g x) -> collectM f l = collectM g l.
Proof. intros H. induction l as [|x l IH]; cbn [collectM]; [reflexivity|]. rewrite H, IH. reflexivity. Qed.
Lemma collectM_map {A B} (f : A -> res B) (l : list A) (ys : list B) : collectM f l = Ok ys -> Forall2 (fun x y => f x = Ok y) l ys.
Proof.
  revert ys. induction l as [|x l IH]; intros ys; cbn [collectM]; [intros [= <-]; constructor|].
  destruct (f x) as [y| | |] eqn:E; cbn [bind]; try discriminate. destruct (collectM f l) as [zs| | |]; cbn [bind]; try discriminate. intros [= <-]. constructor; auto.
Qed.
Lemma Forall2_perm {A B} (f : A -> res B) (l l' : list A) : Permutation l l' -> forall ys ys', Forall2 (fun x y => f x = Ok y) l ys -> Forall2 (fun x y => f x = Ok y) l' ys' -> Permutation ys ys'.
Proof.
  intros P. induction P as [|x l l' P IH|x y l|l l' l'' P1 IH1 P2 IH2]; intros ys ys' F F'.
  - inversion F; inversion F'; subst. constructor.
  - inversion F as [|? y ? zs E1 F1]; inversion F' as [|? y' ? zs' E2 F2]; subst. rewrite E1 in E2. injection E2 as <-. constructor. auto.
  - inversion F as [|? a ? zs E1 F1]; inversion F1 as [|? b ? zs1 E2 F2]; inversion F' as [|? a' ? zs' E3 F3]; inversion F3 as [|? b' ? zs2 E4 F4]; subst.
    rewrite E1 in E4. rewrite E2 in E3. injection E4 as <-. injection E3 as <-.
    replace zs2 with zs1; [constructor|]. clear - F2 F4. revert zs2 F4. induction F2 as [|x y l zs E F IH]; intros zs2 F4; inversion F4 as [|? y' ? zs' E' F']; subst; [reflexivity|]. rewrite E in E'. injection E' as <-. f_equal. auto.
  - assert (G : exists zs, Forall2 (fun x y => f x = Ok y) l' zs).
    { clear - P1 F. revert ys F. induction P1 as [|x l l' P IH|x y l|l l' l'' P1 IH1 P2 IH2]; intros ys F.
      - eauto.
      - inversion F as [|? y ? zs E1 F1]; subst. destruct (IH _ F1) as (zs' & F'). eauto.
      - inversion F as [|? a ? zs E1 F1]; inversion F1 as [|? b ? zs1 E2 F2]; subst. exists (b :: a :: zs1). repeat (constructor; [assumption|]). assumption.
      - destruct (IH1 _ F) as (zs & F'). eauto. }
    destruct G as (zs & G). exact (perm_trans (IH1 _ _ F G) (IH2 _ _ G F')).
Qed.
Lemma label_set_perm ls ls' : (forall l, In l ls <-> In l ls') -> Permutation (label_set ls) (label_set ls').
Proof. intros H. apply NoDup_Permutation; [apply label_set_NoDup|apply label_set_NoDup|]. intros l. rewrite !label_set_In. apply H. Qed.

(** The rows of a diff do not depend on the order of the rows of the profiles, nor on that of the sets of labels. *)
Theorem C93_order : forall oc order order' base base' change change' d d',
  (forall k (l : list bytes), Permutation (order k l) l) -> (forall k (l : list bytes), Permutation (order' k l) l) ->
  NoDup (map q_label (query_data base)) -> NoDup (map q_label (query_data change)) ->
  NoDup (map art_label (artifact_sizes base)) -> NoDup (map art_label (artifact_sizes change)) ->
  Permutation (query_data base) (query_data base') -> Permutation (query_data change) (query_data change') ->
  Permutation (artifact_sizes base) (artifact_sizes base') -> Permutation (artifact_sizes change) (artifact_sizes change') ->
  total_time base = total_time base' -> total_time change = total_time change' ->
  calculate_diff oc order base change = Ok d -> calculate_diff oc order' base' change' = Ok d' ->
  Permutation (dr_query d) (dr_query d') /\ Permutation (dr_artifacts d) (dr_artifacts d') /\ dr_total d = dr_total d'.
Proof.
  intros oc order order' base base' change change' d d' HO HO' N1 N2 N3 N4 P1 P2 P3 P4 T1 T2 E E'.
  unfold calculate_diff in E, E'.
  rewrite (collectM_ext (query_row oc (query_data base') (query_data change')) (query_row oc (query_data base) (query_data change))) in E'.
  2:{ intros l. unfold query_row. rewrite !lookup_entry. rewrite <- (entry_perm q_label _ _ l N1 P1), <- (entry_perm q_label _ _ l N2 P2). reflexivity. }
  rewrite (collectM_ext (artifact_row oc (artifact_sizes base') (artifact_sizes change')) (artifact_row oc (artifact_sizes base) (artifact_sizes change))) in E'.
  2:{ intros l. unfold artifact_row. rewrite !lookup_entry. rewrite <- (entry_perm art_label _ _ l N3 P3), <- (entry_perm art_label _ _ l N4 P4). reflexivity. }
  set (Lq := label_set (map q_label (query_data base) ++ map q_label (query_data change))) in *.
  set (Lq' := label_set (map q_label (query_data base') ++ map q_label (query_data change'))) in *.
  set (La := label_set (map art_label (artifact_sizes base) ++ map art_label (artifact_sizes change))) in *.
  set (La' := label_set (map art_label (artifact_sizes base') ++ map art_label (artifact_sizes change'))) in *.
  assert (PL : Permutation (order true Lq) (order' true Lq')).
  { eapply perm_trans; [apply HO|]. eapply perm_trans; [|apply Permutation_sym, HO']. apply label_set_perm. intros l.
    assert (P : Permutation (map q_label (query_data base) ++ map q_label (query_data change)) (map q_label (query_data base') ++ map q_label (query_data change'))) by (apply Permutation_app; apply Permutation_map; assumption).
    split; apply Permutation_in; [exact P|apply Permutation_sym, P]. }
  assert (PA : Permutation (order false La) (order' false La')).
  { eapply perm_trans; [apply HO|]. eapply perm_trans; [|apply Permutation_sym, HO']. apply label_set_perm. intros l.
    assert (P : Permutation (map art_label (artifact_sizes base) ++ map art_label (artifact_sizes change)) (map art_label (artifact_sizes base') ++ map art_label (artifact_sizes change'))) by (apply Permutation_app; apply Permutation_map; assumption).
    split; apply Permutation_in; [exact P|apply Permutation_sym, P]. }
  destruct (collectM _ (order true Lq)) as [rows| | |] eqn:R in E; cbn [bind] in E; try discriminate.
  destruct (collectM _ (order false La)) as [arts| | |] eqn:A in E; cbn [bind] in E; try discriminate. injection E as <-.
  destruct (collectM _ (order' true Lq')) as [rows'| | |] eqn:R' in E'; cbn [bind] in E'; try discriminate.
  destruct (collectM _ (order' false La')) as [arts'| | |] eqn:A' in E'; cbn [bind] in E'; try discriminate. injection E' as <-.
  cbn [dr_query dr_artifacts dr_total]. rewrite T1, T2. split; [|split; [|reflexivity]].
  - eapply perm_trans; [apply sort_desc_perm|]. eapply perm_trans; [|apply Permutation_sym, sort_desc_perm]. eapply Forall2_perm; [exact PL|apply collectM_map, R|apply collectM_map, R'].
  - eapply perm_trans; [apply sort_desc_perm|]. eapply perm_trans; [|apply Permutation_sym, sort_desc_perm]. eapply Forall2_perm; [exact PA|apply collectM_map, A|apply collectM_map, A'].
Qed.
(** Nor do they depend on how the threads were interleaved in the two files. *)
Theorem C93_interleaving : forall oc ord1 ord2 ord3 ord4 order order' base base' change change' b b' c c' d d',
  (forall l, Permutation l (ord1 l)) -> (forall l, Permutation l (ord2 l)) -> (forall l, Permutation l (ord3 l)) -> (forall l, Permutation l (ord4 l)) ->
  (forall k (l : list bytes), Permutation (order k l) l) -> (forall k (l : list bytes), Permutation (order' k l) l) ->
  same_threads base base' -> nested_recording base -> integers_ok base ->
  same_threads change change' -> nested_recording change -> integers_ok change ->
  perform_analysis oc ord1 base = Ok b -> perform_analysis oc ord2 base' = Ok b' ->
  perform_analysis oc ord3 change = Ok c -> perform_analysis oc ord4 change' = Ok c' ->
  calculate_diff oc order b c = Ok d -> calculate_diff oc order' b' c' = Ok d' ->
  Permutation (dr_query d) (dr_query d') /\ Permutation (dr_artifacts d) (dr_artifacts d') /\ dr_total d = dr_total d'.
Proof.
  intros oc ord1 ord2 ord3 ord4 order order' base base' change change' b b' c c' d d' O1 O2 O3 O4 HO HO' S1 N1 I1 S2 N2 I2 A1 A2 A3 A4 E E'.
  destruct (C91_summary oc ord1 ord2 base base' b b' O1 O2 S1 N1 I1 A1 A2) as (P1 & Q1 & T1).
  destruct (C91_summary oc ord3 ord4 change change' c c' O3 O4 S2 N2 I2 A3 A4) as (P2 & Q2 & T2).
  destruct (C25_rows _ _ _ _ O1 N1 A1) as (D1 & _). destruct (C25_rows _ _ _ _ O3 N2 A3) as (D2 & _).
  destruct (C29_artifacts _ _ _ _ I1 A1) as (D3 & _). destruct (C29_artifacts _ _ _ _ I2 A3) as (D4 & _).
  apply sorted_NoDup in D3. apply sorted_NoDup in D4.
  apply (C93_order oc order order' b b' c c'); auto; [rewrite Q1|rewrite Q2]; apply Permutation_refl.
Qed.
(** Three profiles: the label [2] disappears and comes back. *)
Definition ex_row (l t n : Z) : qdata := mkQ [l] t t 0 n n 0 0 0.
Definition ex_chain : list results :=
  [mkRes [ex_row 1 50 2] [mkArt [9] 7] 60; mkRes [ex_row 1 40 3; ex_row 2 500 1; ex_row 3 1 1] [] 600].
Definition ex_first : results := mkRes [ex_row 1 100 1; ex_row 2 300 4] [mkArt [9] 5] 400.
Example ex_C93 : exists ds whole, steps true ex_first ex_chain ds /\ calculate_diff true (fun _ l => l) ex_first (last ex_chain ex_first) = Ok whole /\
  map (says d_count [2]) ds = [-4; 1] /\ says d_count [2] whole = -3 /\ results_fit ex_first /\ Forall results_fit ex_chain.
Proof.
  assert (R : forall l t n, 0 <= t < 1000 -> 0 <= n < 1000 -> row_fits (ex_row l t n)).
  { intros. unfold row_fits, ex_row, dur_fits, num_fits; cbn. lia. }
  assert (F1 : results_fit ex_first). { unfold results_fit, ex_first; cbn. unfold dur_fits, num_fits. split; [repeat (constructor; [apply R; lia|]); constructor|]. split; [repeat (constructor; [cbn; lia|]); constructor|lia]. }
  assert (F2 : Forall results_fit ex_chain).
  { unfold ex_chain, results_fit; cbn. unfold dur_fits, num_fits. constructor; [|constructor; [|constructor]]; cbn; (split; [repeat (constructor; [apply R; lia|]); constructor|]); (split; [repeat (constructor; [cbn; lia|]); constructor|lia]). }
  eexists. eexists. split.
  - eapply (st_cons true (fun _ l => l)); [intros; apply Permutation_refl|reflexivity|]. eapply (st_cons true (fun _ l => l)); [intros; apply Permutation_refl|reflexivity|]. constructor.
  - split; [reflexivity|]. split; [reflexivity|]. split; [reflexivity|]. split; assumption.
Qed.
Print Assumptions C93_adds_up.
Print Assumptions C93_exists.
Print Assumptions C93_no_change.
Print Assumptions C93_order.
Print Assumptions C93_interleaving.
