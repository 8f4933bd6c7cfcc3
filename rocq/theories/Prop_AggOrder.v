(** C94: the order of the profiles, and repeated profiles, do not matter to [summarize aggregate].  Specification S_Aggregate.v. *)
From Coq Require Import String ZArith List Lia Bool Permutation.
From Verif Require Import M_Base F_Base M_Raw M_V8 M_Map M_Aggregate F_Aggregate S_Aggregate Prop_Aggregate Prop_Aggregate2 M_AggText M_Path M_Open M_Run M_Programs.
Import ListNotations.
Open Scope Z_scope.
Local Open Scope list_scope.

(** The same elements, in any order and any number of times. *)
Definition same_set {A} (l l' : list A) : Prop := forall x, In x l <-> In x l'.
Lemma same_set_sym {A} (l l' : list A) : same_set l l' -> same_set l' l.
Proof. intros H x. symmetry. apply H. Qed.
Lemma same_set_map {A B} (f : A -> B) l l' : same_set l l' -> same_set (map f l) (map f l').
Proof. intros H y. rewrite !in_map_iff. split; intros (x & E & I); exists x; (split; [exact E|apply H, I]). Qed.
Lemma Forall2_In {A B} (R : A -> B -> Prop) la lb : Forall2 R la lb -> (forall a, In a la -> exists b, In b lb /\ R a b) /\ (forall b, In b lb -> exists a, In a la /\ R a b).
Proof.
  intros F. induction F as [|a b la lb H F (I1 & I2)]; [split; intros ? []|]. split; intros x [<-|Hx].
  - exists b. split; [left; reflexivity|exact H].
  - destruct (I1 x Hx) as (y & Hy & R'). exists y. split; [right; exact Hy|exact R'].
  - exists a. split; [left; reflexivity|exact H].
  - destruct (I2 x Hx) as (y & Hy & R'). exists y. split; [right; exact Hy|exact R'].
Qed.
(** A relation that is a function carries equal sets to equal sets. *)
Lemma Forall2_same_set {A B} (R : A -> B -> Prop) la la' lb : (forall a b b', R a b -> R a b' -> b = b') -> same_set la la' -> Forall2 R la lb ->
  exists lb', Forall2 R la' lb' /\ same_set lb lb'.
Proof.
  intros D S F. destruct (Forall2_In R la lb F) as (I1 & I2).
  assert (G : exists lb', Forall2 R la' lb'). { assert (Hin : incl la' la) by (intros x Hx; apply S, Hx). clear S. induction la' as [|a la' IH]; [exists []; constructor|].
    destruct IH as (lb' & F'); [intros x Hx; apply Hin; right; exact Hx|]. destruct (I1 a (Hin a (or_introl eq_refl))) as (b & _ & H). exists (b :: lb'). constructor; auto. }
  destruct G as (lb' & F'). exists lb'. split; [exact F'|]. destruct (Forall2_In R la' lb' F') as (J1 & J2). intros b. split; intros Hb.
  - destruct (I2 b Hb) as (a & Ha & H). destruct (J1 a (proj1 (S a) Ha)) as (b' & Hb' & H'). rewrite (D _ _ _ H H'). exact Hb'.
  - destruct (J2 b Hb) as (a & Ha & H). destruct (I1 a (proj2 (S a) Ha)) as (b' & Hb' & H'). rewrite (D _ _ _ H H'). exact Hb'.
Qed.

Lemma Forall2_same_res {A B} (f : A -> res B) la la' lb : same_set la la' -> Forall2 (fun x y => f x = Ok y) la lb -> exists lb', Forall2 (fun x y => f x = Ok y) la' lb' /\ same_set lb lb'.
Proof. apply Forall2_same_set. intros a b b' E E'. rewrite E in E'. injection E' as <-. reflexivity. Qed.
Lemma Forall2_same_eres {A B} (f : A -> eres B) la la' lb : same_set la la' -> Forall2 (fun x y => f x = EOk y) la lb -> exists lb', Forall2 (fun x y => f x = EOk y) la' lb' /\ same_set lb lb'.
Proof. apply Forall2_same_set. intros a b b' E E'. rewrite E in E'. injection E' as <-. reflexivity. Qed.
Lemma combines_same_set is is' a : same_set is is' -> combines is a -> combines is' a.
Proof.
  intros S (H1 & ds & F & M1 & M2 & M3). split; [intros i Hi; apply H1, S, Hi|].
  destruct (Forall2_same_res _ is is' ds S F) as (ds' & F' & S').
  exists ds'. split; [exact F'|]. split; [apply S', M1|]. split; [apply S', M2|]. intros d Hd. apply M3, S', Hd.
Qed.
Lemma aggregated_same_set IS aggs : aggregated IS aggs -> forall IS', same_set IS IS' -> aggregated IS' aggs.
Proof.
  induction 1 as [IS F|columns a aggs C A IH]; intros IS' S.
  - constructor. rewrite Forall_forall in *. intros x Hx. apply F, S, Hx.
  - assert (E : exists columns', IS' = map (fun c => fst c :: snd c) columns' /\ incl columns' columns).
    { assert (Hin : incl IS' (map (fun c => fst c :: snd c) columns)) by (intros x Hx; apply S, Hx). clear - Hin. induction IS' as [|x IS' IH]; [exists []; split; [reflexivity|intros ? []]|].
      destruct IH as (cs & -> & Ic); [intros y Hy; apply Hin; right; exact Hy|]. assert (Hx := Hin x (or_introl eq_refl)). apply in_map_iff in Hx. destruct Hx as (c & <- & Hc).
      exists (c :: cs). split; [reflexivity|]. intros y [<-|Hy]; auto. }
    destruct E as (columns' & -> & Ic). assert (SC : same_set columns columns').
    { intros c. split; [|apply Ic]. intros Hc. assert (X : In (fst c :: snd c) (map (fun c => fst c :: snd c) columns')) by (apply S; apply (in_map (fun c => fst c :: snd c)), Hc).
      apply in_map_iff in X. destruct X as (c' & E & Hc'). destruct c, c'. cbn in E. injection E as -> ->. exact Hc'. }
    constructor; [eapply combines_same_set; [|exact C]; apply same_set_map, SC|]. apply IH, same_set_map, SC.
Qed.
Lemma points_fun evs pts pts' : points_of evs pts -> points_of evs pts' -> pts = pts'.
Proof. unfold points_of. intros H H'. pose proof (drains_det _ _ _ H _ H') as E. injection E as <-. reflexivity. Qed.
Lemma same_set_nil {A} (l : list A) : same_set [] l -> l = [].
Proof. intros S. destruct l as [|x l]; [reflexivity|]. destruct (proj2 (S x) (or_introl eq_refl)). Qed.

(** The loop over the profiles ends with the same aggregated intervals. *)
Lemma loop_same_set profiles profiles' aggs : same_set profiles profiles' ->
  (exists its, opened profiles its /\ drains agg_next its (Ok aggs)) -> exists its, opened profiles' its /\ drains agg_next its (Ok aggs).
Proof.
  intros S H. destruct profiles as [|p ps]; [apply same_set_nil in S; subst; exact H|].
  assert (N' : profiles' <> []) by (intros ->; destruct (proj1 (S p) (or_introl eq_refl))).
  apply C35_events in H; [|discriminate]. destruct H as (PS & F & A). apply C35_events; [exact N'|].
  destruct (Forall2_same_set points_of _ _ PS points_fun S F) as (PS' & F' & S'). exists PS'. split; [exact F'|]. eapply aggregated_same_set; [exact A|]. apply same_set_map, S'.
Qed.
Lemma result_same_set oc profiles profiles' r : same_set profiles profiles' -> aggregate_profiles oc profiles r -> aggregate_profiles oc profiles' r.
Proof.
  intros S H. destruct (C35_total oc profiles') as (r' & H' & _ & _).
  assert (L : forall ps rr, aggregate_profiles oc ps rr ->
    (exists its aggs, opened ps its /\ drains agg_next its (Ok aggs) /\ rr = (do t <- foldM (agg_step oc) (0, ex_new 10, ex_new 10) aggs; print_report t)) \/
    (rr = Panic /\ forall its aggs, opened ps its -> ~ drains agg_next its (Ok aggs))).
  { intros ps rr X. inversion X as [E|its E D|its l E D]; subst.
    - right. split; [reflexivity|]. unfold opened. intros its aggs E'. congruence.
    - right. split; [reflexivity|]. unfold opened. intros its' aggs E' D'. rewrite E in E'. injection E' as <-. pose proof (drains_det _ _ _ D _ D') as Q. discriminate.
    - left. exists its, l. auto. }
  destruct (L _ _ H) as [(its & aggs & O & D & ->)|(-> & N)].
  - destruct (loop_same_set _ _ aggs S (ex_intro _ its (conj O D))) as (its' & O' & D'). eapply ap_ok; [exact O'|exact D'].
  - destruct (L _ _ H') as [(its & aggs & O & D & _)|(-> & _)]; [|exact H'].
    destruct (loop_same_set _ _ aggs (same_set_sym _ _ S) (ex_intro _ its (conj O D))) as (its' & O' & D'). destruct (N _ _ O' D').
Qed.
(** The profiles given: only which profiles there are counts, not their order or how often one is named. *)
Theorem C94_result : forall oc profiles profiles' r, (forall p, In p profiles <-> In p profiles') ->
  (aggregate_profiles oc profiles r <-> aggregate_profiles oc profiles' r).
Proof. intros oc ps ps' r S. split; apply result_same_set; [exact S|apply same_set_sym; exact S]. Qed.
(** ... nor for what is printed. *)
Theorem C94_printed : forall ties display oc profiles profiles' out, (forall p, In p profiles <-> In p profiles') ->
  (aggregate_prints ties display oc profiles out <-> aggregate_prints ties display oc profiles' out).
Proof. intros ties display oc ps ps' out S. unfold aggregate_prints. split; intros (r & H & ->); exists r; (split; [|reflexivity]); apply (C94_result oc ps ps' r S), H. Qed.

(** ** The program *)
Lemma open_all_ok s w fs ps : open_all s w fs = EOk ps <-> Forall2 (fun f p => open_profile s w f = EOk p) fs ps.
Proof.
  split.
  - revert ps. induction fs as [|f fs IH]; intros ps; cbn [open_all]; [intros [= <-]; constructor|].
    destruct (open_profile s w f) as [p|t| |] eqn:E; cbn [ebind]; try discriminate. destruct (open_all s w fs) as [qs|t| |]; cbn [ebind]; try discriminate. intros [= <-]. constructor; auto.
  - induction 1 as [|f p fs ps H F IH]; cbn [open_all]; [reflexivity|]. rewrite H. cbn [ebind]. rewrite IH. reflexivity.
Qed.
Lemma mapM_ok {A B} (f : A -> res B) l ys : mapM f l = Ok ys <-> Forall2 (fun x y => f x = Ok y) l ys.
Proof.
  split.
  - revert ys. induction l as [|x l IH]; intros ys; cbn [mapM]; [intros [= <-]; constructor|].
    destruct (f x) as [y| | |] eqn:E; cbn [bind]; try discriminate. destruct (mapM f l) as [zs| | |]; cbn [bind]; try discriminate. intros [= <-]. constructor; auto.
  - induction 1 as [|x y l ys H F IH]; cbn [mapM]; [reflexivity|]. rewrite H. cbn [bind]. rewrite IH. reflexivity.
Qed.
(** If all files can be opened and their events read, the program prints the same and ends in the same way. *)
Theorem C94_program : forall s w files files' ps es r, (forall f, In f files <-> In f files') ->
  open_all s w files = EOk ps -> mapM pf_iter_full ps = Ok es ->
  (aggregate_cmd s w files r <-> aggregate_cmd s w files' r).
Proof.
  intros s w files files' ps es r S O M.
  assert (G : exists ps' es', open_all s w files' = EOk ps' /\ mapM pf_iter_full ps' = Ok es' /\ same_set es es').
  { apply open_all_ok in O. destruct (Forall2_same_eres _ files files' ps S O) as (ps' & O' & S').
    apply mapM_ok in M. destruct (Forall2_same_res _ ps ps' es S' M) as (es' & M' & S2).
    exists ps', es'. split; [apply open_all_ok, O'|]. split; [apply mapM_ok, M'|exact S2]. }
  destruct G as (ps' & es' & O' & M' & S').
  assert (H : forall fs fs' qs qs' ds ds' rr, open_all s w fs = EOk qs -> open_all s w fs' = EOk qs' -> mapM pf_iter_full qs = Ok ds -> mapM pf_iter_full qs' = Ok ds' -> same_set ds ds' ->
    aggregate_cmd s w fs rr -> aggregate_cmd s w fs' rr).
  { clear. intros fs fs' qs qs' ds ds' rr O O' M M' S H. destruct H as [t E|E|E|ps0 es0 out E M0 P|ps0 E N]; rewrite O in E; try discriminate; injection E as <-.
    - rewrite M in M0. injection M0 as <-. eapply ac_run; [exact O'|exact M'|]. eapply C94_printed; [apply same_set_sym; exact S|exact P].
    - destruct (N _ M). }
  split; intros X; [eapply (H files files'); eauto|eapply (H files' files); eauto]. apply same_set_sym; exact S'.
Qed.
(** Whether all files can be opened does not depend on the order either; which error is reported does (that of the first file). *)
Theorem C94_opens : forall s w files files', (forall f, In f files <-> In f files') ->
  ((exists ps, open_all s w files = EOk ps) <-> (exists ps, open_all s w files' = EOk ps)).
Proof.
  intros s w files files' S. split; intros (ps & O); apply open_all_ok in O.
  - destruct (Forall2_same_eres _ files files' ps S O) as (ps' & O' & _). exists ps'. apply open_all_ok, O'.
  - destruct (Forall2_same_eres _ files' files ps (same_set_sym _ _ S) O) as (ps' & O' & _). exists ps'. apply open_all_ok, O'.
Qed.
(** Two profiles, given in the other order and one of them twice: the same three tables. *)
Definition ex_fast : list event := [mkEv (str "Query") (str "q") [] (Timestamp (Interval 5 12)) 7; mkEv (str "GenericActivity") (str "a") [] (Timestamp (Interval 0 22)) 7].
Definition ex_slow : list event := [mkEv (str "Query") (str "q") [] (Timestamp (Interval 10 14)) 1; mkEv (str "GenericActivity") (str "a") [] (Timestamp (Interval 0 30)) 1].
Example ex_C94 : exists r, aggregate_profiles true [ex_slow; ex_fast] (Ok r) /\ aggregate_profiles true [ex_fast; ex_slow; ex_fast] (Ok r) /\
  map fst (r_small_dur r) = [4; 5; 10] /\ map fst (r_large_dur r) = [7; 10; 16] /\ map fst (r_small_var r) = [3; 5; 6].
Proof.
  destruct C35_example as (r & H & E). exists r. split; [exact H|]. split; [|exact E].
  apply (C94_result true [ex_slow; ex_fast] [ex_fast; ex_slow; ex_fast]); [|exact H]. intros p. cbn [In]. intuition auto.
Qed.
Print Assumptions C94_result.
Print Assumptions C94_printed.
Print Assumptions C94_program.
Print Assumptions C94_opens.
