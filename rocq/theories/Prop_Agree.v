(** C99: summarize and stack_collapse agree.  Specification S_Agree.v, S_Split.v. *)
From Coq Require Import String ZArith List Lia Bool Permutation Sorted.
From Verif Require Import M_Base F_Base M_Raw M_V8 M_Map M_Session M_Guard S_Guard M_Analysis S_Analysis S_Summary F_Analysis F_Analysis2 F_Analysis3
  Prop_Analysis M_Collapse S_Collapse F_Collapse Prop_Collapse S_Schedule Prop_Schedule S_Split Prop_Split S_Agree.
Import ListNotations.
Open Scope list_scope.
Open Scope Z_scope.

Lemma line_not_rustc e w : stack_line e w <> str "rustc".
Proof.
  assert (A : forall w e, (5 <= List.length (ancestors e w))%nat).
  { clear. induction w as [|x w IH]; intros e; cbn [ancestors]; [vm_compute; lia|]. destruct (encloses x e); [rewrite app_length; specialize (IH x); lia|apply IH]. }
  intros E. apply (f_equal (@List.length Z)) in E. unfold stack_line in E. rewrite !app_length in E. specialize (A w e).
  change (List.length (str ";")) with 1%nat in E. change (List.length (str "rustc")) with 5%nat in E. lia.
Qed.
Lemma no_semi_b l : no_semicolon l -> existsb (Z.eqb 59) l = false.
Proof. intros H. destruct (existsb (Z.eqb 59) l) eqn:E; [|reflexivity]. apply existsb_exists in E. destruct E as (x & Hx & E). apply Z.eqb_eq in E. subst x. contradiction. Qed.
Lemma innermost_app a l : no_semicolon l -> innermost (a ++ 59 :: l) = l.
Proof.
  intros H. apply no_semi_b in H. induction a as [|c a IH]; cbn [app innermost]; [rewrite H, Z.eqb_refl; reflexivity|].
  rewrite existsb_app. cbn [existsb]. rewrite Z.eqb_refl, orb_true_r. exact IH.
Qed.
(** Self times do not depend on the labels. *)
Definition alike (P P' : event -> bool) (e e' : event) : Prop := ev_payload e = ev_payload e' /\ ev_thread e = ev_thread e' /\ P e = P' e'.
Lemma encloses_alike x x' e e' : ev_payload x = ev_payload x' -> ev_thread x = ev_thread x' -> ev_payload e = ev_payload e' -> ev_thread e = ev_thread e' -> encloses x e = encloses x' e'.
Proof. intros A B C D. unfold encloses. rewrite A, B, C, D. reflexivity. Qed.
Lemma len_alike e e' : ev_payload e = ev_payload e' -> ev_len e = ev_len e'.
Proof. intros A. unfold ev_len. rewrite A. reflexivity. Qed.
Lemma children_alike P P' w w' x x' : Forall2 (alike P P') w w' -> ev_payload x = ev_payload x' -> ev_thread x = ev_thread x' -> children_time w x = children_time w' x'.
Proof.
  intros F A B. induction F as [|e e' w w' (C & D & _) F IH]; cbn [children_time]; [reflexivity|]. rewrite IH, (encloses_alike x x' e e'), (len_alike e e') by assumption.
  replace (existsb (fun y => encloses y e) w) with (existsb (fun y => encloses y e') w'); [reflexivity|].
  clear -F C D. induction F as [|z z' w w' (U & V & _) F IH]; cbn [existsb]; [reflexivity|]. rewrite IH, (encloses_alike z z' e e') by assumption. reflexivity.
Qed.
Lemma self_alike P P' evs evs' : Forall2 (alike P P') evs evs' -> self_time_sum P evs = self_time_sum P' evs'.
Proof.
  unfold self_time_sum. intros F. assert (G : Forall2 (alike P P') [] []) by constructor. revert G. generalize (@nil event) at 1 3. generalize (@nil event).
  induction F as [|x x' evs evs' (A & B & C) F IH]; intros w' w G; cbn [self_from]; [reflexivity|].
  rewrite C, (len_alike x x' A), (children_alike P P' w w' x x' G A B). f_equal. apply IH. apply Forall2_app; [exact G|constructor; [exact (conj A (conj B C))|constructor]].
Qed.
(** Sums of self times by label. *)
Lemma self_split_label P K : NoDup K -> forall evs, (forall e, In e evs -> P e = true -> is_interval e = true -> In (ev_label e) K) ->
  self_time_sum P evs = zsum (map (fun k => self_time_sum (fun e => P e && labelled k e) evs) K).
Proof.
  intros ND evs. unfold self_time_sum. generalize (@nil event). induction evs as [|x evs IH]; intros w H; cbn [self_from].
  - unfold zsum. induction K; cbn [map fold_right]; [reflexivity|]. inversion ND; subst. rewrite <- IHK; auto. intros e [].
  - rewrite IH by (intros e He; apply H; right; exact He). set (c := ev_len x - children_time w x).
    assert (S1 : forall f g : bytes -> Z, zsum (map (fun k => f k + g k) K) = zsum (map f K) + zsum (map g K)) by (intros f g; unfold zsum; clear; induction K; cbn [map fold_right]; lia).
    rewrite S1. f_equal. destruct (P x) eqn:EP; cbn [andb].
    + destruct (is_interval x) eqn:EI.
      * specialize (H x (or_introl eq_refl) EP EI). clear -ND H. unfold zsum. induction K as [|k K IH]; [contradiction|]. inversion ND as [|? ? N1 N2]; subst. cbn [map fold_right]. destruct H as [->|H].
        -- unfold labelled at 1. rewrite beq_refl. assert (Z0 : fold_right Z.add 0 (map (fun k => if labelled k x then c else 0) K) = 0).
           { clear -N1. induction K as [|k K IH]; cbn [map fold_right]; [reflexivity|]. unfold labelled at 1. destruct (beq (ev_label x) k) eqn:E; [exfalso; apply N1; left; apply beq_true in E; congruence|].
             rewrite IH; [reflexivity|]. intros C. apply N1. right. exact C. }
           lia.
        -- rewrite <- (IH N2 H). unfold labelled. destruct (beq (ev_label x) k) eqn:E; [|lia]. apply beq_true in E. subst k. contradiction.
      * assert (C0 : c = 0) by (unfold c; rewrite len_other, children_other by exact EI; reflexivity). rewrite C0. clear. unfold zsum. induction K; cbn [map fold_right]; [reflexivity|]. destruct (labelled a x); lia.
    + clear. unfold zsum. induction K; cbn [map fold_right]; lia.
Qed.
(** The lines, with the innermost frame of each. *)
Lemma lines_alike (P : event -> bool) (P' : event -> bool) evs : (forall before e after, evs = before ++ e :: after -> P e = P' (relabel e (stack_line e after))) -> Forall2 (alike P P') evs (with_lines evs).
Proof.
  induction evs as [|e evs IH]; intros H; cbn [with_lines]; constructor.
  - split; [reflexivity|]. split; [reflexivity|]. apply (H [] e evs). reflexivity.
  - apply IH. intros b x a ->. apply (H (e :: b) x a). reflexivity.
Qed.
Lemma zsum_filter {A} (f : A -> bool) (g : A -> Z) l : zsum (map g (filter f l)) = zsum (map (fun x => if f x then g x else 0) l).
Proof. unfold zsum. induction l as [|x l IH]; cbn [filter map fold_right]; [reflexivity|]. destruct (f x); cbn [map fold_right]; lia. Qed.
Lemma map_zsum_ext {A} (f g : A -> Z) l : (forall x, In x l -> f x = g x) -> zsum (map f l) = zsum (map g l).
Proof. intros H. f_equal. apply map_ext_in. exact H. Qed.

Section Agree.
Variables (oc : bool) (order : list qdata -> list qdata) (evs : list event) (t0 W : Z) (T : list Z).
Hypothesis HO : forall l, Permutation l (order l).
Hypothesis HN : nested_recording evs.
Hypothesis HW : 0 <= W.
Hypothesis HT : NoDup T.
Hypothesis HTW : zlen T * W < 2 ^ 64.
Hypothesis HTT : forall t, thread_spans t evs <> [] -> In t T.
Hypothesis HWin : forall e a b, In e evs -> ev_payload e = Timestamp (Interval a b) -> t0 <= a /\ b <= t0 + W.
Variables (r : results) (m : list (bytes * Z)).
Hypothesis HR : perform_analysis oc order evs = Ok r.
Hypothesis HM : collapse_stacks oc evs = Ok m.
(** The lines other than rustc add up, for any property of lines. *)
Lemma lines_sum (f : bytes -> bool) : zsum (map snd (filter (fun x => negb (beq (fst x) (str "rustc")) && f (fst x)) m)) = self_time_sum (fun e => f (ev_label e)) (with_lines evs).
Proof.
  destruct (C30_lines oc evs t0 W T HN HW HT HTW HTT HWin) as (m' & sp & M & D & _ & R). rewrite HM in M. injection M as <-.
  rewrite zsum_filter. set (K := map fst (filter (fun x : bytes * Z => negb (beq (fst x) (str "rustc"))) m)).
  assert (ND : NoDup K). { unfold K. clear -D. induction m as [|x l IH]; cbn [filter map] in *; [constructor|]. inversion D as [|? ? N1 N2]; subst. destruct (negb _); cbn [map]; [constructor; [|apply IH, N2]|apply IH, N2].
    intros C. apply N1. apply in_map_iff in C. destruct C as (y & E & Hy). apply filter_In in Hy. apply in_map_iff. exists y. tauto. }
  rewrite (self_split_label (fun e => f (ev_label e)) K ND).
  - unfold K. rewrite map_map, (map_zsum_ext _ (fun x : bytes * Z => if negb (beq (fst x) (str "rustc")) then (if f (fst x) then snd x else 0) else 0)) by (intros x _; destruct (negb _); reflexivity).
    rewrite <- zsum_filter. apply map_zsum_ext. intros (k, v) Hx. apply filter_In in Hx. cbn [fst snd] in *. destruct Hx as (Hx & Hk). apply R in Hx. destruct Hx as [(-> & _)|(_ & ->)]; [rewrite beq_refl in Hk; discriminate|].
    destruct (f k) eqn:E.
    + apply self_alike. clear -E. induction (with_lines evs) as [|e l IH]; constructor; [|exact IH]. split; [reflexivity|]. split; [reflexivity|]. destruct (labelled k e) eqn:EL; [|rewrite andb_false_r; reflexivity]. apply beq_true in EL. rewrite EL, E. reflexivity.
    + symmetry. apply self_none. intros e _ Hl. apply andb_prop in Hl. destruct Hl as (H1 & H2). apply beq_true in H2. rewrite H2 in H1. congruence.
  - intros e He _ HI. assert (H : has_line (with_lines evs) (ev_label e)) by (exists e; auto). apply has_line_split in H. unfold K. pose proof (proj2 (R (ev_label e) _) (or_intror (conj H eq_refl))) as H'.
    apply in_map_iff. eexists. split; [|apply filter_In; split; [exact H'|]]; [reflexivity|]. cbn [fst]. destruct H as (b & x & a & _ & _ & ->). destruct (beq (stack_line x a) (str "rustc")) eqn:E; [|reflexivity].
    apply beq_true in E. exfalso. exact (line_not_rustc x a E).
Qed.
Lemma rows_sum : zsum (map q_self_time (query_data r)) = self_time_sum (fun _ => true) evs.
Proof.
  destruct (C25_rows _ _ _ _ HO HN HR) as (D & R). rewrite (self_split_label (fun _ => true) (map q_label (query_data r)) D).
  - rewrite map_map. apply map_zsum_ext. intros q Hq. apply R in Hq. destruct Hq as (_ & ->). cbn [expected_row q_self_time q_label]. reflexivity.
  - intros e He _ HI. apply in_map_iff. exists (expected_row evs (ev_label e)). split; [reflexivity|]. apply R. split; [|reflexivity]. exists e. auto.
Qed.
Lemma rustc_split : zsum (map snd m) = (match map_get beq (str "rustc") m with Some v => v | None => 0 end) + zsum (map snd (filter (fun x => negb (beq (fst x) (str "rustc")) && true) m)).
Proof.
  destruct (C30_lines oc evs t0 W T HN HW HT HTW HTT HWin) as (m' & sp & M & D & _ & _). rewrite HM in M. injection M as <-. clear -D.
  unfold zsum. induction m as [|(k, v) l IH]; cbn [filter map map_get fst snd fold_right] in *; [reflexivity|]. inversion D as [|? ? N1 N2]; subst.
  destruct (beq k (str "rustc")) eqn:E; cbn [negb andb].
  - apply beq_true in E. subst k. rewrite beq_refl. rewrite (IH N2). destruct (map_get beq (str "rustc") l) as [v'|] eqn:G; [|lia].
    exfalso. apply N1. apply (get_In beq beq_eq) in G. apply (in_map fst) in G. exact G.
  - assert (E' : beq (str "rustc") k = false) by (destruct (beq (str "rustc") k) eqn:E'; [|reflexivity]; apply beq_true in E'; subst k; rewrite beq_refl in E; discriminate).
    rewrite E'. cbn [map fold_right snd]. rewrite (IH N2). lia.
Qed.
End Agree.
(** The counts of all lines add up to the total time that summarize shows. *)
Theorem C99_total : forall oc order evs t0 W T r m, nested_recording evs ->
  0 <= W -> NoDup T -> zlen T * W < 2 ^ 64 -> (forall t, thread_spans t evs <> [] -> In t T) ->
  (forall e a b, In e evs -> ev_payload e = Timestamp (Interval a b) -> t0 <= a /\ b <= t0 + W) ->
  perform_analysis oc order evs = Ok r -> collapse_stacks oc evs = Ok m ->
  zsum (map snd m) = total_time r.
Proof.
  intros oc order evs t0 W T r m HN HW HT HTW HTT HWin HR HM. destruct (C27_total_time _ _ _ _ HR) as (l & L & ->).
  exact (C30_total oc evs t0 W T m l HN HW HT HTW HTT HWin HM L).
Qed.
(** The self times of all rows and the gaps counted as rustc add up to it as well. *)
Theorem C99_self : forall oc order evs t0 W T r m, (forall l, Permutation l (order l)) -> nested_recording evs ->
  0 <= W -> NoDup T -> zlen T * W < 2 ^ 64 -> (forall t, thread_spans t evs <> [] -> In t T) ->
  (forall e a b, In e evs -> ev_payload e = Timestamp (Interval a b) -> t0 <= a /\ b <= t0 + W) ->
  perform_analysis oc order evs = Ok r -> collapse_stacks oc evs = Ok m ->
  zsum (map q_self_time (query_data r)) + (match map_get beq (str "rustc") m with Some v => v | None => 0 end) = total_time r.
Proof.
  intros oc order evs t0 W T r m HO HN HW HT HTW HTT HWin HR HM. rewrite <- (C99_total oc order evs t0 W T r m HN HW HT HTW HTT HWin HR HM).
  rewrite (rustc_split oc evs t0 W T HN HW HT HTW HTT HWin m HM), (lines_sum oc evs t0 W T HN HW HT HTW HTT HWin m HM (fun _ => true)), (rows_sum oc order evs HO HN r HR).
  rewrite Z.add_comm. f_equal. apply self_alike. apply lines_alike. reflexivity.
Qed.
(** The self time of a label is what the lines with this label as their innermost frame count together. *)
Theorem C99_labels : forall oc order evs t0 W T r m, (forall l, Permutation l (order l)) -> nested_recording evs ->
  0 <= W -> NoDup T -> zlen T * W < 2 ^ 64 -> (forall t, thread_spans t evs <> [] -> In t T) ->
  (forall e a b, In e evs -> ev_payload e = Timestamp (Interval a b) -> t0 <= a /\ b <= t0 + W) ->
  perform_analysis oc order evs = Ok r -> collapse_stacks oc evs = Ok m -> (forall e, In e evs -> no_semicolon (ev_label e)) ->
  forall l, number q_self_time l r = zsum (map snd (filter (fun x => negb (beq (fst x) (str "rustc")) && beq (innermost (fst x)) l) m)).
Proof.
  intros oc order evs t0 W T r m HO HN HW HT HTW HTT HWin HR HM HS l.
  rewrite (lines_sum oc evs t0 W T HN HW HT HTW HTT HWin m HM (fun k => beq (innermost k) l)).
  rewrite (number_row oc order evs r HO HN HR q_self_time) by (right; left; reflexivity). cbn [expected_row q_self_time].
  apply self_alike. apply lines_alike. intros b e a E. unfold labelled. change (ev_label (relabel e (stack_line e a))) with (ancestors e a ++ 59 :: ev_label e).
  rewrite innermost_app; [reflexivity|]. apply HS. rewrite E. apply in_or_app. right. left. reflexivity.
Qed.
(** A query that runs on its own and inside another one, in two threads. *)
Definition ex_agree : list event :=
  [mkEv (str "Query") (str "typeck") [] (Timestamp (Interval 1500 1700)) 1;
   mkEv (str "Query") (str "typeck") [] (Timestamp (Interval 1200 1900)) 2;
   mkEv (str "Query") (str "main") [] (Timestamp (Interval 1000 2000)) 1;
   mkEv (str "Query") (str "end") [] (Timestamp (Interval 2000 2100)) 2].
Example ex_C99 : nested_recording ex_agree /\ (forall e, In e ex_agree -> no_semicolon (ev_label e)) /\
  exists r m, perform_analysis true (fun l => l) ex_agree = Ok r /\ collapse_stacks true ex_agree = Ok m /\
    number q_self_time (str "typeck") r = 900 /\ map_get beq (str "rustc;main;typeck") m = Some 200 /\ map_get beq (str "rustc;typeck") m = Some 700 /\
    map_get beq (str "rustc") m = Some 100 /\ total_time r = 1900.
Proof.
  split; [|split].
  - intros t. unfold ex_agree. cbn [thread_spans ev_payload ev_thread]. destruct (Z.eqb_spec 1 t), (Z.eqb_spec 2 t); try lia; cbn [laminar]; auto; unfold nests; cbn [fst snd].
    + split; [lia|]. split; [constructor; [cbn; lia|constructor]|]. split; [lia|]. split; [constructor|exact Logic.I].
    + split; [lia|]. split; [constructor; [cbn; lia|constructor]|]. split; [lia|]. split; [constructor|exact Logic.I].
  - intros e He C. unfold ex_agree in He. cbn [In] in He. destruct He as [<-|[<-|[<-|[<-|[]]]]]; cbn in C; intuition discriminate.
  - eexists. eexists. split; [vm_compute; reflexivity|]. split; [vm_compute; reflexivity|]. vm_compute. auto 10.
Qed.
Print Assumptions C99_total.
Print Assumptions C99_self.
Print Assumptions C99_labels.
