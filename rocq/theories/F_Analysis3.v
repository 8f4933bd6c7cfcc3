(** The analysis loop on nested recordings, and the artifact table. *)
From Coq Require Import ZArith List Lia Bool Permutation String Sorted.
From Verif Require Import M_Base F_Base M_Raw M_V8 M_Map M_Session S_Guard S_Analysis M_Analysis S_Summary F_Analysis F_Analysis2.
Import ListNotations.
Open Scope Z_scope.

Record ninv (r : list event) (s : astate) : Prop := {
  n_stack : forall t, stack_ok (stack_of s t) t r;
  n_self : forall l, q_self_time (row_of (a_query s) l) = q_self_time (expected_row r l);
  n_load : forall l, q_load (row_of (a_query s) l) = q_load (expected_row r l);
  n_hash : forall l, q_hashing (row_of (a_query s) l) = q_hashing (expected_row r l) }.

Lemma ninv_init : ninv [] astate_init.
Proof. constructor; auto. intros t. apply stack_empty. reflexivity. Qed.

Lemma charge_0 P o : charge P o 0 = 0.
Proof. unfold charge. destruct o as [p|]; auto. destruct (P p); auto. Qed.

Lemma ninv_same e r s s' : is_interval e = false -> a_threads s' = a_threads s ->
  (forall l, q_self_time (row_of (a_query s') l) = q_self_time (row_of (a_query s) l)) ->
  (forall l, q_load (row_of (a_query s') l) = q_load (row_of (a_query s) l)) ->
  (forall l, q_hashing (row_of (a_query s') l) = q_hashing (row_of (a_query s) l)) ->
  ninv r s -> ninv (e :: r) s'.
Proof.
  intros EI ET E1 E2 E3 [N1 N2 N3 N4].
  assert (Z0 : ev_len e = 0).
  { unfold ev_len. unfold is_interval, p_is_interval in EI. destruct (ev_payload e) as [[]|]; auto; discriminate. }
  assert (X : forall P, self_time_sum P (e :: r) = self_time_sum P r).
  { intros P. rewrite self_time_sum_cons, Z0, charge_0. destruct (P e); lia. }
  constructor.
  - intros t. unfold stack_of. rewrite ET. apply stack_other; auto. apply N1.
  - intros l. rewrite E1, N2. cbn [expected_row q_self_time]. rewrite X. reflexivity.
  - intros l. rewrite E2, N3. cbn [expected_row q_load]. rewrite X. reflexivity.
  - intros l. rewrite E3, N4. cbn [expected_row q_hashing]. rewrite X. reflexivity.
Qed.

Lemma ninv_step oc e r s s' : nested_recording (e :: r) -> inv r s -> ninv r s -> analysis_step oc s e = Ok s' -> ninv (e :: r) s'.
Proof.
  intros HN I N H. destruct (ev_payload e) as [[a b|t0]|v] eqn:He.
  - assert (EI : is_interval e = true) by (unfold is_interval; rewrite He; reflexivity).
    assert (EL : ev_len e = b - a) by (unfold ev_len; rewrite He; reflexivity).
    destruct (step_interval oc s e a b s' He H) as (q1 & q2 & Hab & HA & Hq1 & Hq2 & HQ & lo & hi & HT & _).
    set (st := pop_until (stack_of s (ev_thread e)) e) in *.
    destruct N as [N1 N2 N3 N4].
    assert (HP : parent_in r e = hd_error st).
    { unfold st. rewrite pop_hd. destruct (N1 (ev_thread e)) as [_ S2]. symmetry. apply S2. apply fits_next; auto. }
    apply own_update_ok in Hq2. unfold own_spec in Hq2.
    assert (Q : forall l,
       q_self_time (row_of q1 l) = q_self_time (row_of (a_query s) l) - charge (labelled l) (parent_in r e) (b - a) /\
       q_load (row_of q1 l) = q_load (row_of (a_query s) l) - charge (fun x => labelled l x && is_load x) (parent_in r e) (b - a) /\
       q_hashing (row_of q1 l) = q_hashing (row_of (a_query s) l) - charge (fun x => labelled l x && is_hashing x) (parent_in r e) (b - a)).
    { intros l. rewrite HP. destruct st as [|top st']; cbn [hd_error charge].
      - subst q1. lia.
      - destruct Hq1 as (d & Hd & ->). apply parent_update_ok in Hd. unfold parent_spec in Hd. rewrite row_of_put, labelled_beq.
        change (kind_is (ev_kind top) "IncrementalLoadResult") with (is_load top) in Hd.
        change (kind_is (ev_kind top) "IncrementalResultHashing") with (is_hashing top) in Hd.
        destruct (beq l (ev_label top)) eqn:E; cbn [andb]; [|lia].
        apply beq_true in E. subst l d. cbn [q_self_time q_load q_hashing]. destruct (is_load top), (is_hashing top); lia. }
    constructor.
    + intros t. unfold stack_of. rewrite HT, (get_put Z.eqb) by auto. destruct (Z.eqb_spec t (ev_thread e)) as [->|Ne].
      * cbn [th_stack]. apply stack_push; [apply fits_next; auto|apply N1].
      * apply stack_other; [right; congruence|apply N1].
    + intros l. rewrite HQ, row_of_put. cbn [expected_row q_self_time]. rewrite self_time_sum_cons, labelled_beq, EL.
      destruct (Q l) as (S1 & S2 & S3). specialize (N2 l). cbn [expected_row q_self_time] in N2.
      destruct (beq l (ev_label e)) eqn:E; [|lia]. apply beq_true in E. subst l q2. cbn [q_self_time]. lia.
    + intros l. rewrite HQ, row_of_put. cbn [expected_row q_load]. rewrite self_time_sum_cons, labelled_beq, EL.
      destruct (Q l) as (S1 & S2 & S3). specialize (N3 l). cbn [expected_row q_load] in N3.
      destruct (beq l (ev_label e)) eqn:E; cbn [andb]; [|lia]. apply beq_true in E. subst l q2. cbn [q_load].
      change (kind_is (ev_kind e) "IncrementalLoadResult") with (is_load e). destruct (is_load e); lia.
    + intros l. rewrite HQ, row_of_put. cbn [expected_row q_hashing]. rewrite self_time_sum_cons, labelled_beq, EL.
      destruct (Q l) as (S1 & S2 & S3). specialize (N4 l). cbn [expected_row q_hashing] in N4.
      destruct (beq l (ev_label e)) eqn:E; cbn [andb]; [|lia]. apply beq_true in E. subst l q2. cbn [q_hashing].
      change (kind_is (ev_kind e) "IncrementalResultHashing") with (is_hashing e). destruct (is_hashing e); lia.
  - assert (EI : is_interval e = false) by (unfold is_interval; rewrite He; reflexivity).
    unfold analysis_step in H. rewrite He in H. destruct (beq (ev_kind e) QUERY_CACHE_HIT_EVENT_KIND).
    + rewrite record_eq in H. cbn [inc_hits inc_count bind] in H. injection H as <-.
      apply (ninv_same e r s); auto; cbn [a_query]; intros l; rewrite row_of_put; destruct (beq l (ev_label e)) eqn:E; auto; apply beq_true in E; subst; reflexivity.
    + injection H as <-. apply (ninv_same e r s); auto.
  - assert (EI : is_interval e = false) by (unfold is_interval; rewrite He; reflexivity).
    unfold analysis_step in H. rewrite He in H. destruct (beq (ev_kind e) ARTIFACT_SIZE_EVENT_KIND); [|injection H as <-; apply (ninv_same e r s); auto].
    destruct (u64_add oc _ v); cbn [bind] in H; try discriminate. injection H as <-. apply (ninv_same e r s); auto.
Qed.

Lemma self_time_sum_le P r : nested_recording r -> self_time_sum P r <= time_sum P r.
Proof. intros H. rewrite self_time_sum_eq. pose proof (child_sum_nonneg P r H). lia. Qed.

(** No panic while processing an interval or instant. *)
Lemma step_runs oc e r s : nested_recording (e :: r) -> inv r s -> ninv r s ->
  time_sum (fun _ => true) (e :: r) <= DURATION_MAX -> p_is_integer (ev_payload e) = false ->
  exists s', analysis_step oc s e = Ok s'.
Proof.
  intros HN I N HB HI. pose proof (nested_cons_inv _ _ HN) as HNr. pose proof (nested_len _ _ HN) as HL. cbn [time_sum] in HB.
  destruct (ev_payload e) as [[a b|t0]|v] eqn:He; [| |discriminate].
  - assert (EI : is_interval e = true) by (unfold is_interval; rewrite He; reflexivity).
    assert (EL : ev_len e = b - a) by (unfold ev_len; rewrite He; reflexivity).
    unfold analysis_step. rewrite He. cbn [duration ts_duration]. destruct (Z.leb_spec a b); [|lia]. cbn [unwrap bind]. rewrite pop_eq.
    assert (ST : pop_until (th_stack (match map_get Z.eqb (ev_thread e) (a_threads s) with Some t => t | None => mkTh [] a b end)) e
      = pop_until (stack_of s (ev_thread e)) e).
    { unfold stack_of. destruct (map_get Z.eqb (ev_thread e) (a_threads s)); reflexivity. }
    rewrite ST. cbn zeta. clear ST. set (st := pop_until (stack_of s (ev_thread e)) e) in *.
    destruct I as [I1 I2 I3 I4 I5 I6 I7 I8 I9 I10 I11]. destruct N as [N1 N2 N3 N4].
    assert (HP : parent_in r e = hd_error st).
    { unfold st. rewrite pop_hd. destruct (N1 (ev_thread e)) as [_ S2]. symmetry. apply S2. apply fits_next; auto. }
    assert (exists q1, match st with
               | [] => Ok (a_query s)
               | top :: _ => record_event_data (a_query s) (ev_label top) (parent_update (ev_kind top) (b - a))
               end = Ok q1 /\ forall l, q_self_time (row_of q1 l) <= q_self_time (row_of (a_query s) l) /\
                 q_load (row_of q1 l) <= q_load (row_of (a_query s) l) /\
                 q_hashing (row_of q1 l) <= q_hashing (row_of (a_query s) l) /\
                 q_time (row_of q1 l) = q_time (row_of (a_query s) l) /\ q_blocked (row_of q1 l) = q_blocked (row_of (a_query s) l)) as (q1 & Hq1 & Hle).
    { destruct st as [|top st'].
      - eexists. split; [reflexivity|]. intros; lia.
      - rewrite record_eq. cbn [hd_error] in HP.
        destruct (parent_update_runs (ev_kind top) (b - a) (row_of (a_query s) (ev_label top))) as [d Hd].
        + rewrite N2. cbn [expected_row q_self_time]. rewrite self_time_sum_eq.
          pose proof (charge_bound (labelled (ev_label top)) e r HN) as C. rewrite HP, EL in C. cbn [charge] in C.
          rewrite labelled_beq, beq_refl in C. lia.
        + intros HK. change (is_load top = true) in HK. rewrite N3. cbn [expected_row q_load]. rewrite self_time_sum_eq.
          pose proof (charge_bound (fun x => labelled (ev_label top) x && is_load x) e r HN) as C. rewrite HP, EL in C. cbn [charge] in C.
          rewrite labelled_beq, beq_refl, HK in C. cbn [andb] in C. lia.
        + intros HK. change (is_hashing top = true) in HK. rewrite N4. cbn [expected_row q_hashing]. rewrite self_time_sum_eq.
          pose proof (charge_bound (fun x => labelled (ev_label top) x && is_hashing x) e r HN) as C. rewrite HP, EL in C. cbn [charge] in C.
          rewrite labelled_beq, beq_refl, HK in C. cbn [andb] in C. lia.
        + rewrite Hd. cbn [bind]. eexists. split; [reflexivity|]. intros l. rewrite row_of_put.
          destruct (beq l (ev_label top)) eqn:E; [|lia]. apply beq_true in E. subst l. apply parent_update_ok in Hd. unfold parent_spec in Hd. subst d.
          cbn [q_self_time q_load q_hashing q_time q_blocked].
          destruct (kind_is (ev_kind top) "IncrementalLoadResult"), (kind_is (ev_kind top) "IncrementalResultHashing"); lia. }
    rewrite Hq1. cbn [bind]. rewrite record_eq. destruct (Hle (ev_label e)) as (L1 & L2 & L3 & L4 & L5).
    assert (B : forall P, time_sum P r + (b - a) <= DURATION_MAX).
    { intros P. pose proof (time_sum_le P r HNr). lia. }
    assert (B' : forall P, self_time_sum P r + (b - a) <= DURATION_MAX).
    { intros P. pose proof (self_time_sum_le P r HNr). specialize (B P). lia. }
    rewrite N2 in L1. rewrite N3 in L2. rewrite N4 in L3. rewrite I7 in L4. rewrite I11 in L5.
    cbn [expected_row q_self_time q_load q_hashing q_time q_blocked] in *.
    destruct (own_update_runs (ev_kind e) (b - a) (row_of q1 (ev_label e))) as [q2 Hq2].
    + specialize (B' (labelled (ev_label e))). lia.
    + rewrite L4. apply B.
    + rewrite L5. apply B.
    + specialize (B' (fun x => labelled (ev_label e) x && is_load x)). lia.
    + specialize (B' (fun x => labelled (ev_label e) x && is_hashing x)). lia.
    + rewrite Hq2. cbn [bind]. eauto.
  - unfold analysis_step. rewrite He. destruct (beq _ _); [|eauto]. rewrite record_eq. cbn [inc_hits inc_count bind]. eauto.
Qed.

(** ** Artifacts *)
Lemma bltb_lex a : forall b, bltb a b = true <-> lex_lt a b.
Proof.
  induction a as [|x a IH]; intros [|y b]; cbn [bltb].
  - split; [discriminate|inversion 1].
  - split; [constructor|auto].
  - split; [discriminate|inversion 1].
  - destruct (Z.eqb_spec x y) as [->|N].
    + rewrite IH. split; [apply lex_eq_cons|]. inversion 1; subst; auto; lia.
    + rewrite Z.ltb_lt. split; [apply lex_lt_cons|]. inversion 1; subst; auto. congruence.
Qed.
Lemma lex_trans a b c : lex_lt a b -> lex_lt b c -> lex_lt a c.
Proof.
  intros H. revert c. induction H; intros c Hc; inversion Hc; subst; try (constructor; auto; lia).
Qed.
Lemma lex_irrefl a : ~ lex_lt a a.
Proof. induction a; inversion 1; subst; auto; lia. Qed.
Lemma lex_total a : forall b, lex_lt a b \/ a = b \/ lex_lt b a.
Proof.
  induction a as [|x a IH]; intros [|y b]; auto; [left; constructor|right; right; constructor|].
  destruct (Z.lt_total x y) as [L|[->|L]]; [left; constructor; auto| |right; right; constructor; auto].
  destruct (IH b) as [L|[->|L]]; auto; [left|right; right]; apply lex_eq_cons; auto.
Qed.
Lemma btree_get {V} k (v : V) m k' : map_get beq k' (btree_put k v m) = if beq k' k then Some v else
  map_get beq k' m.
Proof.
  induction m as [|[k1 v1] m IH]; cbn [btree_put map_get]; auto.
  destruct (bltb k k1) eqn:E1; cbn [map_get]; auto.
  destruct (beq k k1) eqn:E2; cbn [map_get].
  - apply beq_true in E2. subst. destruct (beq k' k1); auto.
  - rewrite IH. destruct (beq k' k1) eqn:E3; auto. destruct (beq k' k) eqn:E4; auto.
    apply beq_true in E3, E4. subst. rewrite beq_refl in E2. discriminate.
Qed.
Lemma btree_keys {V} k (v : V) m x : In x (map fst (btree_put k v m)) -> x = k \/ In x (map fst m).
Proof.
  induction m as [|[k1 v1] m IH]; cbn [btree_put map fst In]; [intuition|].
  destruct (bltb k k1) eqn:E1; cbn [map fst In]; [intuition|].
  destruct (beq k k1) eqn:E2; cbn [map fst In]; [|intuition].
  apply beq_true in E2. subst. intuition.
Qed.
Lemma btree_sorted {V} k (v : V) m : StronglySorted lex_lt (map fst m) -> StronglySorted lex_lt (map fst (btree_put k v m)).
Proof.
  induction m as [|[k1 v1] m IH]; cbn [btree_put map fst]; intros H; [repeat constructor|].
  inversion H as [|? ? H1 H2]; subst.
  destruct (bltb k k1) eqn:E1; cbn [map fst].
  - apply bltb_lex in E1. constructor; auto. constructor; auto. eapply Forall_impl; [|exact H2]. intros; eapply lex_trans; eauto.
  - destruct (beq k k1) eqn:E2; cbn [map fst].
    + apply beq_true in E2. subst. constructor; auto.
    + constructor; auto. apply Forall_forall. intros x Hx. apply btree_keys in Hx. destruct Hx as [->|Hx].
      * destruct (lex_total k k1) as [L|[->|L]]; auto; [apply bltb_lex in L; congruence|]. rewrite beq_refl in E2. discriminate.
      * rewrite Forall_forall in H2. auto.
Qed.
Lemma sorted_NoDup l : StronglySorted lex_lt l -> NoDup l.
Proof.
  induction l as [|x l IH]; intros H; constructor; inversion H as [|? ? H1 H2]; subst; auto.
  intros Hx. rewrite Forall_forall in H2. apply (lex_irrefl x). auto.
Qed.

Definition has_artifact (evs : list event) (l : bytes) : Prop := exists e, In e evs /\ is_artifact e = true /\ ev_label e = l.
Record ainv (oc : bool) (r : list event) (s : astate) : Prop := {
  ai_sorted : StronglySorted lex_lt (map fst (a_artifacts s));
  ai_none : forall l, map_get beq l (a_artifacts s) = None -> ~ has_artifact r l /\ artifact_total r l = 0;
  ai_some : forall l x, map_get beq l (a_artifacts s) = Some x ->
    has_artifact r l /\ art_label x = l /\ art_value x = artifact_total r l mod U64 /\ (oc = true -> artifact_total r l < U64) }.
Lemma ainv_init oc : ainv oc [] astate_init.
Proof. constructor; cbn; [constructor|..]; try discriminate. intros l _. split; auto. intros (e & [] & _). Qed.
Lemma artifact_total_cons e r l : artifact_total (e :: r) l = (if is_artifact e && beq l (ev_label e) then int_value e else 0) + artifact_total r l.
Proof.
  unfold artifact_total. cbn [filter]. rewrite labelled_beq. destruct (is_artifact e && beq l (ev_label e)); cbn [map zsum fold_right]; unfold zsum; lia.
Qed.
Lemma has_artifact_cons e r l : has_artifact (e :: r) l <-> (is_artifact e = true /\ ev_label e = l) \/ has_artifact r l.
Proof.
  unfold has_artifact. split.
  - intros (x & [->|Hx] & H); auto. right; eauto.
  - intros [H|(x & Hx & H)]; [exists e|exists x]; cbn; tauto.
Qed.
Lemma ainv_other oc e r s s' : is_artifact e = false -> a_artifacts s' = a_artifacts s -> ainv oc r s -> ainv oc (e :: r) s'.
Proof.
  intros E ES [A1 A2 A3]. constructor; rewrite ES; auto.
  - intros l H. rewrite has_artifact_cons, artifact_total_cons, E. destruct (A2 l H). cbn [andb]. split; [|lia]. intuition discriminate.
  - intros l x H. rewrite has_artifact_cons, artifact_total_cons, E. cbn [andb]. destruct (A3 l x H) as (?&?&?&?). rewrite Z.add_0_l. auto.
Qed.
Lemma is_artifact_int e v : ev_payload e = Integer v -> is_artifact e = beq (ev_kind e) ARTIFACT_SIZE_EVENT_KIND.
Proof. intros H. unfold is_artifact. rewrite H. reflexivity. Qed.

Lemma ainv_step oc e r s s' : (forall v, ev_payload e = Integer v -> 0 <= v) -> ainv oc r s -> analysis_step oc s e = Ok s' -> ainv oc (e :: r) s'.
Proof.
  intros HV A H. destruct (ev_payload e) as [[a b|t0]|v] eqn:He.
  - destruct (step_interval oc s e a b s' He H) as (q1 & q2 & Hab & HA & _).
    apply (ainv_other oc e r s); auto. unfold is_artifact. rewrite He. reflexivity.
  - unfold analysis_step in H. rewrite He in H. apply (ainv_other oc e r s); auto; [unfold is_artifact; rewrite He; reflexivity|].
    destruct (beq _ _); [|congruence]. rewrite record_eq in H. cbn [inc_hits inc_count bind] in H. injection H as <-. reflexivity.
  - unfold analysis_step in H. rewrite He in H. rewrite <- (is_artifact_int e v He) in H.
    destruct (is_artifact e) eqn:EA; [|injection H as <-; apply (ainv_other oc e r s); auto].
    specialize (HV v eq_refl).
    destruct A as [A1 A2 A3].
    set (old := match map_get beq (ev_label e) (a_artifacts s) with Some a => a | None => mkArt (ev_label e) 0 end) in *.
    assert (O : art_label old = ev_label e /\ art_value old = artifact_total r (ev_label e) mod U64 /\ (oc = true -> artifact_total r (ev_label e) < U64) /\ True).
    { unfold old. destruct (map_get beq (ev_label e) (a_artifacts s)) as [x|] eqn:G.
      - destruct (A3 _ _ G) as (?&?&?&?). auto.
      - destruct (A2 _ G) as (_&T). rewrite T. cbn [art_label art_value]. split; auto. split; [reflexivity|]. split; [reflexivity|auto]. }
    destruct O as (O1 & O2 & O3 & _). cbn zeta in H.
    destruct (u64_add oc (art_value old) v) as [w| | |] eqn:EW; cbn [bind] in H; try discriminate. injection H as <-.
    assert (W : w = (v + artifact_total r (ev_label e)) mod U64 /\ (oc = true -> art_value old + v < U64)).
    { unfold u64_add in EW. rewrite O2 in *. unfold U64 in *.
      destruct (Z.ltb_spec (artifact_total r (ev_label e) mod 18446744073709551616 + v) 18446744073709551616).
      - injection EW as <-. split; [|lia]. Z.to_euclidean_division_equations; lia.
      - destruct oc; [discriminate|]. injection EW as <-. split; [|discriminate]. rewrite Zplus_mod_idemp_l. f_equal. lia. }
    destruct W as [W1 W2].
    constructor; cbn [a_artifacts].
    + apply btree_sorted; auto.
    + intros l G. rewrite btree_get in G. destruct (beq l (ev_label e)) eqn:E; [discriminate|].
      rewrite has_artifact_cons, artifact_total_cons, E, andb_false_r. destruct (A2 l G). split; [|lia].
      apply beq_false in E. intros [[_ X]|X]; [congruence|auto].
    + intros l x G. rewrite btree_get in G. rewrite has_artifact_cons, artifact_total_cons, EA. cbn [andb].
      destruct (beq l (ev_label e)) eqn:E.
      * apply beq_true in E. subst l. injection G as <-. cbn [art_label art_value]. split; auto. split; auto.
        unfold int_value. rewrite He. split; auto. intros Hoc. specialize (W2 Hoc). specialize (O3 Hoc).
        assert (artifact_total r (ev_label e) mod U64 = artifact_total r (ev_label e) \/ artifact_total r (ev_label e) < 0).
        { destruct (Z.lt_ge_cases (artifact_total r (ev_label e)) 0); auto. left. apply Z.mod_small. lia. }
        assert (0 <= artifact_total r (ev_label e) mod U64) by (apply Z.mod_pos_bound; reflexivity).
        rewrite O2 in W2. destruct H as [H|H]; [rewrite H in W2|]; lia.
      * destruct (A3 l x G) as (?&?&?&?). rewrite Z.add_0_l. auto.
Qed.
