(** The state of the analysis loop after each event. *)
From Coq Require Import ZArith List Lia Bool Permutation String.
From Verif Require Import M_Base F_Base M_Raw M_V8 M_Map M_Session S_Guard S_Analysis M_Analysis S_Summary F_Analysis.
Import ListNotations.
Open Scope Z_scope.

Lemma pop_eq st e : pop_non_parents st e = pop_until st e.
Proof. reflexivity. Qed.

Definition row_of (m : list (bytes * qdata)) (l : bytes) : qdata :=
  match map_get beq l m with Some d => d | None => qdata_new l end.
Lemma record_eq m l f : record_event_data m l f = do d <- f (row_of m l); Ok (map_put beq l d m).
Proof. unfold record_event_data, row_of. destruct (map_get beq l m); reflexivity. Qed.
Lemma row_of_put m l d l' : row_of (map_put beq l d m) l' = if beq l' l then d else row_of m l'.
Proof. unfold row_of. rewrite (get_put beq) by auto. destruct (beq l' l); reflexivity. Qed.

Lemma dadd_ok a b c : dadd a b = Ok c -> c = a + b.
Proof. unfold dadd. destruct (_ <=? _); congruence. Qed.
Lemma dsub_ok a b c : dsub a b = Ok c -> c = a - b.
Proof. unfold dsub. destruct (_ <=? _); congruence. Qed.

(** *** Effect of the updates *)
Definition b2z (b : bool) : Z := if b then 1 else 0.
Definition kind_is (k : bytes) (s : string) : bool := beq k (str s).
Definition own_spec (k : bytes) (d : Z) (q q' : qdata) : Prop :=
  q' = mkQ (q_label q)
         (q_time q + (if kind_is k "IncrementalResultHashing" then 0 else d))
         (q_self_time q + d)
         (q_misses q + b2z (kind_is k "Query" || kind_is k "GenericActivity"))
         (q_hits q)
         (q_count q + b2z (negb (kind_is k "IncrementalLoadResult") && negb (kind_is k "IncrementalResultHashing")))
         (q_blocked q + (if kind_is k "QueryBlocked" then d else 0))
         (q_load q + (if kind_is k "IncrementalLoadResult" then d else 0))
         (q_hashing q + (if kind_is k "IncrementalResultHashing" then d else 0)).
Definition parent_spec (k : bytes) (d : Z) (q q' : qdata) : Prop :=
  q' = mkQ (q_label q) (q_time q) (q_self_time q - d) (q_misses q) (q_hits q) (q_count q) (q_blocked q)
         (q_load q - (if kind_is k "IncrementalLoadResult" then d else 0))
         (q_hashing q - (if kind_is k "IncrementalResultHashing" then d else 0)).

Inductive kind_case (k : bytes) : Prop :=
| kc (s : string) : In s ["Query"; "GenericActivity"; "QueryBlocked"; "IncrementalLoadResult"; "IncrementalResultHashing"]%string ->
    k = str s -> kind_case k
| kc_other : kind_is k "Query" = false -> kind_is k "GenericActivity" = false -> kind_is k "QueryBlocked" = false ->
    kind_is k "IncrementalLoadResult" = false -> kind_is k "IncrementalResultHashing" = false -> kind_case k.
Lemma kinds k : kind_case k.
Proof.
  destruct (kind_is k "Query") eqn:E1; [eapply kc; [|apply beq_true, E1]; cbn; auto|].
  destruct (kind_is k "GenericActivity") eqn:E2; [eapply kc; [|apply beq_true, E2]; cbn; auto|].
  destruct (kind_is k "QueryBlocked") eqn:E3; [eapply kc; [|apply beq_true, E3]; cbn; auto|].
  destruct (kind_is k "IncrementalLoadResult") eqn:E4; [eapply kc; [|apply beq_true, E4]; cbn; auto|].
  destruct (kind_is k "IncrementalResultHashing") eqn:E5; [eapply kc; [|apply beq_true, E5]; cbn; auto 6|].
  apply kc_other; auto.
Qed.

Ltac kbool := repeat match goal with
  | |- context [kind_is (str ?a) ?b] => let v := eval vm_compute in (kind_is (str a) b) in change (kind_is (str a) b) with v
  end.
Lemma own_update_kind k d q : own_update k d q =
  if kind_is k "Query" || kind_is k "GenericActivity" then
    do q1 <- add_self d q; do q2 <- add_time d q1; do q3 <- inc_misses q2; inc_count q3
  else if kind_is k "QueryBlocked" then
    do q1 <- add_self d q; do q2 <- add_time d q1; do q3 <- add_blocked d q2; inc_count q3
  else if kind_is k "IncrementalLoadResult" then
    do q1 <- add_self d q; do q2 <- add_time d q1; add_load d q2
  else if kind_is k "IncrementalResultHashing" then
    do q1 <- add_self d q; add_hashing d q1
  else
    do q1 <- add_self d q; do q2 <- add_time d q1; inc_count q2.
Proof. reflexivity. Qed.
Lemma parent_update_kind k d q : parent_update k d q =
  if kind_is k "Query" || kind_is k "GenericActivity" then sub_self d q
  else if kind_is k "IncrementalResultHashing" then do q1 <- sub_self d q; sub_hashing d q1
  else if kind_is k "IncrementalLoadResult" then do q1 <- sub_self d q; sub_load d q1
  else sub_self d q.
Proof. reflexivity. Qed.

Lemma plus0 a : a + 0 = a. Proof. lia. Qed.
Lemma minus0 a : a - 0 = a. Proof. lia. Qed.
Ltac dstep := match goal with
  | |- context [dadd ?a ?b] => let E := fresh "E" in destruct (dadd a b) eqn:E; cbn [bind q_label q_time q_self_time q_misses q_hits q_count q_blocked q_load q_hashing]; [apply dadd_ok in E; subst|..]; try discriminate
  | |- context [dsub ?a ?b] => let E := fresh "E" in destruct (dsub a b) eqn:E; cbn [bind q_label q_time q_self_time q_misses q_hits q_count q_blocked q_load q_hashing]; [apply dsub_ok in E; subst|..]; try discriminate
  end.
Ltac upd_unfold := unfold add_self, add_time, inc_misses, inc_count, add_blocked, add_load, add_hashing, sub_self, sub_load, sub_hashing;
  cbn [bind q_label q_time q_self_time q_misses q_hits q_count q_blocked q_load q_hashing].
Lemma own_update_ok k d q q' : own_update k d q = Ok q' -> own_spec k d q q'.
Proof.
  rewrite own_update_kind. unfold own_spec. destruct (kinds k) as [s Hs ->|E1 E2 E3 E4 E5].
  - cbn [In] in Hs. repeat (destruct Hs as [<-|Hs]; [kbool; cbn [orb andb negb b2z]; upd_unfold; repeat dstep; intros [= <-]; rewrite ?plus0; reflexivity|]). destruct Hs.
  - rewrite E1, E2, E3, E4, E5. cbn [orb andb negb b2z]. upd_unfold. repeat dstep. intros [= <-]. rewrite ?plus0. reflexivity.
Qed.
Lemma parent_update_ok k d q q' : parent_update k d q = Ok q' -> parent_spec k d q q'.
Proof.
  rewrite parent_update_kind. unfold parent_spec. destruct (kinds k) as [s Hs ->|E1 E2 E3 E4 E5].
  - cbn [In] in Hs. repeat (destruct Hs as [<-|Hs]; [kbool; cbn [orb]; upd_unfold; repeat dstep; intros [= <-]; rewrite ?minus0; reflexivity|]). destruct Hs.
  - rewrite E1, E2, E4, E5. cbn [orb]. upd_unfold. repeat dstep. intros [= <-]. rewrite ?minus0. reflexivity.
Qed.
(** *** When they do not panic *)
Ltac dok := match goal with
  | |- context [dadd ?a ?b] => unfold dadd at 1; destruct (Z.leb_spec (a + b) DURATION_MAX); [cbn [bind q_label q_time q_self_time q_misses q_hits q_count q_blocked q_load q_hashing]|exfalso; lia]
  | |- context [dsub ?a ?b] => unfold dsub at 1; destruct (Z.leb_spec b a); [cbn [bind q_label q_time q_self_time q_misses q_hits q_count q_blocked q_load q_hashing]|exfalso; lia]
  end.
Lemma own_update_runs k d q : q_self_time q + d <= DURATION_MAX -> q_time q + d <= DURATION_MAX ->
  q_blocked q + d <= DURATION_MAX -> q_load q + d <= DURATION_MAX -> q_hashing q + d <= DURATION_MAX ->
  exists q', own_update k d q = Ok q'.
Proof.
  intros. rewrite own_update_kind. upd_unfold.
  destruct (kind_is k "Query" || kind_is k "GenericActivity"); [repeat dok; eauto|].
  destruct (kind_is k "QueryBlocked"); [repeat dok; eauto|].
  destruct (kind_is k "IncrementalLoadResult"); [repeat dok; eauto|].
  destruct (kind_is k "IncrementalResultHashing"); repeat dok; eauto.
Qed.
Lemma parent_update_runs k d q : d <= q_self_time q ->
  (kind_is k "IncrementalLoadResult" = true -> d <= q_load q) ->
  (kind_is k "IncrementalResultHashing" = true -> d <= q_hashing q) ->
  exists q', parent_update k d q = Ok q'.
Proof.
  intros H1 H2 H3. rewrite parent_update_kind. upd_unfold.
  destruct (kind_is k "Query" || kind_is k "GenericActivity"); [repeat dok; eauto|].
  destruct (kind_is k "IncrementalResultHashing"); [specialize (H3 eq_refl); repeat dok; eauto|].
  destruct (kind_is k "IncrementalLoadResult"); [specialize (H2 eq_refl); repeat dok; eauto|]. repeat dok. eauto.
Qed.

(** *** Sums grow by one event at a time *)
Lemma time_sum_cons P e r : time_sum P (e :: r) = (if P e then ev_len e else 0) + time_sum P r.
Proof. reflexivity. Qed.
Lemma count_cons P e r : count P (e :: r) = b2z (P e) + count P r.
Proof. unfold count. cbn [filter]. destruct (P e); cbn [b2z]; [rewrite zlen_cons|]; lia. Qed.
Lemma self_time_sum_cons P e r : self_time_sum P (e :: r) =
  (if P e then ev_len e else 0) - charge P (parent_in r e) (ev_len e) + self_time_sum P r.
Proof. rewrite !self_time_sum_eq. cbn [time_sum child_sum]. lia. Qed.

Definition stack_of (s : astate) (t : Z) : list event :=
  match map_get Z.eqb t (a_threads s) with Some th => th_stack th | None => [] end.

(** *** Loop invariant for every input *)
Record inv (r : list event) (s : astate) : Prop := {
  i_stack : forall t x, In x (stack_of s t) -> In x r /\ ev_thread x = t /\ is_interval x = true;
  i_tnodup : NoDup (map fst (a_threads s));
  i_thread : forall t, match map_get Z.eqb t (a_threads s) with
                       | Some th => spans_thread r t (th_start th) (th_end th)
                       | None => thread_spans t r = []
                       end;
  i_qnodup : NoDup (map fst (a_query s));
  i_label : forall l d, map_get beq l (a_query s) = Some d -> q_label d = l;
  i_rows : forall l, (exists d, map_get beq l (a_query s) = Some d) <-> has_row r l;
  i_time : forall l, q_time (row_of (a_query s) l) = q_time (expected_row r l);
  i_misses : forall l, q_misses (row_of (a_query s) l) = q_misses (expected_row r l);
  i_hits : forall l, q_hits (row_of (a_query s) l) = q_hits (expected_row r l);
  i_count : forall l, q_count (row_of (a_query s) l) = q_count (expected_row r l);
  i_blocked : forall l, q_blocked (row_of (a_query s) l) = q_blocked (expected_row r l) }.

Lemma inv_init : inv [] astate_init.
Proof.
  constructor; unfold stack_of, row_of; cbn; auto; try constructor; try tauto; try discriminate.
  - intros (d & H); discriminate.
  - intros (e & [] & _).
Qed.
Lemma has_row_cons e r l : has_row (e :: r) l <-> (ev_label e = l /\ (is_interval e = true \/ is_cache_hit e = true)) \/ has_row r l.
Proof.
  unfold has_row. split.
  - intros (x & [->|Hx] & H1 & H2); auto. right; eauto.
  - intros [[H1 H2]|(x & Hx & H1 & H2)]; [exists e|exists x]; cbn; auto.
Qed.
Lemma spans_thread_cons_other e r t a b : thread_spans t (e :: r) = thread_spans t r -> spans_thread r t a b -> spans_thread (e :: r) t a b.
Proof. unfold spans_thread. intros ->. auto. Qed.

Lemma inv_idle e r s : is_interval e = false -> is_cache_hit e = false -> inv r s -> inv (e :: r) s.
Proof.
  intros E1 E2 [I1 I2 I3 I4 I5 I6 I7 I8 I9 I10 I11].
  assert (T : forall t, thread_spans t (e :: r) = thread_spans t r).
  { intros t. cbn [thread_spans]. unfold is_interval, p_is_interval in E1. destruct (ev_payload e) as [[]|]; auto; discriminate. }
  assert (Z0 : ev_len e = 0).
  { unfold ev_len. unfold is_interval, p_is_interval in E1. destruct (ev_payload e) as [[]|]; auto; discriminate. }
  constructor; auto.
  - intros t x Hx. destruct (I1 t x Hx) as (?&?&?). split; [right|]; auto.
  - intros t. specialize (I3 t). destruct (map_get Z.eqb t (a_threads s)); [|rewrite T; auto].
    apply spans_thread_cons_other; auto.
  - intros l. rewrite I6, has_row_cons, E1, E2. intuition discriminate.
  - intros l. rewrite I7. unfold expected_row; cbn [q_time]. rewrite time_sum_cons, Z0. destruct (_ && _); reflexivity.
  - intros l. rewrite I8. unfold expected_row; cbn [q_misses]. rewrite count_cons, E1. reflexivity.
  - intros l. rewrite I9. unfold expected_row; cbn [q_hits]. rewrite count_cons, E2. reflexivity.
  - intros l. rewrite I10. unfold expected_row; cbn [q_count]. rewrite count_cons, E1, E2, andb_false_r. reflexivity.
  - intros l. rewrite I11. unfold expected_row; cbn [q_blocked]. rewrite time_sum_cons, Z0. destruct (_ && _); reflexivity.
Qed.

Lemma has_row_of_In x r : In x r -> is_interval x = true -> has_row r (ev_label x).
Proof. intros; exists x; auto. Qed.

Lemma labelled_beq l e : labelled l e = beq l (ev_label e).
Proof.
  unfold labelled. destruct (beq l (ev_label e)) eqn:E.
  - apply beq_true in E. subst. apply beq_refl.
  - apply beq_false. apply beq_false in E. congruence.
Qed.

(** one-step effect on rows *)
Lemma rows_own q l0 d k q' l : own_update k d (row_of q l0) = Ok q' ->
  row_of (map_put beq l0 q' q) l = if beq l l0 then q' else row_of q l.
Proof. intros _. apply row_of_put. Qed.

Lemma step_interval oc s ev a b s' : ev_payload ev = Timestamp (Interval a b) -> analysis_step oc s ev = Ok s' ->
  let st := pop_until (stack_of s (ev_thread ev)) ev in
  exists q1 q2, a <= b /\ a_artifacts s' = a_artifacts s /\
    match st with
    | [] => q1 = a_query s
    | top :: _ => exists d, parent_update (ev_kind top) (b - a) (row_of (a_query s) (ev_label top)) = Ok d /\ q1 = map_put beq (ev_label top) d (a_query s)
    end /\
    own_update (ev_kind ev) (b - a) (row_of q1 (ev_label ev)) = Ok q2 /\
    a_query s' = map_put beq (ev_label ev) q2 q1 /\
    exists lo hi, a_threads s' = map_put Z.eqb (ev_thread ev) (mkTh (ev :: st) lo hi) (a_threads s) /\
      match map_get Z.eqb (ev_thread ev) (a_threads s) with
      | Some th => lo = Z.min (th_start th) a /\ hi = Z.max (th_end th) b
      | None => lo = a /\ hi = b
      end.
Proof.
  intros He. unfold analysis_step. rewrite He. cbn [duration ts_duration].
  destruct (Z.leb_spec a b) as [Hab|Hab]; cbn [unwrap bind]; [|discriminate].
  rewrite pop_eq.
  assert (ST : pop_until (th_stack (match map_get Z.eqb (ev_thread ev) (a_threads s) with Some t => t | None => mkTh [] a b end)) ev
    = pop_until (stack_of s (ev_thread ev)) ev).
  { unfold stack_of. destruct (map_get Z.eqb (ev_thread ev) (a_threads s)); reflexivity. }
  rewrite ST. cbn zeta. destruct (pop_until (stack_of s (ev_thread ev)) ev) as [|top st'] eqn:Est.
  - cbn [bind]. rewrite record_eq. destruct (own_update _ _ _) as [q2| | |] eqn:E2; cbn [bind]; try discriminate.
    intros [= <-]. exists (a_query s), q2. cbn [a_query a_artifacts a_threads].
    split; auto. split; auto. split; auto. split; auto. split; auto.
    eexists _, _. split; [reflexivity|]. destruct (map_get _ _ _); cbn [th_start th_end]; lia.
  - rewrite record_eq. destruct (parent_update _ _ _) as [d| | |] eqn:E1; cbn [bind]; try discriminate.
    rewrite record_eq. destruct (own_update _ _ _) as [q2| | |] eqn:E2; cbn [bind]; try discriminate.
    intros [= <-]. exists (map_put beq (ev_label top) d (a_query s)), q2. cbn [a_query a_artifacts a_threads].
    split; auto. split; auto. split; [eauto|]. split; auto. split; auto.
    eexists _, _. split; [reflexivity|]. destruct (map_get _ _ _); cbn [th_start th_end]; lia.
Qed.

(** the fields a parent update does not touch *)
Definition same_counts (q q' : qdata) : Prop :=
  q_label q' = q_label q /\ q_time q' = q_time q /\ q_misses q' = q_misses q /\ q_hits q' = q_hits q /\ q_count q' = q_count q /\ q_blocked q' = q_blocked q.

Lemma inv_step oc e r s s' : inv r s -> analysis_step oc s e = Ok s' -> inv (e :: r) s'.
Proof.
  intros I H. destruct (ev_payload e) as [[a b|t0]|v] eqn:He.
  - (* interval *)
    assert (EI : is_interval e = true) by (unfold is_interval; rewrite He; reflexivity).
    assert (EC : is_cache_hit e = false) by (unfold is_cache_hit; rewrite He; reflexivity).
    assert (EL : ev_len e = b - a) by (unfold ev_len; rewrite He; reflexivity).
    destruct (step_interval oc s e a b s' He H) as (q1 & q2 & Hab & HA & Hq1 & Hq2 & HQ & lo & hi & HT & Hlh).
    destruct I as [I1 I2 I3 I4 I5 I6 I7 I8 I9 I10 I11].
    set (st := pop_until (stack_of s (ev_thread e)) e) in *.
    (* the intermediate table *)
    assert (Q1 : NoDup (map fst q1) /\ (forall l d, map_get beq l q1 = Some d -> q_label d = l) /\
      (forall l, (exists d, map_get beq l q1 = Some d) <-> has_row r l) /\ (forall l, same_counts (row_of (a_query s) l) (row_of q1 l))).
    { destruct st as [|top st'] eqn:Est.
      - subst q1. split; auto. split; auto. split; auto. intros; unfold same_counts; repeat split.
      - destruct Hq1 as (d & Hd & ->). apply parent_update_ok in Hd. unfold parent_spec in Hd.
        assert (Htop : In top (stack_of s (ev_thread e))) by (apply (pop_incl _ e); fold st; rewrite Est; left; auto).
        destruct (I1 _ _ Htop) as (T1 & T2 & T3).
        split; [apply put_NoDup; auto|]. split; [|split].
        + intros l d'. rewrite (get_put beq) by auto. destruct (beq l (ev_label top)) eqn:E; [|apply I5].
          apply beq_true in E. intros [= <-]. subst d. cbn [q_label]. unfold row_of.
          destruct (map_get beq (ev_label top) (a_query s)) eqn:G; [rewrite (I5 _ _ G)|cbn [qdata_new q_label]]; congruence.
        + intros l. rewrite <- I6, (get_put beq) by auto. destruct (beq l (ev_label top)) eqn:E; [|tauto].
          apply beq_true in E. subst l. split; [|eauto]. intros _. apply I6. apply has_row_of_In; auto.
        + intros l. rewrite row_of_put. destruct (beq l (ev_label top)) eqn:E; [|unfold same_counts; repeat split].
          apply beq_true in E. subst l d. unfold same_counts. cbn. repeat split. }
    destruct Q1 as (QN & QL & QR & QS). apply own_update_ok in Hq2. unfold own_spec in Hq2.
    assert (TS : forall t, thread_spans t (e :: r) = if ev_thread e =? t then (a, b) :: thread_spans t r else thread_spans t r).
    { intros t. cbn [thread_spans]. rewrite He. reflexivity. }
    assert (Hst : forall t, stack_of s' t = if t =? ev_thread e then e :: st else stack_of s t).
    { intros t. unfold stack_of. rewrite HT, (get_put Z.eqb) by auto. destruct (t =? ev_thread e); reflexivity. }
    constructor.
    + intros t x. rewrite Hst. destruct (Z.eqb_spec t (ev_thread e)) as [->|N].
      * intros [<-|Hx]; [split; [left|]; auto|]. apply pop_incl in Hx. destruct (I1 _ _ Hx) as (?&?&?). split; [right|]; auto.
      * intros Hx. destruct (I1 _ _ Hx) as (?&?&?). split; [right|]; auto.
    + rewrite HT. apply put_NoDup; auto.
    + intros t. rewrite HT, (get_put Z.eqb) by auto. destruct (Z.eqb_spec t (ev_thread e)) as [->|N].
      * cbn [th_start th_end]. specialize (I3 (ev_thread e)). unfold spans_thread. rewrite TS, Z.eqb_refl.
        destruct (map_get Z.eqb (ev_thread e) (a_threads s)) as [th|].
        -- destruct Hlh as [-> ->]. destruct I3 as ((y & Y) & (x & X) & B). split; [|split].
           ++ destruct (Z.min_spec (th_start th) a) as [[_ ->]|[_ ->]]; [exists y; right|exists b; left]; auto.
           ++ destruct (Z.max_spec (th_end th) b) as [[_ ->]|[_ ->]]; [exists a; left|exists x; right]; auto.
           ++ intros x0 y0 [[= <- <-]|Hxy]; [lia|]. apply B in Hxy. lia.
        -- destruct Hlh as [-> ->]. rewrite I3. split; [exists b; left; auto|]. split; [exists a; left; auto|].
           intros x y [[= <- <-]|[]]; lia.
      * specialize (I3 t). destruct (map_get Z.eqb t (a_threads s)) as [th|].
        -- apply spans_thread_cons_other; auto. rewrite TS. destruct (Z.eqb_spec (ev_thread e) t); congruence.
        -- rewrite TS. destruct (Z.eqb_spec (ev_thread e) t); congruence.
    + rewrite HQ. apply put_NoDup; auto.
    + intros l d. rewrite HQ, (get_put beq) by auto. destruct (beq l (ev_label e)) eqn:E; [|apply QL].
      apply beq_true in E. intros [= <-]. subst q2. cbn [q_label]. subst l. unfold row_of.
      destruct (map_get beq (ev_label e) q1) eqn:G; [apply (QL _ _ G)|reflexivity].
    + intros l. rewrite HQ, (get_put beq) by auto. rewrite has_row_cons, <- QR. destruct (beq l (ev_label e)) eqn:E.
      * apply beq_true in E. subst. split; [auto|eauto].
      * apply beq_false in E. split; [auto|]. intros [[X _]|X]; [congruence|auto].
    + intros l. rewrite HQ, row_of_put. unfold expected_row; cbn [q_time]. rewrite time_sum_cons, labelled_beq, EL.
      destruct (QS l) as (S1 & S2 & S3 & S4 & S5 & S6). specialize (I7 l). unfold expected_row in I7; cbn [q_time] in I7.
      destruct (beq l (ev_label e)) eqn:E; cbn [andb]; [|lia].
      apply beq_true in E. subst l q2. cbn [q_time].
      change (kind_is (ev_kind e) "IncrementalResultHashing") with (is_hashing e). destruct (is_hashing e); cbn [negb]; lia.
    + intros l. rewrite HQ, row_of_put. unfold expected_row; cbn [q_misses]. rewrite count_cons, labelled_beq, EI.
      destruct (QS l) as (S1 & S2 & S3 & S4 & S5 & S6). specialize (I8 l). unfold expected_row in I8; cbn [q_misses] in I8.
      destruct (beq l (ev_label e)) eqn:E; cbn [andb b2z]; [|lia].
      apply beq_true in E. subst l q2. cbn [q_misses]. change (kind_is (ev_kind e) "Query" || kind_is (ev_kind e) "GenericActivity") with (is_computed e). lia.
    + intros l. rewrite HQ, row_of_put. unfold expected_row; cbn [q_hits]. rewrite count_cons, EC.
      destruct (QS l) as (S1 & S2 & S3 & S4 & S5 & S6). specialize (I9 l). unfold expected_row in I9; cbn [q_hits] in I9.
      cbn [andb b2z]. destruct (beq l (ev_label e)) eqn:E; [|lia].
      apply beq_true in E. subst l q2. cbn [q_hits]. lia.
    + intros l. rewrite HQ, row_of_put. unfold expected_row; cbn [q_count]. rewrite count_cons, labelled_beq, EI, EC.
      destruct (QS l) as (S1 & S2 & S3 & S4 & S5 & S6). specialize (I10 l). unfold expected_row in I10; cbn [q_count] in I10.
      cbn [andb orb]. destruct (beq l (ev_label e)) eqn:E; cbn [andb b2z]; [|lia].
      apply beq_true in E. subst l q2. cbn [q_count].
      change (negb (kind_is (ev_kind e) "IncrementalLoadResult") && negb (kind_is (ev_kind e) "IncrementalResultHashing")) with (negb (is_load e) && negb (is_hashing e)). lia.
    + intros l. rewrite HQ, row_of_put. unfold expected_row; cbn [q_blocked]. rewrite time_sum_cons, labelled_beq, EL.
      destruct (QS l) as (S1 & S2 & S3 & S4 & S5 & S6). specialize (I11 l). unfold expected_row in I11; cbn [q_blocked] in I11.
      destruct (beq l (ev_label e)) eqn:E; cbn [andb]; [|lia].
      apply beq_true in E. subst l q2. cbn [q_blocked]. change (kind_is (ev_kind e) "QueryBlocked") with (is_blocked e). destruct (is_blocked e); lia.
  - (* instant *)
    assert (EI : is_interval e = false) by (unfold is_interval; rewrite He; reflexivity).
    unfold analysis_step in H. rewrite He in H.
    assert (EC : is_cache_hit e = beq (ev_kind e) QUERY_CACHE_HIT_EVENT_KIND) by (unfold is_cache_hit; rewrite He; reflexivity).
    rewrite <- EC in H. destruct (is_cache_hit e) eqn:EH; [|injection H as <-; apply inv_idle; auto].
    rewrite record_eq in H. cbn [inc_hits inc_count bind] in H. injection H as <-.
    cbn [q_label q_time q_self_time q_misses q_hits q_count q_blocked q_load q_hashing].
    destruct I as [I1 I2 I3 I4 I5 I6 I7 I8 I9 I10 I11].
    assert (T : forall t, thread_spans t (e :: r) = thread_spans t r) by (intros t; cbn [thread_spans]; rewrite He; auto).
    assert (Z0 : ev_len e = 0) by (unfold ev_len; rewrite He; auto).
    constructor; cbn [a_threads a_query].
    + intros t x Hx. change (In x (stack_of s t)) in Hx. destruct (I1 t x Hx) as (?&?&?). split; [right|]; auto.
    + auto.
    + intros t. specialize (I3 t). destruct (map_get Z.eqb t (a_threads s)); [|rewrite T; auto].
      apply spans_thread_cons_other; auto.
    + apply put_NoDup; auto.
    + intros l d. rewrite (get_put beq) by auto. destruct (beq l (ev_label e)) eqn:E; [|apply I5].
      apply beq_true in E. intros [= <-]. cbn [q_label]. unfold row_of.
      destruct (map_get beq (ev_label e) (a_query s)) eqn:G; [rewrite (I5 _ _ G)|cbn]; auto.
    + intros l. rewrite (get_put beq) by auto. rewrite has_row_cons, <- I6, EH. destruct (beq l (ev_label e)) eqn:E.
      * apply beq_true in E. subst. split; [auto|eauto].
      * apply beq_false in E. split; [auto|]. intros [[X _]|X]; [congruence|auto].
    + intros l. rewrite row_of_put. specialize (I7 l). unfold expected_row in *; cbn [q_time] in *. rewrite time_sum_cons, Z0.
      assert (X : forall (c : bool) y, (if c then 0 else 0) + y = y) by (intros [] ?; reflexivity). rewrite X, <- I7.
      destruct (beq l (ev_label e)) eqn:E; auto. apply beq_true in E. subst. reflexivity.
    + intros l. rewrite row_of_put. specialize (I8 l). unfold expected_row in *; cbn [q_misses] in *. rewrite count_cons, EI.
      cbn [andb b2z]. rewrite <- I8. destruct (beq l (ev_label e)) eqn:E; [|lia]. apply beq_true in E. subst. cbn [q_misses]. lia.
    + intros l. rewrite row_of_put. specialize (I9 l). unfold expected_row in *; cbn [q_hits] in *. rewrite count_cons, EH, labelled_beq.
      cbn [andb]. rewrite <- I9. destruct (beq l (ev_label e)) eqn:E; cbn [b2z]; [|lia]. apply beq_true in E. subst. cbn [q_hits]. lia.
    + intros l. rewrite row_of_put. specialize (I10 l). unfold expected_row in *; cbn [q_count] in *. rewrite count_cons, EH, labelled_beq.
      cbn [orb]. rewrite andb_true_r, <- I10. destruct (beq l (ev_label e)) eqn:E; cbn [b2z]; [|lia]. apply beq_true in E. subst. cbn [q_count]. lia.
    + intros l. rewrite row_of_put. specialize (I11 l). unfold expected_row in *; cbn [q_blocked] in *. rewrite time_sum_cons, Z0.
      assert (X : forall (c : bool) y, (if c then 0 else 0) + y = y) by (intros [] ?; reflexivity). rewrite X, <- I11.
      destruct (beq l (ev_label e)) eqn:E; auto. apply beq_true in E. subst. reflexivity.
  - (* integer *)
    assert (EI : is_interval e = false) by (unfold is_interval; rewrite He; reflexivity).
    assert (EC : is_cache_hit e = false) by (unfold is_cache_hit; rewrite He; reflexivity).
    pose proof (inv_idle e r s EI EC I) as I'. unfold analysis_step in H. rewrite He in H.
    destruct (beq (ev_kind e) ARTIFACT_SIZE_EVENT_KIND); [|injection H as <-; auto].
    destruct (u64_add oc _ v); cbn [bind] in H; try discriminate. injection H as <-.
    destruct I' as [I1 I2 I3 I4 I5 I6 I7 I8 I9 I10 I11]. constructor; auto.
Qed.

Lemma inv_run oc evs : forall s, foldM (analysis_step oc) astate_init (rev evs) = Ok s -> inv evs s.
Proof.
  induction evs as [|e r IH]; intros s.
  - cbn. intros [= <-]. apply inv_init.
  - rewrite foldM_rev_cons. destruct (foldM (analysis_step oc) astate_init (rev r)) as [s0| | |]; cbn [bind]; try discriminate.
    intros H. eapply inv_step; eauto.
Qed.
