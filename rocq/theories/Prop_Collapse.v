(** C30: collapsed stacks.  Model M_Collapse.v, specification S_Analysis.v and S_Collapse.v. *)
From Coq Require Import ZArith List Lia Bool Permutation String Sorted.
From Verif Require Import M_Base F_Base M_Raw M_V8 M_Map M_Session M_Guard S_Guard S_Analysis F_Analysis F_Analysis2
  M_Collapse S_Collapse F_Collapse.
Import ListNotations.
Open Scope Z_scope.

Definition c_stack_of (s : cstate) (t : Z) : list event :=
  match map_get Z.eqb t (c_threads s) with Some th => ct_stack th | None => [] end.
Definition has_line (L : list event) (k : bytes) : Prop := exists e, In e L /\ is_interval e = true /\ ev_label e = k.
Record cinv (r : list event) (s : cstate) : Prop := {
  ci_stack : forall t, stack_ok (c_stack_of s t) t r /\ path_ok (c_stack_of s t) t r;
  ci_tnodup : NoDup (map fst (c_threads s));
  ci_thread : forall t, match map_get Z.eqb t (c_threads s) with
     | Some th => ct_id th = render (ct_stack th) /\ ct_total th = top_level_time t r /\
                  (exists y, In (ct_start th, y) (thread_spans t r)) /\ (forall x y, In (x, y) (thread_spans t r) -> ct_start th <= x) /\
                  exists l x, thread_spans t r = l ++ [(x, ct_end th)]
     | None => thread_spans t r = []
     end;
  ci_cnodup : NoDup (map fst (c_counters s));
  ci_some : forall k v, map_get beq k (c_counters s) = Some v -> has_line (with_lines r) k /\ v = self_time_sum (labelled k) (with_lines r);
  ci_none : forall k, map_get beq k (c_counters s) = None -> ~ has_line (with_lines r) k }.

Lemma cinv_init : cinv [] (mkC [] []).
Proof.
  constructor; cbn; auto; try constructor; try discriminate.
  - apply stack_empty; auto.
  - apply path_empty; auto.
  - intros k _ (e & [] & _).
Qed.

Lemma top_window t t0 W evs : nested_recording evs -> 0 <= W ->
  (forall e a b, In e evs -> ev_payload e = Timestamp (Interval a b) -> t0 <= a /\ b <= t0 + W) -> 0 <= top_level_time t evs <= W.
Proof.
  intros HN HW H.
  assert (B : forall x y, In (x, y) (thread_spans t evs) -> t0 <= x /\ y <= t0 + W).
  { intros x y Hin. apply thread_spans_In in Hin. destruct Hin as (e & H1 & H2 & H3). eapply H; eauto. }
  rewrite (top_virtual t t0 (t0 + W) evs B).
  destruct (kids_bound evs (virtual t t0 (t0 + W)) t0 (t0 + W) eq_refl) as (m & ? & ? & ? & _); [|lia].
  rewrite thread_spans_app. cbn [thread_spans virtual ev_payload ev_thread]. rewrite Z.eqb_refl. apply laminar_snoc; auto. lia.
Qed.
Lemma zsum_range {A} (f : A -> Z) W l : (forall x, In x l -> 0 <= f x <= W) -> 0 <= zsum (map f l) <= zlen l * W.
Proof.
  induction l as [|x l IH]; cbn [map zsum fold_right]; intros H; [change (zlen (@nil A)) with 0; lia|]. rewrite zlen_cons.
  pose proof (H x (or_introl eq_refl)). assert (0 <= zsum (map f l) <= zlen l * W) by (apply IH; intros; apply H; right; auto). unfold zsum in *. lia.
Qed.

Lemma In_zlen {A} (x : A) l : In x l -> 1 <= zlen l.
Proof. destruct l as [|y l]; [intros []|]. rewrite zlen_cons. pose proof (zlen_nonneg l). lia. Qed.

Section Bounds.
  Variables (t0 W : Z) (T : list Z).
  Definition bounded (evs : list event) : Prop :=
    0 <= W /\ NoDup T /\ zlen T * W < 2 ^ 64 /\ (forall t, thread_spans t evs <> [] -> In t T) /\
    (forall e a b, In e evs -> ev_payload e = Timestamp (Interval a b) -> t0 <= a /\ b <= t0 + W).
  Lemma bounded_cons e r : bounded (e :: r) -> bounded r.
  Proof.
    intros (H1 & H2 & H3 & H4 & H5). split; auto. split; auto. split; auto. split.
    - intros t N. apply H4. cbn [thread_spans]. destruct (ev_payload e) as [[]|]; auto. destruct (ev_thread e =? t); auto. discriminate.
    - intros; eapply H5; eauto; right; auto.
  Qed.
  Lemma self_bound P evs : nested_recording evs -> bounded evs -> 0 <= self_time_sum P (with_lines evs) < 2 ^ 64.
  Proof.
    intros HN (H1 & H2 & H3 & H4 & H5).
    pose proof (self_from_mono P (with_lines evs) [] (with_lines_nested _ HN)) as M. unfold self_time_sum.
    change (self_from (fun _ => true) [] (with_lines evs)) with (self_time_sum (fun _ => true) (with_lines evs)) in M.
    rewrite (self_total T H2) in M by (intros t; rewrite with_lines_spans; auto).
    assert (B : 0 <= zsum (map (fun t => top_level_time t (with_lines evs)) T) <= zlen T * W).
    { apply zsum_range. intros t _. rewrite with_lines_top. eapply top_window; eauto. }
    lia.
  Qed.
End Bounds.

Lemma last_end t e r a b l x z : ev_payload e = Timestamp (Interval a b) -> thread_spans t r = l ++ [(x, z)] ->
  exists l' x', thread_spans t (e :: r) = l' ++ [(x', z)].
Proof.
  intros He H. cbn [thread_spans]. rewrite He. destruct (ev_thread e =? t); [|eauto]. rewrite H. exists ((a, b) :: l), x. reflexivity.
Qed.
Lemma last_latest l x z : laminar (l ++ [(x, z)]) -> forall c d, In (c, d) (l ++ [(x, z)]) -> d <= z.
Proof.
  induction l as [|[p q] l IH]; cbn [app laminar]; intros H c d Hin.
  - destruct Hin as [[= <- <-]|[]]; lia.
  - destruct H as (H1 & H2 & H3). destruct Hin as [[= <- <-]|Hin]; [|eauto].
    assert (N : nests (p, q) (x, z)) by (rewrite Forall_forall in H2; apply H2, in_or_app; right; left; auto).
    assert (x <= z).
    { clear -H3. induction l as [|y l IH]; cbn [app laminar fst snd] in H3; [lia|]. destruct H3 as (_ & _ & H3). auto. }
    unfold nests in N. cbn [fst snd] in N. lia.
Qed.

Lemma has_line_cons e r k : has_line (with_lines (e :: r)) k <-> (is_interval e = true /\ k = stack_line e r) \/ has_line (with_lines r) k.
Proof.
  unfold has_line. cbn [with_lines]. split.
  - intros (x & [<-|Hx] & H1 & H2); [left; auto|right; eauto].
  - intros [[H1 ->]|(x & Hx & H1 & H2)]; [exists (relabel e (stack_line e r)); cbn; auto|exists x; cbn; auto].
Qed.

Lemma self_lines_cons k e r : self_time_sum (labelled k) (with_lines (e :: r)) =
  (if beq k (stack_line e r) then ev_len e else 0)
  - (if existsb (fun x => encloses x e) r && beq k (ancestors e r) then ev_len e else 0)
  + self_time_sum (labelled k) (with_lines r).
Proof.
  cbn [with_lines]. rewrite self_time_sum_cons. rewrite labelled_beq. cbn [relabel ev_label].
  change (ev_len (relabel e (stack_line e r))) with (ev_len e).
  change (parent_in (with_lines r) (relabel e (stack_line e r))) with (parent_in (with_lines r) e).
  destruct (parent_in (with_lines r) e) as [p|] eqn:E.
  - cbn [charge]. rewrite labelled_beq, (parent_line _ _ _ E).
    destruct (existsb (fun x => encloses x e) r) eqn:X; [reflexivity|]. apply parent_none in X. congruence.
  - cbn [charge]. apply parent_none in E. rewrite E. reflexivity.
Qed.

Lemma collapse_step_ok oc t0 W T e r s : nested_recording (e :: r) -> bounded t0 W T (e :: r) -> cinv r s ->
  exists s', collapse_step oc s e = Ok s' /\ cinv (e :: r) s'.
Proof.
  intros HN HB I. pose proof (nested_len _ _ HN) as HL. pose proof (nested_cons_inv _ _ HN) as HNr. pose proof (bounded_cons _ _ _ _ _ HB) as HBr.
  destruct (ev_payload e) as [[a b|i]|v] eqn:He.
  2:{ exists s. unfold collapse_step. rewrite He. split; auto.
      assert (EI : is_interval e = false) by (unfold is_interval; rewrite He; auto).
      assert (Z0 : ev_len e = 0) by (unfold ev_len; rewrite He; auto).
      destruct I as [I1 I2 I3 I4 I5 I6]. constructor; auto.
      - intros t. destruct (I1 t). split; [apply stack_other|apply path_other]; auto.
      - intros t. specialize (I3 t). cbn [thread_spans top_level_time]. rewrite He, Z0.
        destruct (map_get Z.eqb t (c_threads s)); auto. destruct (_ && _); auto.
      - intros k v G. destruct (I5 k v G) as [H1 H2]. split; [apply has_line_cons; auto|].
        rewrite self_lines_cons, Z0, H2. destruct (beq _ _), (_ && _); lia.
      - intros k G H. apply has_line_cons in H. rewrite EI in H. destruct H as [[H _]|H]; [discriminate|]. eapply I6; eauto. }
  2:{ exists s. unfold collapse_step. rewrite He. split; auto.
      assert (EI : is_interval e = false) by (unfold is_interval; rewrite He; auto).
      assert (Z0 : ev_len e = 0) by (unfold ev_len; rewrite He; auto).
      destruct I as [I1 I2 I3 I4 I5 I6]. constructor; auto.
      - intros t. destruct (I1 t). split; [apply stack_other|apply path_other]; auto.
      - intros t. specialize (I3 t). cbn [thread_spans top_level_time]. rewrite He, Z0.
        destruct (map_get Z.eqb t (c_threads s)); auto. destruct (_ && _); auto.
      - intros k x G. destruct (I5 k x G) as [H1 H2]. split; [apply has_line_cons; auto|].
        rewrite self_lines_cons, Z0, H2. destruct (beq _ _), (_ && _); lia.
      - intros k G H. apply has_line_cons in H. rewrite EI in H. destruct H as [[H _]|H]; [discriminate|]. eapply I6; eauto. }
  assert (EI : is_interval e = true) by (unfold is_interval; rewrite He; auto).
  assert (EL : ev_len e = b - a) by (unfold ev_len; rewrite He; auto).
  pose proof (fits_next e r EI HN) as HF.
  pose proof (self_bound t0 W T) as SB.
  set (t := ev_thread e) in *.
  destruct I as [I1 I2 I3 I4 I5 I6].
  assert (HW : 0 <= b - a < U64).
  { destruct HB as (H1 & H2 & H3 & H4 & H5). pose proof (H5 e a b (or_introl eq_refl) He).
    assert (In t T). { apply H4. cbn [thread_spans]. rewrite He. fold t. rewrite Z.eqb_refl. discriminate. }
    assert (1 <= zlen T) by (eapply In_zlen; eauto).
    change (2 ^ 64) with U64 in H3. nia. }
  set (th := match map_get Z.eqb t (c_threads s) with Some x => x | None => mkCt [] (str "rustc") a b 0 end).
  assert (HST : ct_stack th = c_stack_of s t) by (unfold th, c_stack_of; destruct (map_get Z.eqb t (c_threads s)); auto).
  assert (HID : ct_id th = render (ct_stack th)).
  { unfold th. specialize (I3 t). destruct (map_get Z.eqb t (c_threads s)); [tauto|reflexivity]. }
  assert (HTOT : ct_total th = top_level_time t r).
  { unfold th. specialize (I3 t). destruct (map_get Z.eqb t (c_threads s)); [tauto|]. cbn [ct_total]. rewrite top_level_none; auto. }
  destruct (I1 t) as [S1 P1]. set (st := pop_until (c_stack_of s t) e).
  assert (HPOP : c_pop (ct_stack th) (ct_id th) e = Ok (st, ancestors e r)).
  { rewrite HID, c_pop_render, HST. fold st. rewrite <- (P1 e HF). reflexivity. }
  assert (HND : nanos_u64 e = Ok (b - a)).
  { unfold nanos_u64. rewrite He. cbn [duration ts_duration]. destruct (Z.leb_spec a b); [|lia]. cbn [unwrap bind]. rewrite Z.mod_small; auto. }
  assert (HPAR : (st = [] <-> existsb (fun x => encloses x e) r = false)).
  { assert (X : hd_error st = parent_in r e) by (unfold st; rewrite pop_hd; apply S1; auto).
    transitivity (parent_in r e = None); [rewrite <- X; destruct st; cbn [hd_error]; split; auto; discriminate|].
    unfold parent_in. clear. induction r as [|x r IH]; cbn [find existsb]; [tauto|]. destruct (encloses x e); cbn [orb]; auto. split; discriminate. }
  (* the counters after charging the parent *)
  assert (exists cnt, match st with
      | _ :: _ => match map_get beq (ancestors e r) (c_counters s) with
                  | Some self_time => do d <- nanos_u64 e; do v <- u64_sub oc self_time d; Ok (map_put beq (ancestors e r) v (c_counters s), ct_total th)
                  | None => Ok (c_counters s, ct_total th)
                  end
      | [] => do d <- nanos_u64 e; do v <- u64_add oc (ct_total th) d; Ok (c_counters s, v)
      end = Ok (cnt, top_level_time t (e :: r)) /\
    NoDup (map fst cnt) /\
    (forall k v, map_get beq k cnt = Some v -> has_line (with_lines r) k /\
       v = self_time_sum (labelled k) (with_lines r) - (if existsb (fun x => encloses x e) r && beq k (ancestors e r) then b - a else 0)) /\
    (forall k, map_get beq k cnt = None -> ~ has_line (with_lines r) k)) as (cnt & HC & C1 & C2 & C3).
  { cbn [top_level_time]. fold t. rewrite Z.eqb_refl, EL. cbn [andb]. destruct st as [|top st'] eqn:Est.
    - assert (X : existsb (fun x => encloses x e) r = false) by (apply HPAR; auto). rewrite X. cbn [negb andb].
      rewrite HND. cbn [bind]. rewrite HTOT. unfold u64_add.
      assert (B : top_level_time t (e :: r) < U64).
      { pose proof HB as (H1 & H2 & H3 & H4 & H5). pose proof (top_window t t0 W (e :: r) HN H1 H5).
        assert (In t T). { apply H4. cbn [thread_spans]. rewrite He. fold t. rewrite Z.eqb_refl. discriminate. }
        assert (1 <= zlen T) by (eapply In_zlen; eauto).
        change (2 ^ 64) with U64 in H3. nia. }
      cbn [top_level_time] in B. fold t in B. rewrite Z.eqb_refl, EL, X in B. cbn [andb negb] in B.
      destruct (Z.ltb_spec (top_level_time t r + (b - a)) U64); [|lia]. cbn [bind].
      exists (c_counters s). split; [f_equal; f_equal; lia|]. split; auto. split; [|apply I6].
      intros k v G. destruct (I5 k v G) as [H1 H2]. split; auto. rewrite H2, Z.sub_0_r. reflexivity.
    - assert (X : existsb (fun x => encloses x e) r = true).
      { destruct (existsb (fun x => encloses x e) r) eqn:Y; auto. destruct HPAR as [_ HPAR]. specialize (HPAR eq_refl). discriminate. }
      rewrite X. cbn [negb andb].
      assert (HP : exists p, parent_in (with_lines r) e = Some p).
      { destruct (parent_in (with_lines r) e) eqn:Y; eauto. apply parent_none in Y. congruence. }
      destruct HP as [p Hp]. destruct (parent_in_lines _ _ _ Hp) as [Hp1 Hp2]. pose proof (parent_line _ _ _ Hp) as Hp3.
      destruct (map_get beq (ancestors e r) (c_counters s)) as [v|] eqn:G.
      + destruct (I5 _ _ G) as [G1 G2]. rewrite HND. cbn [bind].
        assert (L : b - a <= v).
        { pose proof (charge_bound (labelled (ancestors e r)) e (with_lines r)) as C.
          assert (HN' : nested_recording (e :: with_lines r)).
          { intros u. pose proof (HN u) as U. cbn [thread_spans] in *. rewrite with_lines_spans. exact U. }
          specialize (C HN'). rewrite Hp in C. cbn [charge] in C. rewrite labelled_beq, Hp3, beq_refl, EL in C.
          rewrite G2, self_time_sum_eq. lia. }
        unfold u64_sub. destruct (Z.leb_spec (b - a) v); [|lia]. cbn [bind].
        eexists. split; [rewrite HTOT; f_equal|]. split; [apply put_NoDup; auto|]. split.
        * intros k w. rewrite (get_put beq) by auto. destruct (beq k (ancestors e r)) eqn:Ek.
          -- apply beq_true in Ek. subst k. intros [= <-]. split; auto. lia.
          -- intros Gk. destruct (I5 _ _ Gk) as [H1 H2]. split; auto. lia.
        * intros k. rewrite (get_put beq) by auto. destruct (beq k (ancestors e r)); [discriminate|]. apply I6.
      + exfalso. apply (I6 _ G). exists p. auto. }
  set (id' := stack_line e r).
  assert (HO : (match map_get beq id' cnt with Some v => v | None => 0 end) =
    self_time_sum (labelled id') (with_lines r) - (if existsb (fun x => encloses x e) r && beq id' (ancestors e r) then b - a else 0)).
  { destruct (map_get beq id' cnt) as [v|] eqn:G; [apply (C2 _ _ G)|].
    apply C3 in G.
    assert (N0 : self_time_sum (labelled id') (with_lines r) = 0).
    { clear -G. rewrite self_time_sum_eq. assert (time_sum (labelled id') (with_lines r) = 0 /\ child_sum (labelled id') (with_lines r) = 0); [|lia].
      induction (with_lines r) as [|x L IH]; [auto|]. cbn [time_sum child_sum].
      assert (G' : ~ has_line L id') by (intros (y & ? & ? & ?); apply G; exists y; cbn; auto). destruct (IH G') as [-> ->]. split.
      - unfold labelled. destruct (beq (ev_label x) id') eqn:E; auto. apply beq_true in E.
        destruct (is_interval x) eqn:EX; [exfalso; apply G; exists x; cbn; auto|].
        unfold ev_len. unfold is_interval, p_is_interval in EX. destruct (ev_payload x) as [[]|]; auto; discriminate.
      - destruct (parent_in L x) as [p|] eqn:Ep; cbn [charge]; auto. apply find_some in Ep. destruct Ep as [E1 E2].
        unfold labelled. destruct (beq (ev_label p) id') eqn:E; auto. apply beq_true in E. exfalso. apply G'. exists p. split; auto.
        rewrite encloses_contains, !andb_true_iff in E2. tauto. }
    rewrite N0. destruct (existsb (fun x => encloses x e) r && beq id' (ancestors e r)) eqn:Y; [|lia]. exfalso.
    rewrite andb_true_iff in Y. destruct Y as [_ Y]. apply beq_true in Y. unfold id', stack_line in Y.
    apply (f_equal zlen) in Y. rewrite !zlen_app in Y. change (zlen (str ";")) with 1 in Y. pose proof (zlen_nonneg (ev_label e)). lia. }
  assert (HNEW : (match map_get beq id' cnt with Some v => v | None => 0 end) + (b - a) = self_time_sum (labelled id') (with_lines (e :: r))).
  { rewrite HO, self_lines_cons. fold id'. rewrite beq_refl, EL. lia. }
  assert (HU : u64_add oc (match map_get beq id' cnt with Some v => v | None => 0 end) (b - a) = Ok (self_time_sum (labelled id') (with_lines (e :: r)))).
  { unfold u64_add. rewrite HNEW. pose proof (SB (labelled id') (e :: r) HN HB). change (2 ^ 64) with U64 in H.
    destruct (Z.ltb_spec (self_time_sum (labelled id') (with_lines (e :: r))) U64); [reflexivity|lia]. }
  eexists. split.
  { unfold collapse_step. rewrite He. fold t. fold th. rewrite HPOP. cbn [bind]. rewrite HC. cbn [bind]. rewrite HND. cbn [bind].
    change (ancestors e r ++ str ";" ++ ev_label e) with id'. rewrite HU. cbn [bind]. reflexivity. }
  constructor; cbn [c_counters c_threads].
  - intros u. unfold c_stack_of. cbn [c_threads]. rewrite (get_put Z.eqb) by auto. destruct (Z.eqb_spec u t) as [->|N].
    + cbn [ct_stack]. split; [apply stack_push; auto|apply path_push; auto].
    + destruct (I1 u). split; [apply stack_other|apply path_other]; auto.
  - apply put_NoDup; auto.
  - intros u. rewrite (get_put Z.eqb) by auto. destruct (Z.eqb_spec u t) as [->|N].
    + cbn [ct_id ct_stack ct_total ct_start ct_end]. split.
      { cbn [render]. unfold st. rewrite (P1 e HF). reflexivity. }
      split; auto. specialize (I3 t). cbn [thread_spans]. rewrite He. fold t. rewrite Z.eqb_refl.
      unfold th. destruct (map_get Z.eqb t (c_threads s)) as [x|].
      * destruct I3 as (_ & _ & (y & Y) & B & l & z & Hz). split; [|split].
        -- destruct (Z.min_spec (ct_start x) a) as [[_ ->]|[_ ->]]; [exists y; right|exists b; left]; auto.
        -- intros p q [[= <- <-]|Hin]; [lia|]. apply B in Hin. lia.
        -- rewrite Hz. exists ((a, b) :: l), z. reflexivity.
      * cbn [ct_start ct_end]. rewrite I3. rewrite Z.min_id. split; [exists b; left; auto|]. split.
        -- intros p q [[= <- <-]|[]]; lia.
        -- exists [], a. reflexivity.
    + specialize (I3 u).
      assert (TS : thread_spans u (e :: r) = thread_spans u r).
      { cbn [thread_spans]. rewrite He. destruct (Z.eqb_spec (ev_thread e) u); [unfold t in N; congruence|auto]. }
      assert (TT : top_level_time u (e :: r) = top_level_time u r).
      { cbn [top_level_time]. destruct (Z.eqb_spec (ev_thread e) u); [unfold t in N; congruence|reflexivity]. }
      rewrite TS, TT. exact I3.
  - apply put_NoDup; auto.
  - intros k v. rewrite (get_put beq) by auto. rewrite has_line_cons. fold id'. destruct (beq k id') eqn:E.
    + apply beq_true in E. subst k. intros [= <-]. auto.
    + intros G. destruct (C2 _ _ G) as [H1 H2]. split; auto. rewrite self_lines_cons. fold id'. rewrite E, H2, EL. lia.
  - intros k. rewrite (get_put beq) by auto. rewrite has_line_cons. fold id'. destruct (beq k id') eqn:E; [discriminate|].
    intros G [[_ X]|X]; [|eapply C3; eauto]. apply beq_false in E. congruence.
Qed.

Lemma collapse_run oc t0 W T evs : nested_recording evs -> bounded t0 W T evs ->
  exists s, foldM (collapse_step oc) (mkC [] []) (rev evs) = Ok s /\ cinv evs s.
Proof.
  induction evs as [|e r IH]; intros HN HB; [eexists; split; [reflexivity|apply cinv_init]|].
  rewrite foldM_rev_cons. destruct IH as (s & -> & I); [eapply nested_cons_inv; eauto|eapply bounded_cons; eauto|].
  cbn [bind]. eapply collapse_step_ok; eauto.
Qed.
Lemma gap_run oc (l : list (Z * cthread)) : forall acc, 0 <= acc ->
  (forall t th, In (t, th) l -> 0 <= ct_total th <= ct_end th - ct_start th /\ ct_end th - ct_start th < U64) ->
  acc + zsum (map (fun x => ct_end (snd x) - ct_start (snd x) - ct_total (snd x)) l) < U64 ->
  foldM (gap_step oc) acc l = Ok (acc + zsum (map (fun x => ct_end (snd x) - ct_start (snd x) - ct_total (snd x)) l)).
Proof.
  induction l as [|[t th] l IH]; intros acc H0 HL HB; cbn [foldM map zsum fold_right] in *; [f_equal; lia|].
  unfold gap_step at 1. cbn [snd] in *. destruct (HL t th (or_introl eq_refl)) as [L1 L2].
  assert (P : 0 <= zsum (map (fun x => ct_end (snd x) - ct_start (snd x) - ct_total (snd x)) l)).
  { assert (X : forall t' th', In (t', th') l -> 0 <= ct_end th' - ct_start th' - ct_total th') by (intros t' th' Hin; destruct (HL t' th' (or_intror Hin)); lia).
    clear -X. induction l as [|[t' th'] l IH]; cbn [map zsum fold_right snd]; [lia|].
    pose proof (X t' th' (or_introl eq_refl)). assert (0 <= zsum (map (fun x : Z * cthread => ct_end (snd x) - ct_start (snd x) - ct_total (snd x)) l)) by (apply IH; intros; eapply X; right; eauto).
    unfold zsum in *. lia. }
  destruct (Z.leb_spec (ct_start th) (ct_end th)); [|lia]. cbn [bind]. rewrite Z.mod_small by lia.
  unfold u64_sub. destruct (Z.leb_spec (ct_total th) (ct_end th - ct_start th)); [|lia]. cbn [bind]. unfold u64_add, zsum in *.
  destruct (Z.ltb_spec (acc + (ct_end th - ct_start th - ct_total th)) U64); [|lia]. cbn [bind].
  rewrite IH; [f_equal; lia|lia| |lia]. intros; eapply HL; right; eauto.
Qed.
Lemma ancestors_long e r : 5 <= zlen (ancestors e r).
Proof.
  revert e. induction r as [|x r IH]; intros e; cbn [ancestors]; [reflexivity|]. destruct (encloses x e); auto.
  rewrite !zlen_app. specialize (IH x). change (zlen (str ";")) with 1. pose proof (zlen_nonneg (ev_label x)). lia.
Qed.
Lemma line_not_rustc L k : has_line (with_lines L) k -> k <> str "rustc".
Proof.
  induction L as [|e r IH]; [intros (x & [] & _)|]. rewrite has_line_cons. intros [[_ ->]|H]; auto. intros E.
  apply (f_equal zlen) in E. unfold stack_line in E. rewrite !zlen_app in E. change (zlen (str ";")) with 1 in E. change (zlen (str "rustc")) with 5 in E.
  pose proof (ancestors_long e r). pose proof (zlen_nonneg (ev_label e)). lia.
Qed.
Lemma has_line_split evs k : has_line (with_lines evs) k <->
  exists before e after, evs = before ++ e :: after /\ is_interval e = true /\ k = stack_line e after.
Proof.
  induction evs as [|e r IH].
  - split; [intros (x & [] & _)|intros ([|] & ? & ? & H & _); discriminate].
  - rewrite has_line_cons, IH. split.
    + intros [[H ->]|(w & x & y & -> & H)]; [exists [], e, r; auto|exists (e :: w), x, y; auto].
    + intros ([|z w] & x & y & H & H1 & H2); cbn [app] in H; injection H as -> ->; auto. right. exists w, x, y. auto.
Qed.

(** For every nested recording, [collapse_stacks] returns (in every build mode, so in particular
    without arithmetic overflow or underflow) exactly: one line per ancestor chain of an interval
    event, with the total self time of the events with that chain, and the line "rustc" with the
    gaps, i.e. for each thread its span minus its top-level events.
    Bounds: intervals within a window of [W] ns, number of threads times [W] below [2^64] (65536
    threads for the [2^48] ns window of a file). *)
Theorem C30_lines : forall oc evs t0 W T, nested_recording evs ->
  0 <= W -> NoDup T -> zlen T * W < 2 ^ 64 -> (forall t, thread_spans t evs <> [] -> In t T) ->
  (forall e a b, In e evs -> ev_payload e = Timestamp (Interval a b) -> t0 <= a /\ b <= t0 + W) ->
  exists m spans, collapse_stacks oc evs = Ok m /\ NoDup (map fst m) /\ all_thread_spans evs spans /\
  forall k v, In (k, v) m <->
    (k = str "rustc" /\ v = zsum (map (fun x => snd (snd x) - fst (snd x) - top_level_time (fst x) evs) spans)) \/
    ((exists before e after, evs = before ++ e :: after /\ is_interval e = true /\ k = stack_line e after) /\
     v = self_time_sum (labelled k) (with_lines evs)).
Proof.
  intros oc evs t0 W T HN HW HT HTW HTT HWin.
  assert (HB : bounded t0 W T evs) by (unfold bounded; auto).
  destruct (collapse_run oc t0 W T evs HN HB) as (s & Hs & [I1 I2 I3 I4 I5 I6]).
  assert (TH : forall t th, In (t, th) (c_threads s) -> spans_thread evs t (ct_start th) (ct_end th) /\ ct_total th = top_level_time t evs).
  { intros t th Hin. apply (In_get Z.eqb zeqb_eq) in Hin; auto. specialize (I3 t). rewrite Hin in I3.
    destruct I3 as (_ & E & (y & Y) & B & l & x & L). split; auto. split; [eauto|]. split.
    - exists x. rewrite L. apply in_or_app; right; left; auto.
    - intros p q Hin'. split; [eauto|]. pose proof (HN t) as HNt. rewrite L in HNt, Hin'. eapply last_latest; eauto. }
  assert (TB : forall t th, In (t, th) (c_threads s) -> 0 <= ct_total th <= ct_end th - ct_start th /\ ct_end th - ct_start th <= W).
  { intros t th Hin. destruct (TH t th Hin) as [S E]. rewrite E. split; [apply top_level_bound; auto|].
    destruct S as ((y & Y) & (x & X) & _). apply thread_spans_In in Y, X. destruct Y as (e1 & Y1 & _ & Y3). destruct X as (e2 & X1 & _ & X3).
    pose proof (HWin _ _ _ Y1 Y3). pose proof (HWin _ _ _ X1 X3). lia. }
  set (spans := map (fun x => (fst x, (ct_start (snd x), ct_end (snd x)))) (c_threads s)).
  assert (SE : map fst spans = map fst (c_threads s)) by (unfold spans; rewrite map_map; reflexivity).
  assert (AS : all_thread_spans evs spans).
  { unfold all_thread_spans. rewrite SE. split; auto. split.
    - intros t. specialize (I3 t). destruct (map_get Z.eqb t (c_threads s)) as [th|] eqn:G.
      + split; [|intros _; apply (get_In Z.eqb zeqb_eq) in G; apply (in_map fst) in G; auto].
        intros _. destruct I3 as (_ & _ & (y & Y) & _). destruct (thread_spans t evs); [destruct Y|discriminate].
      + apply (get_None Z.eqb zeqb_eq) in G. split; [tauto|congruence].
    - intros t a b Hin. apply in_map_iff in Hin. destruct Hin as ([t' th] & [= <- <- <-] & Hin). apply TH; auto. }
  assert (GS : zsum (map (fun x => ct_end (snd x) - ct_start (snd x) - ct_total (snd x)) (c_threads s)) =
    zsum (map (fun x => snd (snd x) - fst (snd x) - top_level_time (fst x) evs) spans)).
  { unfold spans. rewrite map_map. f_equal. apply map_ext_in. intros [t th] Hin. cbn [fst snd]. destruct (TH t th Hin) as [_ ->]. reflexivity. }
  assert (HLT : zlen (c_threads s) <= zlen T).
  { unfold zlen. apply inj_le. rewrite <- (map_length fst (c_threads s)). apply NoDup_incl_length; auto.
    intros t Ht. apply HTT. rewrite <- SE in Ht. apply AS; auto. }
  assert (GB : 0 <= zsum (map (fun x => ct_end (snd x) - ct_start (snd x) - ct_total (snd x)) (c_threads s)) <= zlen (c_threads s) * W).
  { apply zsum_range. intros [t th] Hin. cbn [snd]. destruct (TB t th Hin). lia. }
  change (2 ^ 64) with U64 in HTW. unfold collapse_stacks. rewrite Hs. cbn [bind].
  rewrite gap_run; [|lia| |nia].
  2:{ intros t th Hin. destruct (TB t th Hin). split; auto.
      assert (1 <= zlen (c_threads s)) by (eapply In_zlen; eauto). nia. }
  cbn [bind]. rewrite Z.add_0_l.
  assert (NR : map_get beq (str "rustc") (c_counters s) = None).
  { destruct (map_get beq (str "rustc") (c_counters s)) eqn:G; auto. destruct (I5 _ _ G) as [H _]. apply line_not_rustc in H. congruence. }
  eexists _, spans. split; [reflexivity|]. split; [apply put_NoDup; auto|]. split; auto.
  intros k v. rewrite <- has_line_split.
  transitivity (map_get beq k (map_put beq (str "rustc") (zsum (map (fun x => ct_end (snd x) - ct_start (snd x) - ct_total (snd x)) (c_threads s))) (c_counters s)) = Some v).
  { split; [apply In_get; auto; apply put_NoDup; auto|apply get_In; auto]. }
  rewrite (get_put beq) by auto. rewrite GS. destruct (beq k (str "rustc")) eqn:E.
  - apply beq_true in E. split.
    + intros H. injection H as <-. left; auto.
    + intros [[_ ->]|[H _]]; auto. apply line_not_rustc in H. congruence.
  - apply beq_false in E. split.
    + intros G. right. apply I5; auto.
    + intros [[H _]|[H ->]]; [congruence|]. destruct (map_get beq k (c_counters s)) as [w|] eqn:G.
      * destruct (I5 _ _ G) as [_ ->]. reflexivity.
      * exfalso. eapply I6; eauto.
Qed.
Print Assumptions C30_lines.

(** Sum of self times over a set of distinct labels covering all intervals. *)
Lemma self_by_label (K : list bytes) : NoDup K -> forall L w, (forall e, In e L -> is_interval e = true -> In (ev_label e) K) ->
  zsum (map (fun k => self_from (labelled k) w L) K) = self_from (fun _ => true) w L.
Proof.
  intros HK L. induction L as [|p L IH]; intros w H; cbn [self_from].
  - clear. induction K; cbn [map zsum fold_right]; auto.
  - assert (E : zsum (map (fun k => (if labelled k p then ev_len p - children_time w p else 0) + self_from (labelled k) (w ++ [p]) L) K) =
      (if existsb (fun k => labelled k p) K then ev_len p - children_time w p else 0) + zsum (map (fun k => self_from (labelled k) (w ++ [p]) L) K)).
    { clear IH H. induction K as [|k K IHK]; cbn [map zsum fold_right existsb]; auto. inversion HK; subst. unfold zsum in *. rewrite IHK by auto.
      destruct (labelled k p) eqn:E; cbn [orb]; [|lia].
      assert (X : existsb (fun k => labelled k p) K = false).
      { destruct (existsb (fun k => labelled k p) K) eqn:Y; auto. apply existsb_exists in Y. destruct Y as (k' & Hk' & Y).
        unfold labelled in *. apply beq_true in E, Y. congruence. }
      rewrite X. lia. }
    rewrite E, IH by (intros; apply H; auto; right; auto). f_equal.
    destruct (is_interval p) eqn:EI.
    + assert (X : existsb (fun k => labelled k p) K = true).
      { apply existsb_exists. exists (ev_label p). split; [apply H; auto; left; auto|]. unfold labelled. apply beq_refl. }
      rewrite X. reflexivity.
    + assert (children_time w p = 0 /\ ev_len p = 0) as [-> ->]; [|destruct (existsb _ K); reflexivity].
      unfold is_interval, p_is_interval in EI. split.
      * clear E. induction w as [|e w IHw]; cbn [children_time]; auto. unfold encloses at 1.
        destruct (ev_payload p) as [[]|]; try discriminate; rewrite IHw; reflexivity.
      * unfold ev_len. destruct (ev_payload p) as [[]|]; try discriminate; reflexivity.
Qed.

(** All lines together account for exactly the time between the first start and the last end of
    each thread: no time is lost or counted twice. *)
Theorem C30_total : forall oc evs t0 W T m spans, nested_recording evs ->
  0 <= W -> NoDup T -> zlen T * W < 2 ^ 64 -> (forall t, thread_spans t evs <> [] -> In t T) ->
  (forall e a b, In e evs -> ev_payload e = Timestamp (Interval a b) -> t0 <= a /\ b <= t0 + W) ->
  collapse_stacks oc evs = Ok m -> all_thread_spans evs spans ->
  zsum (map snd m) = zsum (map (fun x => snd (snd x) - fst (snd x)) spans).
Proof.
  intros oc evs t0 W T m spans HN HW HT HTW HTT HWin HC HA.
  destruct (collapse_run oc t0 W T evs HN) as (s & Hs & [I1 I2 I3 I4 I5 I6]); [unfold bounded; auto|].
  destruct (C30_lines oc evs t0 W T HN HW HT HTW HTT HWin) as (m' & spans' & HC' & HD & HA' & HM).
  rewrite HC in HC'. injection HC' as <-.
  assert (ZP : forall (f : Z * (Z * Z) -> Z) l l', Permutation l l' -> zsum (map f l) = zsum (map f l')).
  { intros f l l' P. induction P; cbn [map zsum fold_right]; unfold zsum in *; lia. }
  assert (HU : Permutation spans spans').
  { destruct HA as (N1 & K1 & S1), HA' as (N2 & K2 & S2).
    assert (U : forall t a b a' b', spans_thread evs t a b -> spans_thread evs t a' b' -> (a, b) = (a', b')).
    { intros t a b a' b' ((y & Y) & (x & X) & B) ((y' & Y') & (x' & X') & B').
      apply B' in Y as ?. apply B' in X as ?. apply B in Y' as ?. apply B in X' as ?. f_equal; lia. }
    assert (HI : forall l l' : list (Z * (Z * Z)),
      (forall t, In t (map fst l) <-> thread_spans t evs <> []) -> (forall t, In t (map fst l') <-> thread_spans t evs <> []) ->
      (forall t a b, In (t, (a, b)) l -> spans_thread evs t a b) -> (forall t a b, In (t, (a, b)) l' -> spans_thread evs t a b) ->
      incl l l').
    { clear -U. intros l l' K1 K2 S1 S2 [t [a b]] Hin. assert (Ht : In t (map fst l')) by (apply K2, K1; apply (in_map fst) in Hin; auto).
      apply in_map_iff in Ht. destruct Ht as ([t' [a' b']] & E & Hin'). cbn [fst] in E. subst t'. rewrite (U t a b a' b'); auto. }
    apply NoDup_Permutation; [eapply NoDup_map_inv; eauto..|]. intros x. split; [apply (HI spans spans')|apply (HI spans' spans)]; auto. }
  rewrite (ZP _ _ _ HU).
  (* split off the rustc line *)
  assert (HR : In (str "rustc", zsum (map (fun x => snd (snd x) - fst (snd x) - top_level_time (fst x) evs) spans')) m) by (apply HM; auto).
  apply in_split in HR. destruct HR as (m1 & m2 & Em).
  assert (HS : zsum (map snd (m1 ++ m2)) = self_time_sum (fun _ => true) (with_lines evs)).
  { assert (HD' : NoDup (map fst (m1 ++ m2)) /\ ~ In (str "rustc") (map fst (m1 ++ m2))).
    { rewrite Em, map_app in HD. cbn [map fst] in HD. apply NoDup_remove in HD. rewrite map_app. tauto. }
    destruct HD' as [HD1 HD2]. unfold self_time_sum.
    assert (LK : forall k v, In (k, v) (m1 ++ m2) -> has_line (with_lines evs) k /\ v = self_time_sum (labelled k) (with_lines evs)).
    { intros k v Hin. assert (In (k, v) m) by (rewrite Em; apply in_or_app; apply in_app_or in Hin; cbn; tauto).
      apply HM in H. destruct H as [[-> _]|[H1 H2]]; [exfalso; apply HD2; apply (in_map fst) in Hin; auto|].
      split; auto. apply has_line_split; auto. }
    rewrite <- (self_by_label (map fst (m1 ++ m2)) HD1).
    - f_equal. rewrite map_map. apply map_ext_in. intros [k v] Hin. cbn [fst snd]. apply LK; auto.
    - intros e He Hi. assert (has_line (with_lines evs) (ev_label e)) by (exists e; auto).
      assert (Hin : In (ev_label e, self_time_sum (labelled (ev_label e)) (with_lines evs)) m).
      { apply HM. right. split; auto. apply has_line_split; auto. }
      rewrite Em in Hin. apply in_app_or in Hin. cbn [In] in Hin.
      destruct Hin as [Hin|[Hin|Hin]].
      + apply (in_map fst) in Hin. rewrite map_app. apply in_or_app; auto.
      + injection Hin as E _. apply line_not_rustc in H. congruence.
      + apply (in_map fst) in Hin. rewrite map_app. apply in_or_app; auto. }
  assert (ZA : forall a b, zsum (a ++ b) = zsum a + zsum b) by (intros a b; induction a as [|z a IHa]; cbn [app zsum fold_right]; unfold zsum in *; lia).
  rewrite Em. rewrite map_app, ZA in *. cbn [map snd zsum fold_right]. fold (zsum (map snd m2)).
  assert (NDS : NoDup (map fst spans')) by apply HA'.
  rewrite (self_total (map fst spans') NDS) in HS by (intros t; rewrite with_lines_spans; apply HA').
  rewrite map_map in HS.
  assert (G : zsum (map (fun x => snd (snd x) - fst (snd x) - top_level_time (fst x) evs) spans') +
    zsum (map (fun x => top_level_time (fst x) (with_lines evs)) spans') = zsum (map (fun x => snd (snd x) - fst (snd x)) spans')).
  { clear. induction spans' as [|x l IH]; cbn [map zsum fold_right]; auto. rewrite with_lines_top. unfold zsum in *. lia. }
  change (fold_right Z.add 0 (map snd m2)) with (zsum (map snd m2)). lia.
Qed.
Print Assumptions C30_total.

(** A concrete case (the repository's own test). *)
Definition ex_stacks : list event :=
  [mkEv (str "Query") (str "e1") [] (Timestamp (Interval 1 2)) 0;
   mkEv (str "Query") (str "e3") [] (Timestamp (Interval 5 7)) 0;
   mkEv (str "ArtifactSize") (str "e4") [] (Integer 100) 0;
   mkEv (str "Query") (str "e1") [] (Timestamp (Interval 4 8)) 0;
   mkEv (str "Query") (str "e2") [] (Timestamp (Interval 3 9)) 0].
Example ex_C30 : collapse_stacks true ex_stacks =
  Ok [(str "rustc;e2", 2); (str "rustc;e2;e1", 2); (str "rustc;e2;e1;e3", 2); (str "rustc;e1", 1); (str "rustc", 1)]
  /\ nested_recording ex_stacks.
Proof.
  split; [vm_compute; reflexivity|]. intros t. unfold ex_stacks. cbn [thread_spans ev_payload ev_thread].
  destruct (Z.eqb_spec 0 t); cbn [laminar]; unfold nests; cbn [fst snd]; repeat split; try lia; repeat (constructor; cbn [fst snd]; try lia).
Qed.

(** Outside nested recordings the claim fails: overlapping guards make the gap computation underflow
    (a panic, or without overflow checks a "rustc" line of almost [2^64] ns). *)
Definition overlap_stacks : list event :=
  [mkEv (str "Query") (str "a") [] (Timestamp (Interval 0 10)) 7;
   mkEv (str "Query") (str "b") [] (Timestamp (Interval 5 15)) 7].
Theorem C30_overlap_refuted :
  spans (grun (fun _ => None) [(GStart 1 1 1 7, 0); (GStart 2 1 2 7, 5); (GDrop 1, 10); (GDrop 2, 15)]) = thread_spans 7 overlap_stacks /\
  collapse_stacks true overlap_stacks = Panic /\
  collapse_stacks false overlap_stacks = Ok [(str "rustc;b", 10); (str "rustc;a", 10); (str "rustc", 2 ^ 64 - 5)].
Proof. split; [reflexivity|]. split; vm_compute; reflexivity. Qed.
Print Assumptions C30_overlap_refuted.
