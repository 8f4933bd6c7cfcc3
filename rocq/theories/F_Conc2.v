(** Consequences of the invariant: linearizability, progress, crash prefixes. *)
From Coq Require Import ZArith List Lia Bool.
From Verif Require Import M_Base F_Base M_Sink S_Sink F_Sink F_SinkSeq M_Conc S_Conc F_Conc.
Import ListNotations.
Open Scope Z_scope.

Lemma exec_app a b c : exec (a ++ b) c = exec b (exec a c).
Proof. unfold exec. apply fold_left_app. Qed.

Definition acts_good (sm : tag -> Prop) (acts : list action) : Prop :=
  forall tid o, In (Invoke tid o) acts -> op_good sm o.

Lemma cinv_exec sm acts : forall c, acts_good sm acts -> cinv sm c -> cinv sm (exec acts c).
Proof.
  induction acts as [|a acts IH]; intros c Hg Hc; simpl; auto.
  apply IH.
  - intros tid o Hin. apply (Hg tid). simpl; auto.
  - apply cinv_step; auto. intros tid o ->. apply (Hg tid). simpl; auto.
Qed.

Lemma acts_ok_good acts : acts_ok acts -> acts_good (fun _ => False) acts.
Proof. intros H tid o Hin. split; [eapply H; eauto|tauto]. Qed.

(** ** Quiescent states *)
Lemma idle_seq sm c : cinv sm c -> all_idle c ->
  exists g, erase g = hist c /\ sequentially_correct (lins g) /\
    (forall tid, protocol tid (proj tid g) TIdle) /\
    seq_inv (lin_ops g) (cmem c).
Proof.
  intros (pages & part & g & Hd & Hp & Hh & Hsc & Hth & Hfree & Hsh & Hcut) Hidle.
  exists g. split; auto. split; auto.
  assert (Hnone : forall x, holds_none (cmem c) x /\ protocol x (proj x g) TIdle).
  { intros x. destruct (Hth x) as (s & Hpr & Hti). rewrite Hidle in Hti.
    destruct s; simpl in Hti; [tauto|destruct Hti; discriminate|].
    destruct Hti as [[? ?]|(q & cur & ? & _)]; discriminate. }
  split; [intros; apply Hnone|].
  assert (Hl : forall t, tget t (slk (cmem c)) = None).
  { intros t. destruct (tget t (slk (cmem c))) as [x|] eqn:E; auto.
    destruct (Hnone x) as [[H _] _]. exfalso; eapply H; eauto. }
  assert (Hs : shl (cmem c) = None).
  { destruct (shl (cmem c)) as [x|] eqn:E; auto. destruct (Hnone x) as [[_ H] _]. congruence. }
  exists pages. rewrite Hd, (Hsh Hs), app_nil_r. repeat (split; auto).
  - apply tmap_ext. intros t. rewrite tget_tconst. auto.
Qed.

Lemma idle_drops sm c drops : cinv sm c -> all_idle c -> Forall is_drop drops -> (forall t, In (ODrop t) drops) ->
  exists g, erase g = hist c /\ sequentially_correct (lins g) /\
    (forall tid, protocol tid (proj tid g) TIdle) /\
    split_streams (disk (snd (run_ops drops (cmem c)))) = Ok (streams_of (fun t => written t (lin_ops g))).
Proof.
  intros Hc Hi Hd Hin. destruct (idle_seq sm c Hc Hi) as (g & Hh & Hsc & Hpr & Hinv).
  exists g. repeat (split; auto).
  pose proof (run_drops drops _ _ Hd Hinv) as Hb.
  destruct (run_ops_seq drops _ _ (drops_ok _ Hd) Hinv) as (m2 & n2 & Hr2 & Hi2 & _).
  rewrite Hr2 in *. simpl in *. rewrite (seq_inv_closed _ _ Hi2) by auto.
  f_equal. unfold streams_of. rewrite !written_app, !(written_drops _ drops), !app_nil_r by auto. reflexivity.
Qed.

(** ** Progress *)
(** a step of a busy thread that is not waiting *)
Lemma tick_step c tid p m' p' :
  thr c tid = Some p -> prog_step tid (cmem c) p = Some (m', p') ->
  cstep c (Tick tid) = mkConf m' (set_thr (thr c) tid (Some p')) (hist c).
Proof.
  intros Ht Hs. simpl. rewrite Ht. destruct p; try discriminate; rewrite Hs; auto.
Qed.

Lemma finish_okp t L Q F r : forall P cur p, okp t L Q F r P cur p ->
  forall c tid, thr c tid = Some p ->
    (match cur with None => shl (cmem c) = None | Some _ => True end) ->
    exists n c', exec (repeat (Tick tid) n) c = c' /\ thr c' tid = None /\
      (forall x, x <> tid -> thr c' x = thr c x) /\ shl (cmem c') = None /\
      slk (cmem c') = tset t None (slk (cmem c)).
Proof.
  assert (Hgo : forall c tid p m' p' P,
    thr c tid = Some p -> prog_step tid (cmem c) p = Some (m', p') -> slk m' = slk (cmem c) ->
    (exists n c', exec (repeat (Tick tid) n) (mkConf m' (set_thr (thr c) tid (Some p')) (hist c)) = c' /\
      thr c' tid = None /\
      (forall x, x <> tid -> thr c' x = set_thr (thr c) tid (Some p') x) /\
      shl (cmem c') = None /\ slk (cmem c') = P (slk m')) ->
    exists n c', exec (repeat (Tick tid) n) c = c' /\ thr c' tid = None /\
      (forall x, x <> tid -> thr c' x = thr c x) /\ shl (cmem c') = None /\
      slk (cmem c') = P (slk (cmem c))).
  { intros c tid p m' p' P Ht Hs El (n & c' & E & H1 & H2 & H3 & H4).
    exists (S n), c'. cbn [repeat exec fold_left]. rewrite (tick_step _ _ _ _ _ Ht Hs).
    split; [exact E|]. split; auto. split; [|rewrite H4, El; auto].
    intros x Hx. rewrite H2 by auto. apply set_thr_other; auto. }
  induction 1 as [P s H1 H2 H3 H4|P pl k H IH|P pl part bs k Hpre H IH|P pl part k Hpart Hpok HQ H IH|P k H IH];
    intros c tid Ht Hcur.
  - exists 2%nat. eexists. split; [reflexivity|]. cbn [repeat exec fold_left].
    rewrite (tick_step c tid _ _ _ Ht eq_refl). cbn [cstep thr]. rewrite set_thr_same. simpl.
    split; [apply set_thr_same|]. split; [|auto].
    intros x Hx. rewrite !set_thr_other; auto.
  - eapply (Hgo c tid _ _ _ (tset t None)); [exact Ht|simpl; rewrite Hcur; reflexivity|reflexivity|].
    apply IH; simpl; auto. apply set_thr_same.
  - eapply (Hgo c tid _ _ _ (tset t None)); [exact Ht|reflexivity|reflexivity|].
    apply IH; simpl; auto. apply set_thr_same.
  - eapply (Hgo c tid _ _ _ (tset t None)); [exact Ht|reflexivity|reflexivity|].
    apply IH; simpl; auto. apply set_thr_same.
  - eapply (Hgo c tid _ _ _ (tset t None)); [exact Ht|reflexivity|reflexivity|].
    apply IH; simpl; auto. apply set_thr_same.
Qed.

Lemma ticks_repeat tid n : ticks (repeat (Tick tid) n).
Proof. apply Forall_forall. intros a H. apply repeat_spec in H. eauto. Qed.
Lemma ticks_good sm l : ticks l -> acts_good sm l.
Proof.
  intros H tid o Hin. unfold ticks in H. rewrite Forall_forall in H. apply H in Hin.
  destruct Hin as [? ?]; discriminate.
Qed.

Definition fewer (c c' : conf) : Prop :=
  (forall x, thr c' x = thr c x \/ thr c' x = None) /\
  (forall t, tget t (slk (cmem c')) = tget t (slk (cmem c)) \/ tget t (slk (cmem c')) = None) /\
  shl (cmem c') = None.

Lemma fewer_trans a b c : fewer a b -> fewer b c -> fewer a c.
Proof.
  intros (A1 & A2 & A3) (B1 & B2 & B3). split; [|split]; auto.
  - intros x. destruct (B1 x) as [->|]; auto.
  - intros t. destruct (B2 t) as [->|]; auto.
Qed.

(** a thread that holds a lock or whose lock is free can finish when the shared lock allows it *)
Lemma finish_thread sm c tid : cinv sm c ->
  (shl (cmem c) = None \/ shl (cmem c) = Some tid) ->
  ((exists t, tget t (slk (cmem c)) = Some tid) \/ (forall t, tget t (slk (cmem c)) = None)) ->
  exists l, ticks l /\ fewer c (exec l c) /\ thr (exec l c) tid = None /\
    (forall t, tget t (slk (cmem c)) = Some tid -> tget t (slk (cmem (exec l c))) = None).
Proof.
  intros Hc Hs Hlk.
  destruct Hc as (pages & part & g & Hd & Hp & Hh & Hsc & Hth & Hfree & Hsh & Hcut).
  destruct (Hth tid) as (s & Hpr & Hti).
  assert (Hshl : holds_none (cmem c) tid -> shl (cmem c) = None).
  { intros [_ H]. destruct Hs; auto. congruence. }
  destruct s as [|o|o r]; simpl in Hti.
  - destruct Hti as [Ht Hno]. exists []. simpl. split; [constructor|]. split; [|split; auto].
    + repeat split; auto.
    + intros t E. destruct Hno as [H _]. exfalso; eapply H; eauto.
  - destruct Hti as (Ht & [Hok Hun] & Hno).
    assert (Hall : forall t, tget t (slk (cmem c)) = None).
    { destruct Hlk as [[t E]|]; auto. destruct Hno as [H _]. exfalso; eapply H; eauto. }
    destruct (op_prog_starts o Hok) as (k & Ek & HK).
    specialize (HK (stream (op_tag o) pages) (written (op_tag o) (lin_ops g)) (tget (op_tag o) (sinks (cmem c)))
                  (fun _ => True) (Hfree _ (Hall _)) (or_intror (fun _ => I)) (fun _ => I)).
    rewrite Ek in Ht.
    set (c1 := mkConf (mkMem (disk (cmem c)) (sinks (cmem c)) (tset (op_tag o) (Some tid) (slk (cmem c))) (shl (cmem c)))
                      (set_thr (thr c) tid (Some (k (tget (op_tag o) (sinks (cmem c)))))) (hist c)).
    assert (E1 : cstep c (Tick tid) = c1).
    { eapply tick_step; [exact Ht|]. simpl. rewrite Hall. reflexivity. }
    destruct (finish_okp _ _ _ _ _ _ _ _ HK c1 tid) as (n & c' & E & F1 & F2 & F3 & F4).
    + simpl. apply set_thr_same.
    + simpl. apply Hshl; auto.
    + exists (Tick tid :: repeat (Tick tid) n).
      assert (Ex : exec (Tick tid :: repeat (Tick tid) n) c = c').
      { change (exec (repeat (Tick tid) n) (cstep c (Tick tid)) = c'). rewrite E1. exact E. }
      rewrite Ex. split; [constructor; [eauto|apply ticks_repeat]|].
      split; [|split; auto].
      * split; [|split; auto].
        -- intros x. destruct (Z.eq_dec x tid) as [->|Hne]; auto. left. rewrite F2 by auto. simpl.
           apply set_thr_other; auto.
        -- intros t. rewrite F4. simpl. destruct (tag_eq_dec t (op_tag o)) as [->|Hn].
           ++ rewrite tget_tset_same; auto.
           ++ rewrite !tget_tset_other; auto.
      * intros t Et. rewrite Hall in Et. discriminate.
  - destruct Hti as [[Ht Hno]|(q & cur & Ht & Hl & Hlu & Hokp & Hcur)].
    + exists [Tick tid]. split; [apply (ticks_repeat tid 1)|]. simpl. rewrite Ht. simpl.
      split; [|split].
      * split; [|split; simpl; auto]. intros x. simpl. unfold set_thr. destruct (x =? tid); auto.
      * apply set_thr_same.
      * intros t E. destruct Hno as [H _]. exfalso; eapply H; eauto.
    + destruct (finish_okp _ _ _ _ _ _ _ _ Hokp c tid Ht) as (n & c' & E & F1 & F2 & F3 & F4).
      { destruct cur; auto. destruct Hs; congruence. }
      exists (repeat (Tick tid) n). rewrite E. split; [apply ticks_repeat|]. split; [|split; auto].
      * split; [|split; auto].
        -- intros x. destruct (Z.eq_dec x tid) as [->|Hne]; auto.
        -- intros t. rewrite F4. destruct (tag_eq_dec t (op_tag o)) as [->|Hn].
           ++ rewrite tget_tset_same; auto.
           ++ rewrite !tget_tset_other; auto.
      * intros t Et. apply Hlu in Et. subst t. rewrite F4, tget_tset_same. auto.
Qed.

Lemma shl_holder_has_sink sm c tid : cinv sm c -> shl (cmem c) = Some tid ->
  exists t, tget t (slk (cmem c)) = Some tid.
Proof.
  intros (pages & part & g & Hd & Hp & Hh & Hsc & Hth & Hfree & Hsh & Hcut) Hs.
  destruct (Hth tid) as (s & Hpr & Hti). destruct s as [|o|o r]; simpl in Hti.
  - destruct Hti as (_ & _ & H). congruence.
  - destruct Hti as (_ & _ & _ & H). congruence.
  - destruct Hti as [(_ & _ & H)|(q & cur & Ht & Hl & _)]; [congruence|eauto].
Qed.

Lemma free_shared sm c : cinv sm c -> exists l, ticks l /\ fewer c (exec l c).
Proof.
  intros Hc. destruct (shl (cmem c)) as [tid|] eqn:E.
  - destruct (shl_holder_has_sink _ _ _ Hc E) as [t Ht].
    destruct (finish_thread sm c tid Hc) as (l & H1 & H2 & _); eauto.
  - exists []. split; [constructor|]. simpl. repeat split; auto.
Qed.

Lemma free_sink sm c t : cinv sm c -> shl (cmem c) = None ->
  exists l, ticks l /\ fewer c (exec l c) /\ tget t (slk (cmem (exec l c))) = None.
Proof.
  intros Hc Hs. destruct (tget t (slk (cmem c))) as [tid|] eqn:E.
  - destruct (finish_thread sm c tid Hc) as (l & H1 & H2 & H3 & H4); eauto.
  - exists []. split; [constructor|]. simpl. repeat split; auto.
Qed.

Lemma finish_list sm tids : forall c, cinv sm c -> shl (cmem c) = None ->
  (forall t, tget t (slk (cmem c)) = None) ->
  exists l, ticks l /\ fewer c (exec l c) /\ forall x, In x tids -> thr (exec l c) x = None.
Proof.
  induction tids as [|x tids IH]; intros c Hc Hs Hl.
  - exists []. split; [constructor|]. split; [|intros ? []]. simpl. repeat split; auto.
  - destruct (finish_thread sm c x Hc) as (l1 & H1 & H2 & H3 & _); auto.
    assert (Hc1 : cinv sm (exec l1 c)) by (apply cinv_exec; auto; apply ticks_good; auto).
    destruct H2 as (F1 & F2 & F3).
    destruct (IH (exec l1 c)) as (l2 & G1 & G2 & G3); auto.
    { intros t. destruct (F2 t) as [->|]; auto. }
    exists (l1 ++ l2). rewrite exec_app. split; [apply Forall_app; auto|].
    split.
    + eapply fewer_trans; [|exact G2]. split; auto.
    + intros y [->|Hy]; auto. destruct G2 as (K1 & _). destruct (K1 y) as [->|]; auto.
Qed.

Lemma busy_tids acts : exists tids, forall x, thr (exec acts conf0) x <> None -> In x tids.
Proof.
  induction acts as [|a acts IH] using rev_ind.
  - exists []. simpl. congruence.
  - destruct IH as [tids IH]. rewrite exec_app. set (c := exec acts conf0) in *.
    assert (Hst : forall tid v x, set_thr (thr c) tid v x <> None -> In x (tid :: tids)).
    { intros tid v x. unfold set_thr. destruct (Z.eqb_spec x tid); simpl; auto. }
    destruct a as [tid o|tid]; exists (tid :: tids); intros x; simpl.
    + destruct (thr c tid); simpl; [intros; right; auto|apply Hst].
    + destruct (thr c tid) as [p|]; [|intros; right; auto].
      destruct p; simpl; eauto; try (apply Hst).
      * destruct (tget t (slk (cmem c))); simpl; [intros; right; auto|apply Hst].
      * destruct (shl (cmem c)); simpl; [intros; right; auto|apply Hst].
Qed.

Lemma completion acts : acts_ok acts ->
  exists l, ticks l /\ all_idle (exec (acts ++ l) conf0).
Proof.
  intros Hok. set (sm := fun _ : tag => False).
  assert (Hc : cinv sm (exec acts conf0)) by (apply cinv_exec; [apply acts_ok_good; auto|apply cinv0]).
  destruct (busy_tids acts) as [tids Hbusy]. set (c := exec acts conf0) in *.
  destruct (free_shared sm c Hc) as (l0 & T0 & F0).
  assert (C0 : cinv sm (exec l0 c)) by (apply cinv_exec; auto; apply ticks_good; auto).
  assert (exists l1, ticks l1 /\ fewer c (exec l1 c) /\ forall t, tget t (slk (cmem (exec l1 c))) = None) as (l1 & T1 & F1 & N1).
  { assert (Hgo : forall c0 t, cinv sm c0 -> fewer c c0 ->
        exists l, ticks l /\ fewer c (exec l c0) /\ cinv sm (exec l c0) /\ tget t (slk (cmem (exec l c0))) = None
          /\ forall t', tget t' (slk (cmem c0)) = None -> tget t' (slk (cmem (exec l c0))) = None).
    { intros c0 t Hc0 Hf. destruct (free_sink sm c0 t Hc0) as (l & A & B & D); [apply Hf|].
      exists l. split; auto. split; [eapply fewer_trans; eauto|].
      split; [apply cinv_exec; auto; apply ticks_good; auto|]. split; auto.
      intros t' E. destruct B as (_ & B & _). destruct (B t') as [->|]; auto. }
    destruct (Hgo _ TEvents C0 F0) as (l1 & A1 & B1 & D1 & E1 & G1).
    destruct (Hgo _ TStrData D1 B1) as (l2 & A2 & B2 & D2 & E2 & G2).
    destruct (Hgo _ TStrIndex D2 B2) as (l3 & A3 & B3 & D3 & E3 & G3).
    exists (l0 ++ l1 ++ l2 ++ l3). rewrite !exec_app.
    split; [repeat (apply Forall_app; split; auto)|]. split; auto. intros []; auto. }
  destruct (finish_list sm tids (exec l1 c)) as (l2 & T2 & F2 & N2); auto.
  { apply cinv_exec; auto; apply ticks_good; auto. }
  { apply F1. }
  exists (l1 ++ l2). split; [apply Forall_app; auto|].
  rewrite !exec_app. fold c. intros x. destruct F2 as (K & _). destruct F1 as (K1 & _).
  destruct (K x) as [E|]; auto. rewrite E. destruct (K1 x) as [E1|]; auto.
  destruct (thr c x) eqn:Ex; [|congruence].
  rewrite <- E. apply N2. apply Hbusy. congruence.
Qed.

(** ** Crash prefixes *)
Lemma okp_part t L Q F r P cur p : okp t L Q F r P cur p ->
  match cur with
  | None => True
  | Some (pl, part) =>
      (prefix part (enc_page (t, pl)) /\ page_ok (t, pl) /\ Q (P ++ pl)) \/ part = []
  end.
Proof.
  induction 1; auto.
  - destruct IHokp as [(A & B & C)|E].
    + left. split; auto. destruct H as [x ->]. exists (bs ++ x). rewrite app_assoc; auto.
    + right. apply app_eq_nil in E. tauto.
  - left. subst part. split; [exists []; rewrite app_nil_r; auto|]. auto.
Qed.

Lemma prefix_pages ps : forall b, Forall page_ok ps -> prefix b (enc_pages ps) ->
  exists ps1 ps2 rest, ps = ps1 ++ ps2 /\ b = enc_pages ps1 ++ rest /\
    (rest = [] \/ exists p ps3, ps2 = p :: ps3 /\ prefix rest (enc_page p) /\ zlen rest < zlen (enc_page p)).
Proof.
  induction ps as [|p ps IH]; intros b Hok [c E].
  - exists [], [], []. unfold enc_pages in E; simpl in E. symmetry in E. apply app_eq_nil in E.
    destruct E as [-> _]. simpl. auto.
  - unfold enc_pages in E. cbn [map concat] in E. fold (enc_pages ps) in E.
    inversion Hok; subst.
    destruct (Z_lt_le_dec (zlen b) (zlen (enc_page p))) as [Hlt|Hge].
    + exists [], (p :: ps), b. split; auto. split; auto. right. exists p, ps. split; auto. split; auto.
      exists (zdrop (zlen b) (enc_page p)).
      rewrite <- (ztake_zdrop (zlen b) (enc_page p)) at 1. f_equal.
      apply (f_equal (ztake (zlen b))) in E. rewrite ztake_app in E.
      rewrite ztake_app_le in E; auto. pose proof (zlen_nonneg b); lia.
    + assert (Hb : b = enc_page p ++ zdrop (zlen (enc_page p)) b).
      { rewrite <- (ztake_zdrop (zlen (enc_page p)) b) at 1. f_equal.
        apply (f_equal (ztake (zlen (enc_page p)))) in E. rewrite ztake_app in E.
        rewrite ztake_app_le in E; auto. pose proof (zlen_nonneg (enc_page p)); lia. }
      destruct (IH (zdrop (zlen (enc_page p)) b)) as (ps1 & ps2 & rest & E1 & E2 & E3); auto.
      { exists c. rewrite Hb in E. rewrite <- app_assoc in E. apply app_inv_head in E. auto. }
      exists (p :: ps1), ps2, rest. split; [simpl; congruence|]. split; auto.
      rewrite Hb, E2. unfold enc_pages. simpl. rewrite app_assoc. auto.
Qed.

(** The pages on disk, extended by the page being written if any bytes of it are there. *)
Lemma cinv_disk sm c : cinv sm c ->
  exists g pages rest,
    erase g = hist c /\ sequentially_correct (lins g) /\ (forall tid, exists s, protocol tid (proj tid g) s) /\
    enc_pages pages = disk (cmem c) ++ rest /\ Forall page_ok pages /\
    (forall t, prefix (stream t pages) (written t (lin_ops g))) /\
    (forall p1 p2 t, pages = p1 ++ p2 -> sm t -> cut g t (stream t p1)).
Proof.
  intros (pages & part & g & Hd & Hp & Hh & Hsc & Hth & Hfree & Hsh & Hcut & _).
  assert (Hpre : forall t, prefix (stream t pages) (written t (lin_ops g))).
  { intros t. destruct (tget t (slk (cmem c))) as [x|] eqn:E.
    - destruct (Hth x) as (s & Hpr & Hti). destruct s as [|o|o r]; simpl in Hti.
      + destruct Hti as (_ & H & _). exfalso; eapply H; eauto.
      + destruct Hti as (_ & _ & H & _). exfalso; eapply H; eauto.
      + destruct Hti as [(_ & H & _)|(q & cur & Ht & Hl & Hlu & Hokp & Hcur)].
        * exfalso; eapply H; eauto.
        * apply Hlu in E. subst t. apply okp_prefix in Hokp. destruct Hokp as [z ->].
          rewrite <- app_assoc. eexists; reflexivity.
    - destruct (Hfree t E) as (<- & _). eexists; reflexivity. }
  assert (Hpr : forall tid, exists s, protocol tid (proj tid g) s)
    by (intros tid; destruct (Hth tid) as (s & ? & _); eauto).
  assert (Hcase : part = [] \/ exists t pl, page_ok (t, pl) /\ prefix part (enc_page (t, pl)) /\
            prefix (stream t pages ++ pl) (written t (lin_ops g)) /\ (sm t -> cut g t (stream t pages ++ pl))).
  { destruct (shl (cmem c)) as [x|] eqn:Es; [|left; auto].
    destruct (Hth x) as (s & Hpr' & Hti). destruct s as [|o|o r]; simpl in Hti.
    - destruct Hti as (_ & _ & H). congruence.
    - destruct Hti as (_ & _ & _ & H). congruence.
    - destruct Hti as [(_ & _ & H)|(q & cur & Ht & Hl & Hlu & Hokp & Hcur)]; [congruence|].
      destruct cur as [[pl part']|]; [|congruence]. destruct Hcur as [_ ->].
      destruct (okp_part _ _ _ _ _ _ _ _ Hokp) as [(A & B & D)| ->]; auto.
      right. exists (op_tag o), pl. split; auto. split; auto. split; auto.
      apply okp_prefix in Hokp. auto. }
  destruct Hcase as [->|(t & pl & A & B & D & E)].
  - exists g, pages, []. rewrite !app_nil_r in *. repeat (split; auto).
  - destruct B as [rest B]. exists g, (pages ++ [(t, pl)]), rest.
    split; auto. split; auto. split; auto.
    split; [rewrite enc_pages_snoc, Hd, B, app_assoc; auto|].
    split; [apply Forall_app; auto|]. split.
    + intros t'. rewrite stream_snoc. destruct (tag_eqb t t') eqn:Et.
      * apply tag_eqb_eq in Et; subst t'. auto.
      * rewrite app_nil_r; auto.
    + intros p1 p2 t' Ep Hs. destruct (exists_last_or p2) as [->|(p2' & x & ->)].
      * rewrite app_nil_r in Ep. subst p1. rewrite stream_snoc. destruct (tag_eqb t t') eqn:Et.
        -- apply tag_eqb_eq in Et; subst t'. auto.
        -- rewrite app_nil_r. apply (Hcut pages []); auto. rewrite app_nil_r; auto.
      * rewrite app_assoc in Ep. apply app_inj_tail in Ep. destruct Ep as [Ep _]. eauto.
Qed.

Lemma crash sm acts b : acts_good sm acts -> prefix b (disk (cmem (exec acts conf0))) ->
  exists g pages rest,
    erase g = hist (exec acts conf0) /\ sequentially_correct (lins g) /\
    (forall tid, exists s, protocol tid (proj tid g) s) /\
    b = enc_pages pages ++ rest /\ Forall page_ok pages /\
    (rest = [] \/ exists p, page_ok p /\ prefix rest (enc_page p) /\ zlen rest < zlen (enc_page p)) /\
    (forall t, prefix (stream t pages) (written t (lin_ops g))) /\
    (forall t, sm t -> page_boundary t (lin_ops g) (stream t pages)).
Proof.
  intros Hg [z Hz].
  assert (Hc : cinv sm (exec acts conf0)) by (apply cinv_exec; [auto|apply cinv0]).
  destruct (cinv_disk sm _ Hc) as (g & pages & rest & H1 & H2 & H3 & H4 & H5 & H6 & H7).
  destruct (prefix_pages pages b H5) as (ps1 & ps2 & r & E1 & E2 & E3).
  { exists (z ++ rest). rewrite H4, Hz, app_assoc. auto. }
  exists g, ps1, r. split; auto. split; auto. split; auto. split; auto.
  subst pages. apply Forall_app in H5. destruct H5 as [H5a H5b].
  split; auto. split; [|split].
  - destruct E3 as [->|(p & ps3 & -> & Hp & Hl)]; auto. right. exists p.
    inversion H5b; subst. auto.
  - intros t. destruct (H6 t) as [x Hx]. rewrite stream_app, <- app_assoc in Hx. eexists; exact Hx.
  - intros t Hs. exact (H7 ps1 ps2 t eq_refl Hs).
Qed.
