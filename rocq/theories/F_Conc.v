(** Concurrent use of the sinks: the invariant of all schedules. *)
From Coq Require Import ZArith List Lia Bool.
From Verif Require Import M_Base F_Base M_Sink S_Sink F_Sink F_SinkSeq M_Conc S_Conc.
Import ListNotations.
Open Scope Z_scope.

Lemma erase_app a b : erase (a ++ b) = erase a ++ erase b.
Proof. induction a as [|[] a IH]; simpl; rewrite ?IH; auto. Qed.
Lemma lins_app a b : lins (a ++ b) = lins a ++ lins b.
Proof. induction a as [|[] a IH]; simpl; rewrite ?IH; auto. Qed.
Lemma lin_ops_app a b : lin_ops (a ++ b) = lin_ops a ++ lin_ops b.
Proof. unfold lin_ops. rewrite lins_app, map_app. auto. Qed.
Lemma proj_snoc tid g e : proj tid (g ++ [e]) = proj tid g ++ (if gev_tid e =? tid then [e] else []).
Proof. unfold proj. rewrite filter_app. simpl. destruct (gev_tid e =? tid); auto. Qed.

Definition cut (g : list gev) (t : tag) (P : bytes) : Prop := page_boundary t (lin_ops g) P.

Lemma cut_app g g' t P : cut g t P -> cut (g ++ g') t P.
Proof.
  intros [->|(l1 & o & l2 & E & Hr)]; [left; auto|right].
  exists l1, o, (l2 ++ lin_ops g'). rewrite lin_ops_app, E, <- app_assoc. auto.
Qed.

Definition holds_none (m : mem) (tid : Z) : Prop :=
  (forall t, tget t (slk m) <> Some tid) /\ shl m <> Some tid.

Section Inv.
Variable sm : tag -> Prop.

Definition op_good (o : op) : Prop := op_ok o /\ (sm (op_tag o) -> op_unsplit o).

Definition tinv (m : mem) (pages : list page) (part : bytes) (g : list gev) (tid : Z)
  (s : tstate) (p : option prog) : Prop :=
  match s with
  | TIdle => p = None /\ holds_none m tid
  | TCalled o => p = Some (op_prog o) /\ op_good o /\ holds_none m tid
  | TDone o r =>
      (p = Some (Done r) /\ holds_none m tid) \/
      (exists q cur, p = Some q /\ tget (op_tag o) (slk m) = Some tid /\
         (forall t, tget t (slk m) = Some tid -> t = op_tag o) /\
         okp (op_tag o) (written (op_tag o) (lin_ops g))
             (fun P => sm (op_tag o) -> cut g (op_tag o) P) (op_fin o) r
             (stream (op_tag o) pages) cur q /\
         match cur with
         | None => shl m <> Some tid
         | Some (_, part') => shl m = Some tid /\ part' = part
         end)
  end.

Lemma exists_last_or {A} (l : list A) : l = [] \/ exists l' x, l = l' ++ [x].
Proof. destruct l as [|a l]; auto. right. destruct (@exists_last _ (a :: l)) as (l' & x & E); [discriminate|eauto]. Qed.

(** A flushing call that has taken effect still holds its sink, or its stream is on disk up to there. *)
Definition flushed_inv (m : mem) (pages : list page) (g : list gev) : Prop :=
  forall g1 tid o r g2, g = g1 ++ GLin tid o r :: g2 -> op_flushes o ->
    (tget (op_tag o) (slk m) = Some tid /\ (forall e, In e g2 -> gev_tid e <> tid)) \/
    prefix (written (op_tag o) (lin_ops g1)) (stream (op_tag o) pages).

Lemma flushed_mono m m' pages pages' g : flushed_inv m pages g ->
  (forall t, prefix (stream t pages) (stream t pages')) ->
  (forall t tid, tget t (slk m) = Some tid -> tget t (slk m') = Some tid \/
     (forall o g1 r g2, g = g1 ++ GLin tid o r :: g2 -> op_flushes o -> op_tag o = t ->
        (forall e, In e g2 -> gev_tid e <> tid) -> stream t pages' = written t (lin_ops g))) ->
  flushed_inv m' pages' g.
Proof.
  intros H Hp Hl g1 tid o r g2 E Hf. destruct (H g1 tid o r g2 E Hf) as [[A B]|A].
  - destruct (Hl _ _ A) as [L|L]; [left; auto|right].
    rewrite (L o g1 r g2 E Hf eq_refl B), E, lin_ops_app. rewrite written_app. eexists; reflexivity.
  - right. destruct A as [a A], (Hp (op_tag o)) as [b B]. exists (a ++ b). rewrite B, A, app_assoc. reflexivity.
Qed.

Lemma flushed_snoc m m' pages g e : flushed_inv m pages g ->
  (forall t tid, tget t (slk m) = Some tid -> tid <> gev_tid e /\ tget t (slk m') = Some tid) ->
  (forall tid o r, e = GLin tid o r -> tget (op_tag o) (slk m') = Some tid) ->
  flushed_inv m' pages (g ++ [e]).
Proof.
  intros H Hl He g1 tid o r g2 E Hf. destruct (exists_last_or g2) as [->|(g2' & x & ->)].
  - apply app_inj_tail in E. destruct E as [<- E]. left. split; [eapply He; eauto|]. intros x [].
  - rewrite app_comm_cons, app_assoc in E. apply app_inj_tail in E. destruct E as [E <-].
    destruct (H _ _ _ _ _ E Hf) as [[A B]|A]; [left|right; exact A].
    destruct (Hl _ _ A) as [C D]. split; auto. intros y Hy. apply in_app_or in Hy. destruct Hy as [Hy|[<-|[]]]; auto.
Qed.

Lemma proj_app tid a b : proj tid (a ++ b) = proj tid a ++ proj tid b.
Proof. unfold proj. apply filter_app. Qed.
Lemma proj_none tid g : (forall e, In e g -> gev_tid e <> tid) -> proj tid g = [].
Proof.
  induction g as [|e g IH]; intros H; [reflexivity|]. cbn. destruct (Z.eqb_spec (gev_tid e) tid) as [E|_].
  - exfalso. exact (H e (or_introl eq_refl) E).
  - apply IH. intros x Hx. apply H. right. exact Hx.
Qed.
Lemma protocol_last tid g1 o' r' g2 o r :
  protocol tid (proj tid (g1 ++ GLin tid o' r' :: g2)) (TDone o r) ->
  (forall e, In e g2 -> gev_tid e <> tid) -> o' = o.
Proof.
  intros H Hn. rewrite proj_app in H. cbn [proj filter gev_tid] in H. rewrite Z.eqb_refl in H.
  change (filter (fun e => gev_tid e =? tid) g2) with (proj tid g2) in H. rewrite (proj_none tid g2 Hn) in H.
  inversion H as [| |l o0 r0 H0 E|]. apply app_inj_tail in E. destruct E as [_ E]. congruence.
Qed.

Definition cinv (c : conf) : Prop :=
  exists pages part g,
    disk (cmem c) = enc_pages pages ++ part /\
    Forall page_ok pages /\
    erase g = hist c /\
    sequentially_correct (lins g) /\
    (forall tid, exists s, protocol tid (proj tid g) s /\
                           tinv (cmem c) pages part g tid s (thr c tid)) /\
    (forall t, tget t (slk (cmem c)) = None ->
       sink_ok (stream t pages) (written t (lin_ops g)) (tget t (sinks (cmem c)))) /\
    (shl (cmem c) = None -> part = []) /\
    (forall p1 p2 t, pages = p1 ++ p2 -> sm t -> cut g t (stream t p1)) /\
    flushed_inv (cmem c) pages g.

Lemma cinv0 : cinv conf0.
Proof.
  exists [], [], []. simpl. repeat split; auto.
  - intros l1 o r l2 E. destruct l1; discriminate.
  - intros tid. exists TIdle. split; [constructor|]. repeat split; auto.
    + intros []; discriminate.
    + discriminate.
  - destruct t; reflexivity.
  - destruct t; reflexivity.
  - unfold zlen, MAX_PAGE_SIZE; destruct t; simpl; lia.
  - intros p1 p2 t E Hs. left. destruct p1; [auto|discriminate].
  - intros g1 tid o r g2 E. destruct g1; discriminate.
Qed.

Lemma set_thr_same f tid v : set_thr f tid v tid = v.
Proof. unfold set_thr. rewrite Z.eqb_refl. auto. Qed.
Lemma set_thr_other f tid v x : x <> tid -> set_thr f tid v x = f x.
Proof. unfold set_thr. destruct (Z.eqb_spec x tid); congruence. Qed.

(** facts about a thread are preserved when another thread acts *)
Lemma tinv_frame m m' pages pages' part part' g g' tid s p :
  tinv m pages part g tid s p ->
  (forall t, tget t (slk m') = Some tid <-> tget t (slk m) = Some tid) ->
  (shl m' = Some tid <-> shl m = Some tid) ->
  (shl m = Some tid -> part' = part) ->
  (forall t, tget t (slk m) = Some tid -> stream t pages' = stream t pages) ->
  (forall t, tget t (slk m) = Some tid -> written t (lin_ops g') = written t (lin_ops g)) ->
  (forall t P, cut g t P -> cut g' t P) ->
  tinv m' pages' part' g' tid s p.
Proof.
  intros H Hslk Hshl Hpart Hst Hwr Hcut.
  assert (HN : holds_none m tid -> holds_none m' tid).
  { intros [H1 H2]. split; [intros t Ht; apply (H1 t), Hslk; auto|intros E; apply H2, Hshl; auto]. }
  destruct s; simpl in *.
  - destruct H; auto.
  - destruct H as (? & ? & ?); auto.
  - destruct H as [[H1 H2]|(q & cur & Hq & Hl & Hlu & Hok & Hcur)]; [left; auto|right].
    exists q, cur. split; auto. split; [apply Hslk; auto|]. split; [intros t Ht; apply Hlu, Hslk; auto|].
    split.
    + rewrite Hst, Hwr by auto. eapply okp_mono; [|exact Hok]. simpl. auto.
    + destruct cur as [[pl part0]|].
      * destruct Hcur as [E ->]. split; [apply Hshl; auto|]. symmetry; auto.
      * intros E; apply Hcur, Hshl; auto.
Qed.

(** [op_unsplit] is decidable *)
Lemma unsplit_dec o : op_unsplit o \/ ~ op_unsplit o.
Proof. destruct o; simpl; try tauto; lia. Qed.

Lemma cinv_step c a :
  (forall tid o, a = Invoke tid o -> op_good o) -> cinv c -> cinv (cstep c a).
Proof.
  intros Hgood (pages & part & g & Hd & Hp & Hh & Hsc & Hth & Hfree & Hsh & Hcut & Hfl).
  destruct a as [tid o|tid].
  - (* a new call *)
    simpl. destruct (thr c tid) eqn:Et.
    { exists pages, part, g. repeat (split; auto). }
    specialize (Hgood tid o eq_refl).
    exists pages, part, (g ++ [GInv tid o]). simpl.
    assert (El : lin_ops (g ++ [GInv tid o]) = lin_ops g) by (rewrite lin_ops_app; simpl; apply app_nil_r).
    split; auto. split; auto. split; [rewrite erase_app, Hh; auto|].
    split; [rewrite lins_app; simpl; rewrite app_nil_r; auto|].
    split; [|split; [|split]].
    + intros x. destruct (Z.eq_dec x tid) as [->|Hne].
      * destruct (Hth tid) as (s & Hpr & Hti). rewrite Et in Hti.
        destruct s; simpl in Hti.
        -- exists (TCalled o). split.
           ++ rewrite proj_snoc. simpl. rewrite Z.eqb_refl. constructor; auto.
           ++ simpl. rewrite set_thr_same. tauto.
        -- destruct Hti; discriminate.
        -- destruct Hti as [[? ?]|(q & cur & ? & _)]; discriminate.
      * destruct (Hth x) as (s & Hpr & Hti). exists s. split.
        -- rewrite proj_snoc. simpl. destruct (Z.eqb_spec tid x); [congruence|]. rewrite app_nil_r; auto.
        -- rewrite set_thr_other by auto. eapply tinv_frame; [exact Hti| .. ]; auto; try tauto.
           ++ intros; rewrite El; auto.
           ++ intros; apply cut_app; auto.
    + rewrite El. auto.
    + auto.
    + split; [intros p1 p2 t E Hs; apply cut_app; eauto|]. eapply flushed_snoc; [exact Hfl| |discriminate].
      cbn [gev_tid cmem]. intros t x Hx. split; auto. intros ->. destruct (Hth tid) as (s & Hpr & Hti). rewrite Et in Hti.
      destruct s; simpl in Hti; [apply (proj1 (proj2 Hti)) in Hx; auto|destruct Hti; discriminate|].
      destruct Hti as [[? ?]|(q & cur & ? & _)]; discriminate.
  - simpl. destruct (thr c tid) as [p|] eqn:Et.
    2:{ exists pages, part, g. repeat (split; auto). }
    destruct (Hth tid) as (s & Hpr & Hti). rewrite Et in Hti.
    assert (Hsame : cinv c) by (exists pages, part, g; repeat (split; auto)).
    destruct s as [|o|o r]; simpl in Hti.
    { destruct Hti; discriminate. }
    { (* taking the sink lock *)
      destruct Hti as (Ep & [Hok Hun] & Hno1 & Hno2). inversion Ep; subst p; clear Ep.
      destruct (op_prog_starts o Hok) as (k & Ek & HK). rewrite Ek. simpl.
      destruct (tget (op_tag o) (slk (cmem c))) eqn:El.
      { exact Hsame. }
      set (t := op_tag o) in *.
      set (r := op_result o (zlen (written t (lin_ops g)))).
      exists pages, part, (g ++ [GLin tid o r]). simpl.
      assert (Elo : lin_ops (g ++ [GLin tid o r]) = lin_ops g ++ [o]) by (rewrite lin_ops_app; auto).
      split; auto. split; auto. split; [rewrite erase_app, Hh; simpl; apply app_nil_r|].
      split; [|split; [|split; [|split]]].
      - rewrite lins_app. simpl. intros l1 o' r' l2 E.
        destruct (exists_last_or l2) as [->|(l2' & x & ->)].
        + apply app_inj_tail in E. destruct E as [<- E]. inversion E; subst o' r'. reflexivity.
        + rewrite app_comm_cons, app_assoc in E. apply app_inj_tail in E. destruct E as [E _].
          eapply Hsc; eauto.
      - intros x. destruct (Z.eq_dec x tid) as [->|Hne].
        + exists (TDone o r). split.
          * rewrite proj_snoc. simpl. rewrite Z.eqb_refl. constructor; auto.
          * simpl. right. rewrite set_thr_same. eexists _, None. split; [reflexivity|].
            fold t. rewrite tget_tset_same. split; [auto|]. split.
            { intros t' Ht'. destruct (tag_eq_dec t' t); auto. rewrite tget_tset_other in Ht' by auto.
              exfalso; eapply Hno1; eauto. }
            split; [|exact Hno2].
            rewrite Elo, written_snoc. fold t. rewrite tag_eqb_refl.
            apply HK; auto.
            { destruct (unsplit_dec o) as [U|NU].
              - left. exact U.
              - right. intros x Hs. exfalso. apply NU, Hun. exact Hs. }
            { intros Hf _. right. exists (lin_ops g), o, []. rewrite Elo.
              repeat split; auto. }
        + destruct (Hth x) as (s & Hpr' & Hti). exists s. split.
          * rewrite proj_snoc. simpl. destruct (Z.eqb_spec tid x); [congruence|]. rewrite app_nil_r; auto.
          * rewrite set_thr_other by auto. eapply tinv_frame; [exact Hti| .. ]; auto; try (simpl; tauto).
            { intros t'. simpl. destruct (tag_eq_dec t' t) as [->|Hn].
              - rewrite tget_tset_same, El. split; congruence.
              - rewrite tget_tset_other by auto. tauto. }
            { intros t' Ht'. rewrite Elo, written_snoc. fold t.
              destruct (tag_eqb t t') eqn:E; [|apply app_nil_r].
              apply tag_eqb_eq in E; subst t'. congruence. }
            { intros; apply cut_app; auto. }
      - intros t' Ht'. destruct (tag_eq_dec t' t) as [->|Hn].
        + rewrite tget_tset_same in Ht'. discriminate.
        + rewrite tget_tset_other in Ht' by auto. rewrite Elo, written_snoc. fold t.
          destruct (tag_eqb t t') eqn:E; [apply tag_eqb_eq in E; congruence|]. rewrite app_nil_r. auto.
      - auto.
      - split; [intros p1 p2 t' E Hs; apply cut_app; eauto|]. eapply flushed_snoc; [exact Hfl| |].
        + cbn [gev_tid slk]. intros t' x Hx. split; [intros ->; exact (Hno1 _ Hx)|].
          destruct (tag_eq_dec t' t) as [->|Hn]; [congruence|]. rewrite tget_tset_other by auto. exact Hx.
        + intros x o' r' E. inversion E; subst. cbn [slk]. fold t. rewrite tget_tset_same. reflexivity. }
    destruct Hti as [[Ep Hno]|(q & cur & Ep & Hl & Hlu & Hokp & Hcur)]; inversion Ep; subst p; clear Ep.
    { (* returning *)
      exists pages, part, (g ++ [GRet tid r]). simpl.
      assert (Elo : lin_ops (g ++ [GRet tid r]) = lin_ops g) by (rewrite lin_ops_app; apply app_nil_r).
      split; auto. split; auto. split; [rewrite erase_app, Hh; auto|].
      split; [rewrite lins_app; simpl; rewrite app_nil_r; auto|].
      split; [|split; [|split]]; auto.
      - intros x. destruct (Z.eq_dec x tid) as [->|Hne].
        + exists TIdle. split.
          * rewrite proj_snoc. simpl. rewrite Z.eqb_refl. econstructor; eauto.
          * simpl. rewrite set_thr_same. auto.
        + destruct (Hth x) as (s & Hpr' & Hti). exists s. split.
          * rewrite proj_snoc. simpl. destruct (Z.eqb_spec tid x); [congruence|]. rewrite app_nil_r; auto.
          * rewrite set_thr_other by auto. eapply tinv_frame; [exact Hti| .. ]; auto; try tauto.
            { intros; rewrite Elo; auto. }
            { intros; apply cut_app; auto. }
      - rewrite Elo. auto.
      - split; [intros p1 p2 t' E Hs; apply cut_app; eauto|]. eapply flushed_snoc; [exact Hfl| |discriminate].
        cbn [gev_tid]. intros t' x Hx. split; auto. intros ->. exact (proj1 Hno _ Hx). }
    (* working under the sink lock *)
    set (t := op_tag o) in *.
    assert (Hother : forall m' pages' part' q' cur',
      (forall t', tget t' (slk m') = tget t' (slk (cmem c))) ->
      (forall x, x <> tid -> (shl m' = Some x <-> shl (cmem c) = Some x)) ->
      (forall x, x <> tid -> shl (cmem c) = Some x -> part' = part) ->
      (forall t', t' <> t -> stream t' pages' = stream t' pages) ->
      okp t (written t (lin_ops g)) (fun P => sm t -> cut g t P) (op_fin o) r (stream t pages') cur' q' ->
      (match cur' with None => shl m' <> Some tid | Some (_, p') => shl m' = Some tid /\ p' = part' end) ->
      forall x, exists s, protocol x (proj x g) s /\
         tinv m' pages' part' g x s (set_thr (thr c) tid (Some q') x)).
    { intros m' pages' part' q' cur' A1 A2 A3 A4 A5 A6 x. destruct (Z.eq_dec x tid) as [->|Hne].
      - exists (TDone o r). split; auto. simpl. right. rewrite set_thr_same. exists q', cur'.
        fold t. rewrite A1. split; [reflexivity|]. split; [exact Hl|].
        split; [intros t' Ht'; rewrite A1 in Ht'; auto|]. split; auto.
      - destruct (Hth x) as (s & Hpr' & Hti). exists s. split; auto. rewrite set_thr_other by auto.
        eapply tinv_frame; [exact Hti|..]; auto.
        + intros t'. rewrite A1. tauto.
        + apply A3; auto.
        + intros t' Ht'. apply A4. intros ->. rewrite Hl in Ht'. congruence. }
    inversion Hokp as [P s H1 H2 H3 H4|P pl k H|P pl part0 bs k Hpre H|P pl part0 k Hpart Hpok HQ H|P k H]; subst.
    + (* releasing the sink lock *)
      simpl. exists pages, part, g. simpl. split; auto. split; auto. split; auto. split; auto.
      split; [|split; [|split]]; auto.
      * intros x. destruct (Z.eq_dec x tid) as [->|Hne].
        -- exists (TDone o r). split; auto. simpl. left. rewrite set_thr_same. split; auto.
           split; simpl.
           ++ intros t' Ht'. destruct (tag_eq_dec t' t) as [->|Hn].
              ** rewrite tget_tset_same in Ht'. discriminate.
              ** rewrite tget_tset_other in Ht' by auto. apply Hlu in Ht'. auto.
           ++ exact Hcur.
        -- destruct (Hth x) as (s' & Hpr' & Hti). exists s'. split; auto. rewrite set_thr_other by auto.
           eapply tinv_frame; [exact Hti|..]; auto; try (simpl; tauto).
           intros t'. simpl. destruct (tag_eq_dec t' t) as [->|Hn].
           ++ rewrite tget_tset_same, Hl. split; congruence.
           ++ rewrite tget_tset_other by auto. tauto.
      * intros t' Ht'. destruct (tag_eq_dec t' t) as [->|Hn].
        -- rewrite tget_tset_same. split; auto.
        -- rewrite tget_tset_other in Ht' by auto. rewrite tget_tset_other by auto. auto.
      * split; [exact Hcut|]. eapply flushed_mono; [exact Hfl|intros; exists []; rewrite app_nil_r; reflexivity|].
        intros t' x Hx. cbn [slk]. destruct (tag_eq_dec t' t) as [->|Hn]; [right|left; rewrite tget_tset_other; auto].
        assert (x = tid) by congruence. subst x. intros o' g1 r' g2 E Hf Et' Hno.
        assert (Eo : o' = o). { rewrite E in Hpr. apply (protocol_last tid g1 o' r' g2) in Hpr; auto. }
        subst o'. destruct o; cbn in Hf; try tauto; cbn in H4; rewrite H4, app_nil_r in H1; exact H1.
    + (* taking the shared lock *)
      simpl. destruct (shl (cmem c)) eqn:Es; [exact Hsame|].
      assert (part = []) by auto. subst part.
      exists pages, [], g. simpl. split; auto. split; auto. split; auto. split; auto.
      split; [|split; [|split]]; auto.
      * eapply Hother; simpl; eauto.
        -- intros x Hx; split; congruence.
        -- simpl; auto.
    + (* writing *)
      destruct Hcur as [Es ->]. simpl. exists pages, (part ++ bs), g. simpl.
      split; [rewrite Hd, app_assoc; auto|]. split; auto. split; auto. split; auto.
      split; [|split; [|split]]; auto.
      * eapply Hother; simpl; eauto; try tauto; [intros; congruence|]. simpl; auto.
      * rewrite Es; discriminate.
    + (* a complete page *)
      destruct Hcur as [Es <-]. simpl. exists (pages ++ [(t, pl)]), [], g. simpl.
      split; [rewrite Hd, app_nil_r, enc_pages_snoc; auto|]. split; [apply Forall_app; auto|].
      split; auto. split; auto. split; [|split; [|split]]; auto.
      * eapply Hother with (cur' := None); simpl; eauto.
        -- intros x Hx; rewrite Es; split; congruence.
        -- intros; congruence.
        -- intros t' Hn. rewrite stream_snoc. destruct (tag_eqb t t') eqn:E; [apply tag_eqb_eq in E; congruence|].
           apply app_nil_r.
        -- rewrite stream_snoc, tag_eqb_refl. exact H.
        -- discriminate.
      * intros t' Ht'. rewrite stream_snoc. destruct (tag_eqb t t') eqn:E.
        -- apply tag_eqb_eq in E; subst t'. congruence.
        -- rewrite app_nil_r; auto.
      * split.
        2:{ eapply flushed_mono; [exact Hfl|intros t'; rewrite stream_snoc; eexists; reflexivity|].
            intros; left; auto. }
        intros p1 p2 t' E Hs. destruct (exists_last_or p2) as [->|(p2' & x & ->)].
        -- rewrite app_nil_r in E. subst p1. rewrite stream_snoc. destruct (tag_eqb t t') eqn:E.
           ++ apply tag_eqb_eq in E; subst t'. auto.
           ++ rewrite app_nil_r. apply (Hcut pages []); auto. rewrite app_nil_r; auto.
        -- rewrite app_assoc in E. apply app_inj_tail in E. destruct E as [E _]. eauto.
    + (* nothing written *)
      destruct Hcur as [Es <-]. simpl. exists pages, [], g. simpl. split; auto. split; auto.
      split; auto. split; auto. split; [|split; [|split]]; auto.
      eapply Hother with (cur' := None); simpl; eauto; try tauto.
      * intros x Hx; rewrite Es; split; congruence.
      * discriminate.
Qed.
End Inv.
