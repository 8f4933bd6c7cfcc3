(** C78: several sinks on one backing storage, also with the same tag. *)
From Coq Require Import ZArith List Lia Bool.
From Verif Require Import M_Base F_Base M_Sink S_Sink F_Sink F_SinkSeq M_Conc S_Conc F_Conc F_Conc2 M_Multi S_Multi F_Multi Prop_Sink.
Import ListNotations.
Open Scope Z_scope.

(** ** Quiescent states *)
Lemma idle_all sm c : cinv sm c -> all_idle c ->
  exists g pages, erase g = hist c /\ sequentially_correct (lins g) /\
    (forall tid, protocol tid (proj tid g) TIdle) /\
    disk (cmem c) = enc_pages pages /\ Forall page_ok pages /\
    (forall t, tget t (slk (cmem c)) = None) /\ shl (cmem c) = None /\
    (forall t, sink_ok (stream t pages) (written t (lin_ops g)) (tget t (sinks (cmem c)))) /\
    (forall p1 p2 t, pages = p1 ++ p2 -> sm t -> cut g t (stream t p1)).
Proof.
  intros (pages & part & g & Hd & Hp & Hh & Hsc & Hth & Hfree & Hsh & Hcut & _) Hidle.
  assert (Hnone : forall x, holds_none (cmem c) x /\ protocol x (proj x g) TIdle).
  { intros x. destruct (Hth x) as (s & Hpr & Hti). rewrite Hidle in Hti.
    destruct s; simpl in Hti; [tauto|destruct Hti; discriminate|].
    destruct Hti as [[? ?]|(q & cur & ? & _)]; discriminate. }
  assert (Hl : forall t, tget t (slk (cmem c)) = None).
  { intros t. destruct (tget t (slk (cmem c))) as [x|] eqn:E; auto.
    destruct (Hnone x) as [[H _] _]. exfalso; eapply H; eauto. }
  assert (Hs : shl (cmem c) = None).
  { destruct (shl (cmem c)) as [x|] eqn:E; auto. destruct (Hnone x) as [[_ H] _]. congruence. }
  exists g, pages. rewrite Hd, (Hsh Hs), app_nil_r. split; auto. split; auto. split; [apply Hnone|].
  split; [reflexivity|]. split; [exact Hp|]. split; [exact Hl|]. split; [exact Hs|].
  split; [intros t; apply Hfree, Hl|]. intros p1 p2 t E; eauto.
Qed.

Lemma stream_contents t ps : (forall p, In p ps -> fst p = t) -> stream t ps = contents ps.
Proof.
  induction ps as [|[t' b] ps IH]; intros H; auto. cbn [stream]. rewrite IH by (intros; apply H; right; auto).
  specialize (H _ (or_introl eq_refl)). cbn in H. subst t'. rewrite tag_eqb_refl. reflexivity.
Qed.
Lemma in_pages_of i ps p : In p (pages_of i ps) <-> In (i, p) ps.
Proof.
  unfold pages_of. rewrite in_map_iff. split.
  - intros ([j q] & <- & H). apply filter_In in H. destruct H as [H E]. cbn in *. apply Z.eqb_eq in E. subst. auto.
  - intros H. exists (i, p). split; auto. apply filter_In. split; auto. cbn. apply Z.eqb_refl.
Qed.
Lemma pages_of_app i a b : pages_of i (a ++ b) = pages_of i a ++ pages_of i b.
Proof. unfold pages_of. rewrite filter_app, map_app. auto. Qed.
Lemma Forall_pages_of i ps : Forall page_ok (map snd ps) -> Forall page_ok (pages_of i ps).
Proof.
  rewrite !Forall_forall. intros H p Hp. apply H. apply in_pages_of in Hp. apply in_map_iff. exists (i, p). auto.
Qed.

Section Multi.
Variable tag_of : Z -> tag.

(** What is known when no call is in progress. *)
Definition quiet (acts : list maction) (ps : list (Z * page)) (sm : tag -> Prop) (i : Z) (g : list gev) : Prop :=
  let c := mexec tag_of acts mconf0 in
  linearized i c g /\ (forall tid, protocol tid (proj tid g) TIdle) /\
  contents (pages_of i ps) ++ sbuf (msinks (mcmem c) i) = written (tag_of i) (lin_ops g) /\
  zlen (sbuf (msinks (mcmem c) i)) <= MAX_PAGE_SIZE /\
  mslk (mcmem c) i = None /\
  (forall p1 p2, pages_of i ps = p1 ++ p2 -> sm (tag_of i) -> cut g (tag_of i) (contents p1)).

Lemma quiet_state acts : macts_ok acts -> mall_idle (mexec tag_of acts mconf0) ->
  exists ps, mdisk (mcmem (mexec tag_of acts mconf0)) = enc_pages (map snd ps) /\
    Forall page_ok (map snd ps) /\ (forall i p, In (i, p) ps -> fst p = tag_of i) /\
    mshl (mcmem (mexec tag_of acts mconf0)) = None /\
    forall (sm : tag -> Prop) i, (forall tid o, In (MInvoke tid i o) acts -> sm (tag_of i) -> op_unsplit o) ->
      exists g, quiet acts ps sm i g.
Proof.
  intros Hok Hidle. set (c := mexec tag_of acts mconf0) in *.
  assert (Hg : ginv tag_of c) by (apply ginv_exec, ginv0).
  destruct Hg as (ps & part & Hd & Hp & Ht & Hl & Hsh & Hq).
  assert (Hs : mshl (mcmem c) = None).
  { destruct (mshl (mcmem c)) as [x|] eqn:E; auto. specialize (Hq x). unfold qinv in Hq. rewrite Hidle in Hq. congruence. }
  rewrite (Hsh Hs), app_nil_r in Hd.
  exists ps. split; auto. split; auto. split; auto. split; auto.
  intros sm i Hun. destruct (one_sink tag_of sm i acts Hok Hun) as (d & [Sd Ss Sl Shh St Sy] & Hc). fold c in Sd, Ss, Sl, Shh, St, Sy.
  assert (Hdi : all_idle d) by (intros x; rewrite St, Hidle; auto).
  destruct (idle_all sm d Hc Hdi) as (g & pages & H1 & H2 & H3 & H4 & H5 & H6 & H7 & H8 & H9).
  assert (Epg : pages = pages_of i ps).
  { apply enc_pages_inj; auto. { apply Forall_pages_of; auto. }
    rewrite <- H4, Sd, Hl. unfold holder. rewrite Hs, app_nil_r. auto. }
  subst pages.
  assert (Htg : forall p, In p (pages_of i ps) -> fst p = tag_of i) by (intros p Hin; apply Ht, in_pages_of; auto).
  destruct (H8 (tag_of i)) as (K1 & K2 & K3). rewrite Ss in K1, K2, K3. rewrite stream_contents in K1 by auto.
  exists g. unfold quiet. fold c. split; [|split; [|split; [|split; [|split]]]]; auto.
  - split; [rewrite H1; exact Sy|]. split; auto. intros tid. eauto.
  - rewrite <- Sl. auto.
  - intros p1 p2 E Hsm. rewrite <- (stream_contents (tag_of i)). + eapply H9; eauto.
    + intros p Hin. apply Htg. rewrite E. apply in_or_app. auto.
Qed.

(** ** Dropping *)
Lemma mexec_app a b c : mexec tag_of (a ++ b) c = mexec tag_of b (mexec tag_of a c).
Proof. unfold mexec. apply fold_left_app. Qed.

Lemma mexec_cons a acts c : mexec tag_of (a :: acts) c = mexec tag_of acts (mstep tag_of c a).
Proof. reflexivity. Qed.

Lemma tick_one c tid i p m' p' : mthr c tid = Some (i, p) -> mprog_step tid i (mcmem c) p = Some (m', p') ->
  mstep tag_of c (MTick tid) = mkMConf m' (upd (mthr c) tid (Some (i, p'))) (mhist c).
Proof. intros E S. unfold mstep. rewrite E. destruct p; try discriminate; rewrite S; reflexivity. Qed.

Lemma one_drop c i : mall_idle c -> mshl (mcmem c) = None -> mslk (mcmem c) i = None ->
  zlen (sbuf (msinks (mcmem c) i)) <= MAX_PAGE_SIZE ->
  let c' := mexec tag_of (MInvoke 0 i (ODrop TEvents) :: repeat (MTick 0) 8) c in
  mall_idle c' /\ sbuf (msinks (mcmem c') i) = [] /\ (forall j, j <> i -> msinks (mcmem c') j = msinks (mcmem c) j).
Proof.
  intros Hi Hs Hl Hz. cbv zeta. destruct c as [[l s k h] th hi]. cbn [mcmem mlog msinks mslk mshl mthr mhist] in *. subst h.
  set (MTOP := MAX_PAGE_SIZE) in *.
  assert (TK : forall n c p m' p', mthr c 0 = Some (i, p) -> mprog_step 0 i (mcmem c) p = Some (m', p') ->
     mexec tag_of (repeat (MTick 0) (S n)) c
     = mexec tag_of (repeat (MTick 0) n) (mkMConf m' (upd (mthr c) 0 (Some (i, p'))) (mhist c))).
  { intros n c p m' p' E S. cbn [repeat]. unfold mexec at 1. cbn [fold_left]. rewrite (tick_one c 0 i p m' p' E S). reflexivity. }
  assert (IDLE : forall n c, mthr c 0 = None -> mexec tag_of (repeat (MTick 0) n) c = c).
  { induction n as [|n IH]; intros c E; auto. cbn [repeat]. unfold mexec. cbn [fold_left]. unfold mstep at 2. rewrite E. apply IH; auto. }
  assert (DN : forall n c r, mthr c 0 = Some (i, Done r) -> mexec tag_of (repeat (MTick 0) (S n)) c
     = mkMConf (mcmem c) (upd (mthr c) 0 None) (mhist c ++ [(i, HRet 0 r)])).
  { intros n c r E. cbn [repeat]. unfold mexec. cbn [fold_left]. unfold mstep at 2. rewrite E. apply IDLE. apply upd_same. }
  match goal with |- mall_idle ?x /\ _ => assert (E : exists c', x = c' /\ mall_idle c' /\
     sbuf (msinks (mcmem c') i) = [] /\ (forall j, j <> i -> msinks (mcmem c') j = s j)) end.
  2:{ destruct E as (c' & -> & E). exact E. }
  rewrite mexec_cons. unfold mstep. cbn [mthr mcmem mhist]. rewrite Hi. cbn [with_tag op_prog]. unfold drop_sink.
  erewrite TK; [|cbn [mthr]; apply upd_same|cbn [mcmem mprog_step mslk]; rewrite Hl; reflexivity].
  cbn [mthr mhist mcmem mlog msinks mslk mshl].
  unfold flush, write_page. fold MTOP. destruct (Z.ltb_spec 0 (zlen (sbuf (s i)))) as [H|H].
  - destruct (Z.leb_spec (zlen (sbuf (s i))) MTOP); [|lia].
    do 6 (erewrite TK; [|cbn [mthr]; apply upd_same|cbn [mcmem mprog_step mshl]; reflexivity];
          cbn [mthr mhist mcmem mlog msinks mslk mshl]).
    erewrite DN by (cbn [mthr]; apply upd_same). eexists. split; [reflexivity|]. cbn [mcmem msinks mthr]. split; [|split].
    + intros x. cbn [mthr]. unfold upd. destruct (x =? 0); auto.
    + rewrite upd_same. reflexivity.
    + intros j Hj. rewrite upd_other; auto.
  - erewrite TK; [|cbn [mthr]; apply upd_same|cbn [mcmem mprog_step mshl]; reflexivity].
    cbn [mthr mhist mcmem mlog msinks mslk mshl].
    erewrite DN by (cbn [mthr]; apply upd_same). eexists. split; [reflexivity|]. cbn [mcmem msinks mthr]. split; [|split].
    + intros x. cbn [mthr]. unfold upd. destruct (x =? 0); auto.
    + rewrite upd_same. reflexivity.
    + intros j Hj. rewrite upd_other; auto.
Qed.

Lemma drops_admissible acts l : macts_ok acts -> macts_ok (acts ++ drop_sinks l).
Proof.
  intros H tid i o Hin. apply in_app_or in Hin. destruct Hin as [Hin|Hin]; [eapply H; eauto|].
  unfold drop_sinks in Hin. apply in_flat_map in Hin. destruct Hin as (j & _ & [E|Hin]).
  - injection E as <- <- <-. exact I.
  - apply repeat_spec in Hin. discriminate.
Qed.
Lemma after_drops acts l : macts_ok acts -> mall_idle (mexec tag_of acts mconf0) ->
  let c' := mexec tag_of (acts ++ drop_sinks l) mconf0 in
  mall_idle c' /\ forall i, In i l -> sbuf (msinks (mcmem c') i) = [].
Proof.
  intros Hok Hi. cbv zeta. induction l as [|i l IH] using rev_ind.
  - unfold drop_sinks. cbn [flat_map]. rewrite app_nil_r. split; auto. intros i [].
  - destruct IH as [I1 I2].
    assert (E : drop_sinks (l ++ [i]) = drop_sinks l ++ (MInvoke 0 i (ODrop TEvents) :: repeat (MTick 0) 8)).
    { unfold drop_sinks. rewrite flat_map_app. cbn [flat_map]. rewrite app_nil_r. reflexivity. }
    rewrite E, app_assoc, mexec_app.
    destruct (quiet_state (acts ++ drop_sinks l)) as (ps & _ & _ & _ & Hs & Hq); auto. { apply drops_admissible; auto. }
    destruct (Hq (fun _ => False) i) as (g & _ & _ & _ & Hz & Hl & _). { tauto. }
    destruct (one_drop _ i I1 Hs Hl Hz) as (J1 & J2 & J3). split; auto.
    intros j Hj. destruct (Z.eq_dec j i) as [->|Hne]; auto. rewrite J3 by auto. apply I2.
    apply in_app_or in Hj. destruct Hj as [Hj|[->|[]]]; congruence.
Qed.

(** ** Where the operations of a linearization come from *)
Lemma lin_called g o r : (forall tid, exists s, protocol tid (proj tid g) s) -> In (o, r) (lins g) ->
  exists tid, In (HInv tid o) (erase g).
Proof.
  intros Hp Hin.
  assert (exists tid, In (GLin tid o r) g) as [tid Hg].
  { clear Hp. induction g as [|[] g IH]; cbn in Hin; try contradiction; try (destruct (IH Hin) as [x Hx]; exists x; right; auto; fail).
    destruct Hin as [[= -> ->]|Hin]; [eexists; left; reflexivity|]. destruct (IH Hin) as [x Hx]; exists x; right; auto. }
  exists tid. destruct (Hp tid) as [s Hs].
  assert (P : forall l s, protocol tid l s -> (forall o r, In (GLin tid o r) l -> In (GInv tid o) l) /\
              match s with TCalled o => In (GInv tid o) l | _ => True end).
  { clear. induction 1 as [|l o H [I1 I2]|l o r H [I1 I2]|l o r H [I1 I2]].
    - split; [intros o r []|exact I].
    - split; [|apply in_or_app; right; left; auto]. intros o' r' Hin. apply in_app_or in Hin.
      destruct Hin as [Hin|[E|[]]]; [|discriminate]. apply in_or_app. left. eauto.
    - split; auto. intros o' r' Hin. apply in_app_or in Hin. apply in_or_app. left.
      destruct Hin as [Hin|[[= <- <-]|[]]]; eauto.
    - split; auto. intros o' r' Hin. apply in_app_or in Hin. apply in_or_app. left.
      destruct Hin as [Hin|[E|[]]]; [eauto|discriminate]. }
  destruct (P _ _ Hs) as [P1 _]. specialize (P1 o r). unfold proj in P1.
  assert (In (GInv tid o) g) as Hgi.
  { eapply proj1, filter_In. apply P1. apply filter_In. split; auto. cbn. apply Z.eqb_refl. }
  clear - Hgi. induction g as [|[] g IH]; cbn in *; auto; destruct Hgi as [E|E]; try discriminate; auto.
  injection E as -> ->. auto.
Qed.
Lemma called_from acts : forall c, (forall i tid o, In (i, HInv tid o) (mhist (mexec tag_of acts c)) ->
  In (i, HInv tid o) (mhist c) \/ exists o', In (MInvoke tid i o') acts /\ o = with_tag (tag_of i) o').
Proof.
  induction acts as [|a acts IH]; intros c i tid o Hin; auto. rewrite mexec_cons in Hin.
  destruct (IH _ _ _ _ Hin) as [H|(o' & H & E)]; [|right; exists o'; split; auto; right; auto].
  clear Hin. destruct a as [x j o'|x]; unfold mstep in H.
  - destruct (mthr c x); auto. cbn [mhist] in H. apply in_app_or in H. destruct H as [H|[E|[]]]; auto.
    injection E as -> -> <-. right. exists o'. split; auto. left. auto.
  - destruct (mthr c x) as [[j p]|]; auto.
    assert (forall e, (forall y z, e <> HInv y z) -> In (i, HInv tid o) (mhist c ++ [(j, e)]) -> In (i, HInv tid o) (mhist c)) as D.
    { intros e He Hx. apply in_app_or in Hx. destruct Hx as [Hx|[E|[]]]; auto. injection E as _ E. exfalso. eapply He; eauto. }
    destruct p; try (left; eapply D; [|exact H]; discriminate);
      destruct (mprog_step _ _ _ _) as [[m' p']|]; auto.
Qed.
Lemma lin_from acts i g o r : linearized i (mexec tag_of acts mconf0) g -> In (o, r) (lins g) ->
  exists tid o', In (MInvoke tid i o') acts /\ o = with_tag (tag_of i) o'.
Proof.
  intros (H1 & H2 & _) Hin. destruct (lin_called g o r H2 Hin) as [tid Ht]. rewrite H1 in Ht.
  unfold hist_of in Ht. apply in_map_iff in Ht. destruct Ht as ([j e] & E & Ht). cbn in E. subst e.
  apply filter_In in Ht. destruct Ht as [Ht Ej]. cbn in Ej. apply Z.eqb_eq in Ej. subst j.
  destruct (called_from acts mconf0 i tid o Ht) as [[]|(o' & K)]. eauto.
Qed.
End Multi.

Lemma in_drops tid i o l : In (MInvoke tid i o) (drop_sinks l) -> o = ODrop TEvents.
Proof.
  unfold drop_sinks. intros H. apply in_flat_map in H. destruct H as (j & _ & [E|H]); [congruence|].
  apply repeat_spec in H. discriminate.
Qed.
Lemma split_labelled (ps : list (Z * page)) : Forall page_ok (map snd ps) ->
  split_streams (enc_pages (map snd ps)) = Ok (streams_of (fun t => stream t (map snd ps))).
Proof. intros H. apply split_pages. eapply Forall_impl; [|exact H]. intros p. apply page_ok_wf. Qed.

(** C78: whatever the number of sinks and their tags, every sink behaves as if it were alone: its calls
    take effect one after the other and return the number of bytes written to *this* sink before; no
    call panics; once the sinks [l] have been dropped the file consists of whole pages, each
    with the tag of the sink that wrote it; the pages of a sink hold exactly what was written to it, in
    that order; and the reader gets, for each tag, the concatenation of all pages with that tag. *)
Theorem C78_sinks : forall tag_of acts l, macts_ok acts -> mall_idle (mexec tag_of acts mconf0) ->
  let c := mexec tag_of (acts ++ drop_sinks l) mconf0 in
  (forall tid i, ~ In (i, HPanic tid) (mhist c)) /\
  exists ps, mdisk (mcmem c) = enc_pages (map snd ps) /\ Forall page_ok (map snd ps) /\
    (forall i p, In (i, p) ps -> fst p = tag_of i) /\
    split_streams (mdisk (mcmem c)) = Ok (streams_of (fun t => stream t (map snd ps))) /\
    forall i, exists g, linearized i c g /\ (forall tid, protocol tid (proj tid g) TIdle) /\
      (In i l -> contents (pages_of i ps) = written (tag_of i) (lin_ops g)).
Proof.
  intros tag_of acts l Hok Hi. cbv zeta.
  destruct (after_drops tag_of acts l Hok Hi) as [D1 D2].
  pose proof (drops_admissible acts l Hok) as Hok'. revert D1 D2 Hok'. generalize (acts ++ drop_sinks l). clear acts Hok Hi.
  intros acts D1 D2 Hok. destruct (quiet_state tag_of acts Hok D1) as (ps & Hd & Hp & Ht & Hs & Hq).
  assert (HQ : forall i, exists g, quiet tag_of acts ps (fun _ => False) i g) by (intros i; apply Hq; tauto).
  split.
  - intros tid i Hin. destruct (HQ i) as (g & (H1 & _) & _).
    assert (In (HPanic tid) (erase g)) as Hx.
    { rewrite H1. unfold hist_of. apply in_map_iff. exists (i, HPanic tid). split; auto. apply filter_In. split; auto. cbn. apply Z.eqb_refl. }
    clear - Hx. induction g as [|[] g IH]; cbn in Hx; auto; destruct Hx; try discriminate; auto.
  - exists ps. split; auto. split; auto. split; auto. split; [rewrite Hd; apply split_labelled; auto|].
    intros i. destruct (HQ i) as (g & H1 & H2 & H3 & _). exists g. split; auto. split; auto.
    intros Hin. rewrite (D2 i Hin), app_nil_r in H3. exact H3.
Qed.
Print Assumptions C78_sinks.

(** C78: if no other sink with the same tag is used, the addresses returned by sink [i] locate the data
    in the stream that the reader gets for its tag. *)
Theorem C78_alone : forall tag_of acts l i, macts_ok acts -> mall_idle (mexec tag_of acts mconf0) -> In i l ->
  (forall j, used j acts -> tag_of j = tag_of i -> j = i) ->
  let c := mexec tag_of (acts ++ drop_sinks l) mconf0 in
  exists g s, linearized i c g /\ split_streams (mdisk (mcmem c)) = Ok s /\
    tget (tag_of i) s = present (written (tag_of i) (lin_ops g)) /\
    forall o a, In (o, a) (lins g) ->
      (exists t n cb, o = OWriteAtomic t n cb) \/ (exists t bs, o = OWriteBytes t bs) ->
      zslice a (a + zlen (op_data o)) (written (tag_of i) (lin_ops g)) = op_data o.
Proof.
  intros tag_of acts l i Hok Hi Hin Huniq. cbv zeta.
  destruct (after_drops tag_of acts l Hok Hi) as [D1 D2].
  destruct (quiet_state tag_of (acts ++ drop_sinks l)) as (ps & Hd & Hp & Ht & _ & Hq); auto.
  { apply drops_admissible; auto. }
  set (c := mexec tag_of (acts ++ drop_sinks l) mconf0) in *.
  destruct (Hq (fun _ => False) i) as (g & Hlin & _ & Hcon & _); [tauto|]. fold c in Hlin, Hcon.
  rewrite (D2 i Hin), app_nil_r in Hcon.
  exists g, (streams_of (fun t => stream t (map snd ps))). split; auto. split; [rewrite Hd; apply split_labelled; auto|]. split.
  - assert (E : forall f t, tget t (streams_of f) = present (f t)) by (intros f []; reflexivity).
    rewrite E. f_equal. rewrite <- Hcon.
    assert (Hj : forall j p, In (j, p) ps -> fst p = tag_of i -> j = i).
    { intros j p Hjp Etag. destruct (Z.eq_dec j i) as [|Hne]; auto. exfalso.
      pose proof (Ht _ _ Hjp) as Etj.
      destruct (Hq (fun _ => False) j) as (g' & L' & _ & K & _); [tauto|].
      (* all operations of [j] are drops *)
      assert (W : written (tag_of j) (lin_ops g') = []).
      { assert (forall o, In o (lin_ops g') -> op_data o = []) as HD.
        { intros o Ho. unfold lin_ops in Ho. apply in_map_iff in Ho. destruct Ho as ([o' r] & Eo & Ho). cbn in Eo. subst o'.
          destruct (lin_from tag_of _ j g' o r L' Ho) as (tid & o' & Hinv & ->). apply in_app_or in Hinv.
          destruct Hinv as [Hinv|Hinv].
          - exfalso. apply Hne. apply Huniq; [|congruence]. exists tid, o'. auto.
          - apply in_drops in Hinv. subst o'. reflexivity. }
        clear - HD. induction (lin_ops g') as [|o ops IH]; auto. cbn [written].
        rewrite (HD o) by (left; auto). rewrite IH by (intros; apply HD; right; auto). destruct (tag_eqb _ _); auto. }
      rewrite W in K. apply app_eq_nil in K. destruct K as [K _].
      apply in_pages_of in Hjp.
      assert (page_ok p) as Hpk by (eapply Forall_forall in Hjp; [exact Hjp|]; apply Forall_pages_of; auto).
      unfold page_ok in Hpk. apply in_split in Hjp. destruct Hjp as (a & b & Eab). rewrite Eab in K.
      unfold contents in K. rewrite map_app, concat_app in K. cbn [map concat] in K.
      apply app_eq_nil in K. destruct K as [_ K]. apply app_eq_nil in K. destruct K as [K _]. rewrite K in Hpk.
      change (zlen (@nil Z)) with 0 in Hpk. lia. }
    clear - Hj Ht. induction ps as [|[j [t b]] ps IH]; auto. cbn [map snd stream].
    rewrite IH; [|intros; apply Ht; right; auto|intros j' p' H' E'; apply Hj with p'; auto; right; auto].
    change ((j, (t, b)) :: ps) with ([(j, (t, b))] ++ ps). rewrite pages_of_app. unfold pages_of at 2. cbn [filter map fst].
    pose proof (Ht j (t, b) (or_introl eq_refl)) as Etj. cbn in Etj.
    destruct (Z.eqb_spec j i) as [->|Hne].
    + subst t. rewrite tag_eqb_refl. reflexivity.
    + destruct (tag_eqb t (tag_of i)) eqn:Et; auto. apply tag_eqb_eq in Et. exfalso. apply Hne.
      apply (Hj j (t, b)); auto. left. auto.
  - intros o a Hoa Hw. pose proof Hlin as (_ & _ & Hsc).
    destruct (lin_from tag_of _ i g o a Hlin Hoa) as (tid & o' & _ & Eo).
    assert (op_tag o = tag_of i) as <- by (rewrite Eo; apply tag_with).
    apply C04_contiguous; auto.
Qed.
Print Assumptions C78_alone.

(** C78: if every write to a sink with tag [t] fits into a page (as all events do), the stream the reader gets
    for [t] is made of whole writes: those of each sink all there, in their order, merged in some way with those of
    the others. *)
Lemma finite_choice {A} (P : Z -> A -> Prop) (d : A) L : (forall i, In i L -> exists a, P i a) ->
  exists G, forall i, In i L -> P i (G i).
Proof.
  induction L as [|i L IH]; intros H.
  - exists (fun _ => d). intros i [].
  - destruct IH as [G HG]. { intros j Hj. apply H. right. auto. }
    destruct (H i (or_introl eq_refl)) as [a Ha]. exists (fun j => if j =? i then a else G j).
    intros j Hj. destruct (Z.eqb_spec j i) as [->|]; auto. apply HG. destruct Hj; congruence.
Qed.
Lemma ops_of_app i a b : ops_of i (a ++ b) = ops_of i a ++ ops_of i b.
Proof. unfold ops_of. rewrite filter_app, map_app. auto. Qed.
Lemma ops_of_same i l : ops_of i (map (pair i) l) = l.
Proof. unfold ops_of. induction l as [|o l IH]; auto. cbn [map filter fst]. rewrite Z.eqb_refl. cbn [map snd]. rewrite IH. auto. Qed.
Lemma ops_of_other i j l : j <> i -> ops_of i (map (pair j) l) = [].
Proof.
  intros H. unfold ops_of. induction l as [|o l IH]; auto. cbn [map filter fst]. destruct (Z.eqb_spec j i); [congruence|]. auto.
Qed.

Theorem C78_records : forall tag_of acts l t, macts_ok acts -> mall_idle (mexec tag_of acts mconf0) ->
  (forall tid i o, In (MInvoke tid i o) acts -> tag_of i = t -> op_unsplit o) ->
  let c := mexec tag_of (acts ++ drop_sinks l) mconf0 in
  exists s merged, split_streams (mdisk (mcmem c)) = Ok s /\
    tget t s = present (written t (map snd merged)) /\
    (forall i, tag_of i <> t -> ops_of i merged = []) /\
    forall i, In i l -> tag_of i = t ->
      exists g rest, linearized i c g /\ lin_ops g = ops_of i merged ++ rest /\ written t rest = [].
Proof.
  intros tag_of acts l t Hok Hi Hun. cbv zeta.
  destruct (after_drops tag_of acts l Hok Hi) as [D1 D2].
  destruct (quiet_state tag_of (acts ++ drop_sinks l)) as (ps & Hd & Hp & Ht & _ & Hq); auto.
  { apply drops_admissible; auto. }
  set (c := mexec tag_of (acts ++ drop_sinks l) mconf0) in *.
  destruct (finite_choice (fun i g => quiet tag_of (acts ++ drop_sinks l) ps (fun x => x = t) i g) [] (map fst ps ++ l)) as [G HG].
  { intros i _. apply Hq. intros tid o Hin E. apply in_app_or in Hin. destruct Hin as [Hin|Hin]; [eapply Hun; eauto|].
    apply in_drops in Hin. subst o. exact I. }
  assert (STEP : forall p1 p2, ps = p1 ++ p2 -> exists merged,
    stream t (map snd p1) = written t (map snd merged) /\
    (forall i, tag_of i <> t -> ops_of i merged = []) /\
    forall i, In i (map fst ps ++ l) -> tag_of i = t ->
      written t (ops_of i merged) = contents (pages_of i p1) /\ exists rest, lin_ops (G i) = ops_of i merged ++ rest).
  { induction p1 as [|[j p] p1 IH] using rev_ind; intros p2 E.
    - exists []. split; auto. split; auto. intros i _ _. split; auto. exists (lin_ops (G i)). auto.
    - rewrite <- app_assoc in E. destruct (IH _ E) as (merged & M1 & M2 & M3). rewrite map_app, stream_app, M1. cbn [map snd].
      destruct p as [tp b].
      assert (Hjin : In (j, (tp, b)) ps) by (rewrite E; apply in_or_app; right; left; auto).
      pose proof (Ht _ _ Hjin) as Etp. cbn in Etp. subst tp. cbn [stream]. rewrite app_nil_r.
      destruct (tag_eq_dec (tag_of j) t) as [Ej|Nj].
      + replace (tag_eqb (tag_of j) t) with true by (rewrite Ej, tag_eqb_refl; auto).
        assert (Hjl : In j (map fst ps ++ l)).
        { apply in_or_app. left. apply in_map_iff. exists (j, (tag_of j, b)). auto. }
        destruct (M3 j Hjl Ej) as (W & rest & ER).
        destruct (HG j Hjl) as (_ & _ & _ & _ & _ & Hcut).
        specialize (Hcut (pages_of j (p1 ++ [(j, (tag_of j, b))])) (pages_of j p2)).
        assert (Hc : cut (G j) (tag_of j) (contents (pages_of j (p1 ++ [(j, (tag_of j, b))])))).
        { apply Hcut; auto. rewrite <- pages_of_app, <- app_assoc, E. auto. }
        assert (Ec : contents (pages_of j (p1 ++ [(j, (tag_of j, b))])) = contents (pages_of j p1) ++ b).
        { rewrite pages_of_snoc, Z.eqb_refl. unfold contents. rewrite map_app, concat_app. cbn. rewrite app_nil_r. auto. }
        assert (Hb : 0 < zlen b).
        { assert (page_ok (tag_of j, b)) as Hpk by (eapply Forall_forall; [exact Hp|]; apply in_map_iff; exists (j, (tag_of j, b)); auto).
          apply Hpk. }
        rewrite Ec, Ej in Hc. destruct Hc as [Hc|(l1 & o & l2 & El & Ew & _)].
        { apply app_eq_nil in Hc. destruct Hc as [_ ->]. change (zlen (@nil Z)) with 0 in Hb. lia. }
        rewrite ER in El. apply app_eq_app in El. destruct El as (x & [[E1 E2]|[E1 E2]]).
        { exfalso. rewrite E1, written_app, <- Ew in W. apply (f_equal zlen) in W. rewrite !zlen_app in W.
          pose proof (zlen_nonneg (written t x)). lia. }
        exists (merged ++ map (pair j) x). rewrite map_app, map_map. cbn [snd]. rewrite map_id, written_app.
        assert (Ex : written t x = b).
        { rewrite E1, written_app, W in Ew. apply app_inv_head in Ew. auto. }
        split; [rewrite Ex; auto|]. split.
        { intros i Hne. rewrite ops_of_app, M2, ops_of_other by congruence. auto. }
        intros i Hil Eit. destruct (Z.eq_dec i j) as [->|Hne].
        { rewrite ops_of_app, ops_of_same, written_app, W, Ex. split; [symmetry; exact Ec|].
          exists (o :: l2). rewrite ER, E2, <- app_assoc. auto. }
        rewrite ops_of_app, ops_of_other, app_nil_r by congruence. rewrite pages_of_snoc.
        destruct (Z.eqb_spec j i); [congruence|]. rewrite app_nil_r. apply M3; auto.
      + exists merged. destruct (tag_eqb (tag_of j) t) eqn:Et; [apply tag_eqb_eq in Et; congruence|]. rewrite app_nil_r.
        split; auto. split; auto. intros i Hil Eit. rewrite pages_of_snoc. destruct (Z.eqb_spec j i); [congruence|].
        rewrite app_nil_r. apply M3; auto. }
  destruct (STEP ps []) as (merged & M1 & M2 & M3); [rewrite app_nil_r; auto|].
  exists (streams_of (fun t => stream t (map snd ps))), merged. split; [rewrite Hd; apply split_labelled; auto|].
  split; [rewrite <- M1; destruct t; reflexivity|]. split; auto.
  intros i Hil Eit. destruct (M3 i) as (W & rest & ER); auto. { apply in_or_app. auto. }
  destruct (HG i) as (L & _ & K & _). { apply in_or_app; auto. } fold c in L, K. rewrite (D2 i Hil), app_nil_r in K.
  exists (G i), rest. split; auto. split; auto. rewrite Eit, ER, written_app, <- W in K.
  rewrite <- (app_nil_r (written t (ops_of i merged))) in K at 1. apply app_inv_head in K. auto.
Qed.
Print Assumptions C78_records.

(** C78: whenever the process dies, what has reached the file is a sequence of whole pages and at most one
    incomplete page, and the pages of every sink hold a prefix of what was written to it. *)
Lemma normal_disk tag_of c : ginv tag_of c ->
  exists ps rest, mdisk (mcmem c) = enc_pages (map snd ps) ++ rest /\ Forall page_ok (map snd ps) /\
    (forall i p, In (i, p) ps -> fst p = tag_of i) /\
    (rest = [] \/ exists p, page_ok p /\ prefix rest (enc_page p) /\ zlen rest < zlen (enc_page p)) /\
    forall i, prefix (enc_pages (pages_of i ps)) (log_of i (mlog (mcmem c))).
Proof.
  intros (ps & part & Hd & Hp & Ht & Hl & Hsh & Hq).
  assert (Hpre : forall i, prefix (enc_pages (pages_of i ps)) (log_of i (mlog (mcmem c)))).
  { intros i. rewrite Hl. eexists. reflexivity. }
  destruct (mshl (mcmem c)) as [x|] eqn:Es.
  2:{ exists ps, part. split; [exact Hd|]. split; [exact Hp|]. split; [exact Ht|]. split; [left; auto|exact Hpre]. }
  pose proof (Hq x) as Hx. unfold qinv in Hx. rewrite Es in Hx. destruct (mthr c x) as [[i p]|] eqn:Ex; [|congruence].
  destruct Hx as (cur & Hok & Hcur). destruct cur as [part'|]; [|congruence]. destruct Hcur as [_ ->].
  apply okq_part in Hok. destruct Hok as [->|(b & Hb & y & Ey)].
  { exists ps, []. split; [exact Hd|]. split; [exact Hp|]. split; [exact Ht|]. split; [left; auto|exact Hpre]. }
  destruct (Z_lt_le_dec (zlen part) (zlen (enc_page (tag_of i, b)))) as [Hlt|Hge].
  { exists ps, part. split; [exact Hd|]. split; [exact Hp|]. split; [exact Ht|]. split; [|exact Hpre]. right. exists (tag_of i, b). split; auto. split; auto. exists y. auto. }
  assert (y = []) as ->.
  { apply (f_equal zlen) in Ey. rewrite zlen_app in Ey. pose proof (zlen_nonneg y). apply zlen_0. lia. }
  rewrite app_nil_r in Ey.
  exists (ps ++ [(i, (tag_of i, b))]), []. rewrite map_app. cbn [map snd]. rewrite enc_pages_snoc, app_nil_r, Ey.
  split; [exact Hd|]. split; [apply Forall_app; auto|].
  split. { intros j q Hin. apply in_app_or in Hin. destruct Hin as [Hin|[E|[]]]; auto. injection E as <- <-. reflexivity. }
  split; auto. intros j. rewrite pages_of_snoc, Hl. unfold holder. rewrite Es, Ex.
  destruct (i =? j); rewrite ?app_nil_r.
  - rewrite enc_pages_snoc, Ey. exists []. rewrite app_nil_r. auto.
  - exists []. rewrite app_nil_r. auto.
Qed.
Lemma prefix_trans {A} (a b c : list A) : prefix a b -> prefix b c -> prefix a c.
Proof. intros [x ->] [y ->]. exists (x ++ y). rewrite app_assoc. auto. Qed.

Theorem C78_crash : forall tag_of acts b, macts_ok acts ->
  let c := mexec tag_of acts mconf0 in
  prefix b (mdisk (mcmem c)) ->
  exists ps rest, b = enc_pages (map snd ps) ++ rest /\ Forall page_ok (map snd ps) /\
    (forall i p, In (i, p) ps -> fst p = tag_of i) /\
    (rest = [] \/ exists p, page_ok p /\ prefix rest (enc_page p) /\ zlen rest < zlen (enc_page p)) /\
    forall i, exists g, linearized i c g /\ prefix (contents (pages_of i ps)) (written (tag_of i) (lin_ops g)).
Proof.
  intros tag_of acts b Hok. cbv zeta. set (c := mexec tag_of acts mconf0). intros Hb.
  assert (Hg : ginv tag_of c) by (apply ginv_exec, ginv0).
  destruct (normal_disk tag_of c Hg) as (ps & rest & Hd & Hp & Ht & Hr & Hl).
  assert (SINK : forall i ps1 ps2, ps = ps1 ++ ps2 ->
     exists g, linearized i c g /\ prefix (contents (pages_of i ps1)) (written (tag_of i) (lin_ops g))).
  { intros i ps1 ps2 E.
    destruct (one_sink tag_of (fun _ => False) i acts Hok) as (d & [Sd _ _ _ _ Sy] & Hc); [tauto|].
    destruct (cinv_disk _ d Hc) as (g & pages & r & H1 & H2 & H3 & H4 & H5 & H6 & _).
    exists g. split. { split; [rewrite H1; exact Sy|]. auto. }
    assert (prefix (pages_of i ps) pages) as [y Ey].
    { apply enc_pages_prefix; auto. { apply Forall_pages_of; auto. }
      eapply prefix_trans; [apply Hl|]. fold c in Sd. rewrite <- Sd. exists r. exact H4. }
    eapply prefix_trans; [|apply (H6 (tag_of i))]. rewrite Ey, E, pages_of_app, <- app_assoc, stream_app.
    rewrite stream_contents. { eexists. reflexivity. }
    intros p Hin. apply Ht. apply in_pages_of in Hin. rewrite E. apply in_or_app. auto. }
  rewrite Hd in Hb. destruct Hb as [z Hz]. symmetry in Hz. apply app_eq_app in Hz. destruct Hz as (x & [[E1 E2]|[E1 E2]]).
  - (* beyond the whole pages *)
    exists ps, x. split; auto. split; auto. split; auto. split.
    + destruct Hr as [->|(p & Hp1 & Hp2 & Hp3)].
      * left. symmetry in E2. apply app_eq_nil in E2. apply E2.
      * right. exists p. split; auto. split.
        -- eapply prefix_trans; [|exact Hp2]. exists z. auto.
        -- rewrite E2, zlen_app in Hp3. pose proof (zlen_nonneg z). lia.
    + intros i. apply (SINK i ps []). rewrite app_nil_r. auto.
  - destruct (prefix_pages (map snd ps) b Hp) as (q1 & q2 & r & F1 & F2 & F3). { exists x. auto. }
    assert (F1' : exists ps1 ps2, ps = ps1 ++ ps2 /\ q1 = map snd ps1 /\ q2 = map snd ps2).
    { clear - F1. revert q1 F1. induction ps as [|a ps IH]; intros q1 E.
      - symmetry in E. apply app_eq_nil in E. destruct E as [-> ->]. exists [], []. auto.
      - destruct q1 as [|q q1].
        + exists [], (a :: ps). cbn [app] in *. auto.
        + cbn [map app] in E. injection E as <- E. destruct (IH _ E) as (p1 & p2 & -> & -> & ->).
          exists (a :: p1), p2. auto. }
    destruct F1' as (ps1 & ps2 & G1 & G2 & G3). exists ps1, r. rewrite <- G2.
    assert (Forall page_ok (q1 ++ q2)) as Hqq by (rewrite <- F1; auto). apply Forall_app in Hqq. destruct Hqq as [Hq1 Hq2].
    split; auto. split; auto. split.
    { intros i p Hin. apply Ht. rewrite G1. apply in_or_app. auto. }
    split. { destruct F3 as [->|(p & ps3 & E3 & E4 & E5)]; auto. right. exists p. split; auto. rewrite E3 in Hq2. inversion Hq2; auto. }
    intros i. apply (SINK i ps1 ps2 G1).
Qed.
Print Assumptions C78_crash.

(** C78: but with two sinks of the same tag an address does not locate the data: both sinks count from 0. *)
Definition two_sinks (i : Z) : tag := TStrData.
Definition ex_two : list maction :=
  MInvoke 1 0 (OWriteBytes TStrData [1; 2]) :: repeat (MTick 1) 3 ++
  MInvoke 2 1 (OWriteBytes TStrData [3; 4]) :: repeat (MTick 2) 3.
Theorem C78_same_tag_refuted :
  macts_ok ex_two /\ mall_idle (mexec two_sinks ex_two mconf0) /\
  mhist (mexec two_sinks ex_two mconf0)
  = [(0, HInv 1 (OWriteBytes TStrData [1; 2])); (0, HRet 1 0); (1, HInv 2 (OWriteBytes TStrData [3; 4])); (1, HRet 2 0)] /\
  exists s, split_streams (mdisk (mcmem (mexec two_sinks (ex_two ++ drop_sinks [0; 1]) mconf0))) = Ok s /\
    tget TStrData s = Some [1; 2; 3; 4] /\ zslice 0 (0 + 2) [1; 2; 3; 4] <> [3; 4].
Proof.
  split; [|split; [|split]].
  - intros tid i o H. unfold ex_two in H. cbn in H. repeat (destruct H as [H|H]; [inversion H; subst; exact I|]). destruct H.
  - intros x. unfold ex_two. vm_compute. destruct x as [|[[|[]|]|[[]|[]|]|]|]; reflexivity.
  - vm_compute. reflexivity.
  - eexists. split; [vm_compute; reflexivity|]. split; [reflexivity|]. vm_compute. discriminate.
Qed.
Print Assumptions C78_same_tag_refuted.

(** The hypotheses of C78 hold for these schedules; with different tags the second address is right. *)
Definition other_tags (i : Z) : tag := if i =? 0 then TEvents else TStrData.
Example ex_C78 : macts_ok ex_two /\ (forall tid i o, In (MInvoke tid i o) ex_two -> op_unsplit o) /\
  (forall j, used j ex_two -> other_tags j = other_tags 1 -> j = 1) /\
  split_streams (mdisk (mcmem (mexec other_tags (ex_two ++ drop_sinks [0; 1]) mconf0))) = Ok (TM (Some [1; 2]) (Some [3; 4]) None).
Proof.
  split; [apply C78_same_tag_refuted|]. split; [|split].
  - intros tid i o H. unfold ex_two in H. cbn in H.
    repeat (destruct H as [H|H]; [inversion H; subst; cbn; unfold zlen; cbn; lia|]). destruct H.
  - intros j (tid & o & H) E. unfold ex_two in H. cbn in H.
    repeat (destruct H as [H|H]; [inversion H; subst; first [reflexivity|discriminate E]|]). destruct H.
  - vm_compute. reflexivity.
Qed.
