(** Proofs about S_Run.v: from the concurrent history to a session. *)
From Coq Require Import ZArith List Lia Bool.
From Verif Require Import M_Base F_Base M_Sink S_Sink M_Conc S_Conc F_Sink F_SinkSeq F_Conc F_Conc2 M_Raw F_Raw M_Header M_V8 M_Iter
  Prop_Raw Prop_Format M_Utf8 S_Utf8 F_Utf8 M_Strings M_StrTable S_Strings F_Strings M_EventId S_EventId F_EventId
  M_Session S_Session F_Session F_Session2 Prop_Strings Prop_EventId M_Run S_Run.
Import ListNotations.
Open Scope Z_scope.

(** ** protocol *)
Definition triple (tid : Z) (x : op * Z) : list gev := [GInv tid (fst x); GLin tid (fst x) (snd x); GRet tid (snd x)].
Definition pending (tid : Z) (s : tstate) : list gev :=
  match s with TIdle => [] | TCalled o => [GInv tid o] | TDone o r => [GInv tid o; GLin tid o r] end.

Lemma protocol_shape tid l s : protocol tid l s -> exists krs, l = flat_map (triple tid) krs ++ pending tid s.
Proof.
  induction 1 as [|l o _ (krs & ->)|l o r _ (krs & ->)|l o r _ (krs & ->)].
  - exists []. reflexivity.
  - exists krs. cbn [pending]. rewrite app_nil_r. reflexivity.
  - exists krs. cbn [pending]. rewrite <- app_assoc. reflexivity.
  - exists (krs ++ [(o, r)]). cbn [pending]. rewrite flat_map_app, app_nil_r. cbn [flat_map]. rewrite app_nil_r, <- app_assoc. reflexivity.
Qed.

Lemma protocol_snoc_inv tid l e s : protocol tid (l ++ [e]) s ->
  (exists o, e = GInv tid o /\ s = TCalled o /\ protocol tid l TIdle) \/
  (exists o r, e = GLin tid o r /\ s = TDone o r /\ protocol tid l (TCalled o)) \/
  (exists o r, e = GRet tid r /\ s = TIdle /\ protocol tid l (TDone o r)).
Proof.
  intros H. inversion H as [E|l' o H' E|l' o r H' E|l' o r H' E].
  - symmetry in E. apply app_eq_nil in E. destruct E; discriminate.
  - apply app_inj_tail in E. destruct E; subst. eauto 10.
  - apply app_inj_tail in E. destruct E; subst. eauto 10.
  - apply app_inj_tail in E. destruct E; subst. eauto 10.
Qed.

Lemma protocol_nil_inv tid s : protocol tid [] s -> s = TIdle.
Proof.
  intros H. inversion H as [E|l' o H' E|l' o r H' E|l' o r H' E]; auto; apply app_eq_nil in E; destruct E; discriminate.
Qed.

Lemma protocol_fun tid l : forall s s', protocol tid l s -> protocol tid l s' -> s = s'.
Proof.
  induction l as [|e l IH] using rev_ind; intros s s' H H'.
  - apply protocol_nil_inv in H, H'. congruence.
  - apply protocol_snoc_inv in H. apply protocol_snoc_inv in H'.
    destruct H as [(o & E & -> & H)|[(o & r & E & -> & H)|(o & r & E & -> & H)]];
    destruct H' as [(o' & E' & -> & H')|[(o' & r' & E' & -> & H')|(o' & r' & E' & -> & H')]]; congruence.
Qed.

Lemma protocol_prefix tid a b s : protocol tid (a ++ b) s -> exists s', protocol tid a s'.
Proof.
  revert s. induction b as [|e b IH] using rev_ind; intros s H.
  - rewrite app_nil_r in H. eauto.
  - rewrite app_assoc in H. apply protocol_snoc_inv in H.
    destruct H as [(? & _ & _ & H)|[(? & ? & _ & _ & H)|(? & ? & _ & _ & H)]]; eauto.
Qed.

Lemma protocol_suffix tid a b : protocol tid a TIdle -> forall s, protocol tid (a ++ b) s -> protocol tid b s.
Proof.
  intros Ha. induction b as [|e b IH] using rev_ind; intros s H.
  - rewrite app_nil_r in H. rewrite (protocol_fun _ _ _ _ H Ha). constructor.
  - rewrite app_assoc in H. apply protocol_snoc_inv in H.
    destruct H as [(o & -> & -> & H)|[(o & r & -> & -> & H)|(o & r & -> & -> & H)]]; apply IH in H; econstructor; eauto.
Qed.

Lemma proj_app tid a b : proj tid (a ++ b) = proj tid a ++ proj tid b.
Proof. apply filter_app. Qed.
Lemma lins_app a b : lins (a ++ b) = lins a ++ lins b.
Proof. induction a as [|[] a IH]; cbn; auto. f_equal; auto. Qed.
Lemma erase_app a b : erase (a ++ b) = erase a ++ erase b.
Proof. induction a as [|[] a IH]; cbn; auto; f_equal; auto. Qed.

(** Cutting a ghost history after an event of the observable one. *)
Lemma erase_split g h1 e h2 : erase g = h1 ++ e :: h2 ->
  exists g1 x g2, g = g1 ++ x :: g2 /\ erase g1 = h1 /\ erase [x] = [e] /\ erase g2 = h2.
Proof.
  revert h1. induction g as [|x g IH]; intros h1 H; [destruct h1; discriminate|].
  destruct x as [t o|t o r|t r]; cbn [erase] in H.
  - destruct h1 as [|y h1]; inversion H; subst.
    + exists [], (GInv t o), g. repeat split; auto.
    + destruct (IH _ H2) as (g1 & x & g2 & -> & <- & E & <-). exists (GInv t o :: g1), x, g2. auto.
  - destruct (IH _ H) as (g1 & x & g2 & -> & <- & E & <-). exists (GLin t o r :: g1), x, g2. auto.
  - destruct h1 as [|y h1]; inversion H; subst.
    + exists [], (GRet t r), g. repeat split; auto.
    + destruct (IH _ H2) as (g1 & x & g2 & -> & <- & E & <-). exists (GRet t r :: g1), x, g2. auto.
Qed.

(** A sequential prefix of the history is a sequential prefix of the linearization. *)
Lemma sequential_prefix tid l h2 g : erase g = calls_hist tid l ++ h2 ->
  (forall x, exists s, protocol x (proj x g) s) ->
  exists g1 g2, g = g1 ++ g2 /\ erase g2 = h2 /\ lins g1 = l /\ forall x, protocol x (proj x g1) TIdle.
Proof.
  revert h2. induction l as [|[o r] l IH] using rev_ind; intros h2 H HP.
  - exists [], g. split; auto. split; auto. split; auto. intros x. constructor.
  - unfold calls_hist in H. rewrite flat_map_app in H. cbn [flat_map fst snd] in H. rewrite <- app_assoc in H. cbn [app] in H.
    destruct (IH _ H HP) as (g1 & g2 & -> & E2 & L1 & P1).
    change (HInv tid o :: HRet tid r :: h2) with ([HInv tid o] ++ HRet tid r :: h2) in E2.
    destruct (erase_split _ _ _ _ E2) as (ga & x & gb & -> & Ea & Ex & Eb).
    assert (x = GRet tid r) as -> by (destruct x; inversion Ex; reflexivity).
    assert (Q : forall y, exists s, protocol y (proj y (ga ++ [GRet tid r])) s).
    { intros y. destruct (HP y) as (s & Hs). rewrite proj_app in Hs. apply protocol_suffix in Hs; auto.
      change (ga ++ GRet tid r :: gb) with (ga ++ [GRet tid r] ++ gb) in Hs. rewrite app_assoc, proj_app in Hs.
      eapply protocol_prefix; eauto. }
    assert (G : ga = [GInv tid o; GLin tid o r] /\ protocol tid (proj tid (ga ++ [GRet tid r])) TIdle).
    { assert (Hother : forall y, y <> tid -> proj y ga = []).
      { intros y Hy. destruct (Q y) as (s & Hs). rewrite proj_app in Hs. cbn [proj filter gev_tid] in Hs.
        destruct (Z.eqb_spec tid y); [congruence|]. rewrite app_nil_r in Hs.
        destruct (protocol_shape _ _ _ Hs) as (krs & E).
        assert (NI : forall u, ~ In (GInv y u) ga).
        { intros u Hin. assert (In (HInv y u) (erase ga)) as X.
          { clear -Hin. induction ga as [|[] ga IHg]; cbn in *; [tauto|..]; destruct Hin as [Hin|Hin]; try discriminate; auto.
            inversion Hin; subst; auto. }
          rewrite Ea in X. destruct X as [X|[]]. congruence. }
        destruct krs as [|kr krs].
        - cbn in E. destruct s; cbn in E; auto.
          + exfalso. apply (NI o0). assert (In (GInv y o0) (proj y ga)) by (rewrite E; left; auto). eapply filter_In; eauto.
          + exfalso. apply (NI o0). assert (In (GInv y o0) (proj y ga)) by (rewrite E; left; auto). eapply filter_In; eauto.
        - exfalso. apply (NI (fst kr)). assert (In (GInv y (fst kr)) (proj y ga)) by (rewrite E; left; auto). eapply filter_In; eauto. }
      assert (Hall : proj tid ga = ga).
      { clear -Hother. assert (F : forall e, In e ga -> gev_tid e = tid).
        { intros e Hin. destruct (Z.eq_dec (gev_tid e) tid); auto. exfalso.
          assert (In e (proj (gev_tid e) ga)) as X by (apply filter_In; split; auto; apply Z.eqb_refl).
          rewrite Hother in X; auto. }
        clear Hother. unfold proj. induction ga as [|e ga IHg]; auto. cbn [filter].
        rewrite (F e) by (left; auto). rewrite Z.eqb_refl. f_equal. apply IHg. intros; apply F; right; auto. }
      destruct (Q tid) as (s & Hs). pose proof Hs as Hs'. rewrite proj_app, Hall in Hs. cbn [proj filter gev_tid] in Hs. rewrite Z.eqb_refl in Hs.
      apply protocol_snoc_inv in Hs. destruct Hs as [(? & ? & _)|[(? & ? & ? & _)|(o' & r' & E' & Es & Hs)]]; try discriminate.
      inversion E'; subst r'. subst s. split; auto.
      destruct (protocol_shape _ _ _ Hs) as (krs & E). rewrite E in Ea. rewrite erase_app in Ea.
      destruct krs as [|kr krs].
      - cbn in Ea. inversion Ea; subst. reflexivity.
      - cbn in Ea. inversion Ea. }
    destruct G as [-> PT].
    exists (g1 ++ [GInv tid o; GLin tid o r; GRet tid r]), gb. split; [rewrite <- app_assoc; reflexivity|]. split; auto.
    split; [rewrite lins_app, L1; reflexivity|].
    intros y. rewrite proj_app. destruct (Z.eq_dec y tid) as [->|Hy].
    + cbn [proj filter gev_tid]. rewrite Z.eqb_refl. specialize (P1 tid).
      change [GInv tid o; GLin tid o r; GRet tid r] with ([GInv tid o] ++ [GLin tid o r] ++ [GRet tid r]).
      rewrite !app_assoc. eapply pr_ret. eapply pr_lin. eapply pr_inv. exact P1.
    + cbn [proj filter gev_tid]. destruct (Z.eqb_spec tid y); [congruence|]. rewrite app_nil_r. apply P1.
Qed.

(** ** lifting operations to calls *)
Section Lift.
Variable en : endian.
Inductive low : uev -> hev -> Prop :=
| low_inv t k o : call_ok k -> call_op en k = Ok o -> low (UInv t k) (HInv t o)
| low_ret t r : low (URet t r) (HRet t r).

Inductive glow : ugev -> gev -> Prop :=
| gl_inv t k o : call_ok k -> call_op en k = Ok o -> glow (UGInv t k) (GInv t o)
| gl_lin t k o r : call_ok k -> call_op en k = Ok o -> glow (UGEff t k r) (GLin t o r)
| gl_ret t r : glow (UGRet t r) (GRet t r).

Definition upending (tid : Z) (s : option (call * option Z)) : list ugev :=
  match s with
  | None => [] | Some (k, None) => [UGInv tid k] | Some (k, Some r) => [UGInv tid k; UGEff tid k r]
  end.
Definition ulow (us : option (call * option Z)) (s : tstate) : Prop :=
  match us, s with
  | None, TIdle => True
  | Some (k, None), TCalled o => call_ok k /\ call_op en k = Ok o
  | Some (k, Some r), TDone o r' => call_ok k /\ call_op en k = Ok o /\ r' = r
  | _, _ => False
  end.

Lemma uerase_app a b : uerase (a ++ b) = uerase a ++ uerase b.
Proof. induction a as [|[] a IH]; cbn; auto; f_equal; auto. Qed.
Lemma ueffects_app a b : ueffects (a ++ b) = ueffects a ++ ueffects b.
Proof. induction a as [|[] a IH]; cbn; auto. f_equal; auto. Qed.
Lemma uproj_app tid a b : uproj tid (a ++ b) = uproj tid a ++ uproj tid b.
Proof. apply filter_app. Qed.

Lemma lift g : forall uh, Forall2 low uh (erase g) -> (forall x, exists s, protocol x (proj x g) s) ->
  exists ug, uerase ug = uh /\ Forall2 glow ug g /\
    forall x s, protocol x (proj x g) s -> exists l us, uproj x ug = thread_life x l ++ upending x us /\ ulow us s.
Proof.
  induction g as [|e g IH] using rev_ind; intros uh HL HP.
  - inversion HL; subst. exists []. split; auto. split; [constructor|]. intros x s Hs. apply protocol_nil_inv in Hs. subst.
    exists [], None. split; [reflexivity|exact I].
  - assert (HP' : forall x, exists s, protocol x (proj x g) s).
    { intros x. destruct (HP x) as (s & Hs). rewrite proj_app in Hs. eapply protocol_prefix; eauto. }
    rewrite erase_app in HL. apply Forall2_app_inv_r in HL. destruct HL as (uh1 & uh2 & H1 & H2 & ->).
    destruct (IH _ H1 HP') as (ug & <- & HG & HU).
    assert (Hother : forall (ue : ugev), ug_tid ue = gev_tid e -> forall x s, x <> gev_tid e -> protocol x (proj x (g ++ [e])) s ->
      exists l us, uproj x (ug ++ [ue]) = thread_life x l ++ upending x us /\ ulow us s).
    { intros ue Hue x s Hx Hs. rewrite proj_app in Hs. cbn [proj filter] in Hs.
      destruct (Z.eqb_spec (gev_tid e) x); [congruence|]. rewrite app_nil_r in Hs. rewrite uproj_app. cbn [uproj filter].
      rewrite Hue. destruct (Z.eqb_spec (gev_tid e) x); [congruence|]. rewrite app_nil_r. apply HU, Hs. }
    destruct (HP (gev_tid e)) as (s & Hs). rewrite proj_app in Hs. cbn [proj filter] in Hs. rewrite Z.eqb_refl in Hs.
    assert (Hme : forall s', protocol (gev_tid e) (proj (gev_tid e) (g ++ [e])) s' -> s' = s).
    { intros s' H'. rewrite proj_app in H'. cbn [proj filter] in H'. rewrite Z.eqb_refl in H'. eapply protocol_fun; eauto. }
    pose proof Hs as Hs0.
    apply protocol_snoc_inv in Hs. destruct Hs as [(o & E & -> & Hs)|[(o & r & E & -> & Hs)|(o & r & E & -> & Hs)]].
    + rewrite E in H2. cbn [erase] in H2. inversion H2 as [|u h uh' hh Hlow Hnil]; subst. inversion Hnil; subst.
      inversion Hlow as [t k o' Hk Hop|]; subst. set (t := gev_tid e) in *.
      exists (ug ++ [UGInv t k]). split; [rewrite uerase_app; reflexivity|].
      split; [apply Forall2_app; auto; rewrite E; repeat constructor; auto|].
      intros x s' Hs'. destruct (Z.eq_dec x t) as [->|Hx].
      * apply Hme in Hs'. subst s'. destruct (HU _ _ Hs) as (l & us & El & Hus). destruct us as [[? [?|]]|]; try (cbn in Hus; tauto).
        exists l, (Some (k, None)). split; [|split; auto]. rewrite uproj_app, El. cbn [uproj filter ug_tid upending]. rewrite Z.eqb_refl, app_nil_r. reflexivity.
      * apply (Hother (UGInv t k)); auto.
    + rewrite E in H2. cbn [erase] in H2. inversion H2; subst. set (t := gev_tid e) in *.
      destruct (HU _ _ Hs) as (l & us & El & Hus). destruct us as [[k [?|]]|]; try (cbn in Hus; tauto). destruct Hus as [Hk Hop].
      exists (ug ++ [UGEff t k r]). split; [rewrite uerase_app; reflexivity|].
      split; [apply Forall2_app; auto; rewrite E; repeat constructor; auto|].
      intros x s' Hs'. destruct (Z.eq_dec x t) as [->|Hx].
      * apply Hme in Hs'. subst s'. exists l, (Some (k, Some r)). split; [|repeat split; auto].
        rewrite uproj_app, El. cbn [uproj filter ug_tid upending]. rewrite Z.eqb_refl, <- app_assoc. reflexivity.
      * apply (Hother (UGEff t k r)); auto.
    + rewrite E in H2. cbn [erase] in H2. inversion H2 as [|u h uh' hh Hlow Hnil]; subst. inversion Hnil; subst.
      inversion Hlow; subst. set (t := gev_tid e) in *.
      exists (ug ++ [UGRet t r]). split; [rewrite uerase_app; reflexivity|].
      split; [apply Forall2_app; auto; rewrite E; repeat constructor; auto|].
      intros x s' Hs'. destruct (Z.eq_dec x t) as [->|Hx].
      * apply Hme in Hs'. subst s'. destruct (HU _ _ Hs) as (l & us & El & Hus). destruct us as [[k [r'|]]|]; try (cbn in Hus; tauto).
        destruct Hus as (Hk & Hop & ->). exists (l ++ [(k, r')]), None. split; [|exact I].
        rewrite uproj_app, El. cbn [uproj filter ug_tid upending]. rewrite Z.eqb_refl, app_nil_r.
        unfold thread_life. rewrite flat_map_app. cbn [flat_map fst snd]. rewrite app_nil_r, <- app_assoc. reflexivity.
      * apply (Hother (UGRet t r)); auto.
Qed.

Lemma glow_effects ug g : Forall2 glow ug g -> effects en (ueffects ug) (lins g).
Proof.
  induction 1 as [|u e ug g H _ IH]; [constructor|]. destruct H; cbn [ueffects lins]; auto. constructor; auto.
Qed.

(** ** running *)
Lemma op_ok_call k o : call_op en k = Ok o -> op_ok o.
Proof. intros H. apply call_op_data in H. tauto. Qed.

(** the schedule at the level of the sinks *)
Definition lower_act (a : uact) : action :=
  match a with
  | UCall tid k => match call_op en k with Ok o => Invoke tid o | _ => Tick (-1) end
  | UTick tid => Tick tid
  end.

Definition acts_from (acts : list action) : Prop :=
  forall t o, In (Invoke t o) acts -> exists k, call_ok k /\ call_op en k = Ok o.

Lemma urun_exec acts : ucalls_ok acts -> forall c,
  exists acts', acts_from acts' /\ uc (urun en acts c) = exec acts' (uc c) /\
    exists uh h, uhist (urun en acts c) = uhist c ++ uh /\ hist (exec acts' (uc c)) = hist (uc c) ++ h /\
      ((forall x, ~ In (HPanic x) h) -> Forall2 low uh h).
Proof.
  intros Hok. induction acts as [|a acts IH] using rev_ind; intros c.
  - exists []. split; [intros ? ? []|]. split; auto. exists [], []. rewrite !app_nil_r. auto.
  - assert (Hok' : ucalls_ok acts) by (intros t k Hin; apply (Hok t k); apply in_or_app; auto).
    destruct (IH Hok' c) as (acts' & Ha & Ec & uh & h & Eu & Eh & HL). unfold urun in *. rewrite fold_left_app. cbn [fold_left].
    set (c1 := fold_left (ustep en) acts c) in *.
    assert (Hsame : forall u, uc u = uc c1 -> uhist u = uhist c1 -> exists acts'0, acts_from acts'0 /\ uc u = exec acts'0 (uc c) /\
       exists uh h, uhist u = uhist c ++ uh /\ hist (exec acts'0 (uc c)) = hist (uc c) ++ h /\ ((forall x, ~ In (HPanic x) h) -> Forall2 low uh h)).
    { intros u E1 E2. exists acts'. rewrite E1, E2. split; auto. split; auto. exists uh, h. auto. }
    destruct a as [tid k|tid]; cbn [ustep].
    + destruct (thr (uc c1) tid) eqn:Et; [apply Hsame; auto|]. destruct (call_op en k) as [o| | |] eqn:Eo; try (apply Hsame; auto; fail).
      exists (acts' ++ [Invoke tid o]). split.
      { intros t' o' Hin. apply in_app_or in Hin. destruct Hin as [Hin|[Hin|[]]]; [eapply Ha; eauto|]. inversion Hin; subst. exists k. split; auto. apply (Hok t' k), in_or_app. right. left. auto. }
      cbn [uc uhist]. rewrite exec_app, <- Ec. cbn [exec fold_left]. split; auto. 
      exists (uh ++ [UInv tid k]), (h ++ [HInv tid o]). rewrite Eu, app_assoc. split; auto. split.
      { cbn [cstep]. rewrite Et. cbn [hist]. rewrite Ec, Eh, app_assoc. reflexivity. }
      intros HP. apply Forall2_app; [apply HL; intros x Hx; apply (HP x), in_or_app; auto|]. constructor; [|constructor]. constructor; auto.
      apply (Hok tid k), in_or_app. right. left. auto.
    + exists (acts' ++ [Tick tid]). split.
      { intros t' o' Hin. apply in_app_or in Hin. destruct Hin as [Hin|[Hin|[]]]; [eapply Ha; eauto|]. discriminate. }
      rewrite exec_app. cbn [exec fold_left]. fold (exec acts' (uc c)). rewrite <- Ec in *.
      destruct (thr (uc c1) tid) as [p|] eqn:Et.
      * destruct p as [r | |? ?|? ? ?|?|? ?|?]; cbn [uc uhist]; (split; [reflexivity|]); cbn [cstep]; rewrite Et.
        -- exists (uh ++ [URet tid r]), (h ++ [HRet tid r]). cbn [hist]. rewrite Eu, Eh, !app_assoc. split; auto. split; auto.
           intros HP. apply Forall2_app; [apply HL; intros x Hx; apply (HP x), in_or_app; auto|]. repeat constructor.
        -- exists (uh ++ [UPanic tid]), (h ++ [HPanic tid]). cbn [hist]. rewrite Eu, Eh, !app_assoc. split; auto. split; auto.
           intros HP. exfalso. apply (HP tid), in_or_app. right. left. auto.
        -- exists uh, h. destruct (prog_step tid (cmem (uc c1)) _) as [[m' p']|]; cbn [hist]; auto.
        -- exists uh, h. destruct (prog_step tid (cmem (uc c1)) _) as [[m' p']|]; cbn [hist]; auto.
        -- exists uh, h. destruct (prog_step tid (cmem (uc c1)) _) as [[m' p']|]; cbn [hist]; auto.
        -- exists uh, h. destruct (prog_step tid (cmem (uc c1)) _) as [[m' p']|]; cbn [hist]; auto.
        -- exists uh, h. destruct (prog_step tid (cmem (uc c1)) _) as [[m' p']|]; cbn [hist]; auto.
      * cbn [uc uhist]. split; [reflexivity|]. cbn [cstep]. rewrite Et. exists uh, h. auto.
Qed.
End Lift.

Lemma init_ops_ok H md r0 o2 r2 : map fst H = init_headers -> init_op2 r0 = Ok o2 ->
  Forall op_ok (map fst (H ++ [(init_alloc md, r0); (o2, r2)])).
Proof.
  intros HH H2. rewrite map_app, HH. apply Forall_app. split; [repeat constructor|]. cbn [map fst].
  constructor; [apply alloc_op_ok|]. constructor; [|constructor]. unfold init_op2 in H2.
  apply bind_ok in H2. destruct H2 as (id & _ & H2). apply bind_ok in H2. destruct H2 as (a & _ & H2). inversion H2. apply index_op_ok.
Qed.

(** [started] configurations come from admissible schedules only if the schedule's calls are the
    recorded ones; calls that the schedule tried on a busy thread are ignored, so drop them. *)
Fixpoint effective (acts : list action) (c : conf) : list action :=
  match acts with
  | [] => []
  | a :: acts' =>
      match a with
      | Invoke tid o => match thr c tid with Some _ => effective acts' c | None => a :: effective acts' (cstep c a) end
      | Tick _ => a :: effective acts' (cstep c a)
      end
  end.
Lemma effective_exec acts : forall c, exec (effective acts c) c = exec acts c.
Proof.
  induction acts as [|[tid o|tid] acts IH]; intros c; cbn [effective]; auto.
  - destruct (thr c tid) eqn:E; cbn [exec fold_left cstep]; rewrite E.
    + rewrite IH. reflexivity.
    + specialize (IH (cstep c (Invoke tid o))). cbn [cstep] in IH. rewrite E in IH. exact IH.
  - cbn [exec fold_left]. apply IH.
Qed.
Lemma effective_hist acts : forall c tid o, In (Invoke tid o) (effective acts c) ->
  In (HInv tid o) (hist (exec acts c)).
Proof.
  assert (mono : forall acts c x, In x (hist c) -> In x (hist (exec acts c))).
  { clear. induction acts as [|a acts IH]; intros c x Hx; auto. cbn [exec fold_left]. apply IH.
    destruct a as [t o|t]; cbn [cstep].
    - destruct (thr c t); cbn [hist]; auto. apply in_or_app; auto.
    - destruct (thr c t) as [[]|]; cbn [hist]; auto; try (apply in_or_app; auto; fail);
      match goal with |- context [prog_step ?a ?b ?d] => destruct (prog_step a b d) as [[]|] end; auto. }
  induction acts as [|[t o'|t] acts IH]; intros c tid o Hin; cbn [effective] in Hin; [destruct Hin|..].
  - destruct (thr c t) eqn:E; cbn [exec fold_left cstep]; rewrite E.
    + apply IH, Hin.
    + destruct Hin as [Hin|Hin].
      * inversion Hin; subst. apply mono. cbn [hist]. apply in_or_app. right. left. auto.
      * apply IH in Hin. cbn [cstep] in Hin. rewrite E in Hin. exact Hin.
  - destruct Hin as [Hin|Hin]; [discriminate|]. cbn [exec fold_left]. apply IH, Hin.
Qed.

Lemma in_calls_hist tid l t o : In (HInv t o) (calls_hist tid l) -> In o (map fst l).
Proof.
  unfold calls_hist. rewrite in_flat_map. intros (x & Hx & [E|[E|[]]]); inversion E; subst. apply in_map; auto.
Qed.

Section RunFacts.
Variables (en : endian) (md : bytes) (r0 : Z) (c0 : conf) (acts : list uact) (drops : list op).
Hypothesis Hmd : utf8 md.
Hypothesis Hst : started md r0 c0.
Hypothesis Hok : ucalls_ok acts.
Let c := urun en acts (mkU c0 []).
Hypothesis Hidle : all_idle (uc c).
Hypothesis Hdrops : Forall is_drop drops.
Hypothesis Hall : forall t, In (ODrop t) drops.

Lemma concurrent_session : exists K L, linearization (uhist c) K /\ session en md r0 K L /\
  split_streams (disk (snd (run_ops drops (cmem (uc c))))) = Ok (streams_of (fun t => written t (map fst L))).
Proof.
  destruct Hst as (acts0 & tid0 & H & o2 & r2 & Ec0 & Hi0 & HH & H2 & Hh).
  destruct (urun_exec en acts Hok (mkU c0 [])) as (acts' & Ha' & Ec & uh & h & Eu & Eh & HL). fold c in Ec, Eu. cbn [uc uhist app] in *.
  assert (Hexec : uc c = exec (effective acts0 conf0 ++ acts') conf0) by (rewrite exec_app, effective_exec, <- Ec0; exact Ec).
  assert (Hgood : acts_ok (effective acts0 conf0 ++ acts')).
  { intros t o Hin. apply in_app_or in Hin. destruct Hin as [Hin|Hin]; [|destruct (Ha' _ _ Hin) as (k & _ & Hk); eapply op_ok_call; eauto].
    apply effective_hist in Hin. rewrite <- Ec0, Hh in Hin. apply in_calls_hist in Hin.
    pose proof (init_ops_ok H md r0 o2 r2 HH H2) as F. rewrite Forall_forall in F. auto. }
  assert (Hc : cinv (fun _ => False) (uc c)).
  { rewrite Hexec. apply cinv_exec; [apply acts_ok_good; auto|apply cinv0]. }
  destruct (idle_drops _ _ drops Hc Hidle Hdrops Hall) as (g & Hg & Hsc & Hpr & Hsp).
  rewrite Ec, Eh, Hh in Hg.
  assert (HP : forall x, ~ In (HPanic x) h).
  { intros x Hx. assert (In (HPanic x) (erase g)) as X by (rewrite Hg; apply in_or_app; auto).
    clear -X. induction g as [|[] g IH]; cbn in X; auto; destruct X as [X|X]; try discriminate; auto. }
  destruct (sequential_prefix _ _ _ _ Hg) as (g1 & g2 & -> & E2 & L1 & P1); [eauto|].
  assert (P2 : forall x, protocol x (proj x g2) TIdle).
  { intros x. specialize (Hpr x). rewrite proj_app in Hpr. apply (protocol_suffix x (proj x g1)); auto. }
  destruct (lift en g2 uh) as (ug & Eug & HG & HU).
  { rewrite E2. apply HL, HP. } { eauto. }
  exists (ueffects ug), (lins (g1 ++ g2)). split; [|split].
  - exists ug. rewrite Eu. split; auto. split; auto. intros x. destruct (HU x TIdle (P2 x)) as (l & us & El & Hus).
    destruct us as [[? [?|]]|]; try (cbn in Hus; tauto). cbn [upending] in El. rewrite app_nil_r in El. eauto.
  - split; auto. split; auto. exists H, o2, r2, (lins g2). split; auto. split; auto. split; [apply glow_effects; auto|].
    rewrite lins_app, L1, <- app_assoc. reflexivity.
  - exact Hsp.
Qed.
End RunFacts.

(** ** decoding the file of a session *)
Lemma denotes_utf8 en md r0 K L : session en md r0 K L -> forall id text,
  denotes (allocated md r0 K) (resolved r0 K) id text -> utf8 text.
Proof.
  intros HS.
  apply (denotes_ind2 (allocated md r0 K) (resolved r0 K) (fun _ text _ => utf8 text)
    (fun cs text _ => Forall comp_ok cs -> utf8 text)); intros.
  - apply utf8_ascii_list; unfold unknown_text; repeat constructor; lia.
  - apply utf8_ascii_list; unfold unknown_text; repeat constructor; lia.
  - auto.
  - destruct (session_alloc en md r0 K L HS _ _ a) as (Hs & _). exact Hs.
  - destruct (session_alloc en md r0 K L HS _ _ a) as (Hs & _). apply H. exact Hs.
  - apply utf8_nil.
  - inversion H0; subst. apply utf8_app; auto.
  - inversion H1; subst. apply utf8_app; auto.
Qed.

Section Decode.
Variables (en : endian) (md : bytes) (r0 : Z) (K : list (call * Z)) (L : list (op * Z)).
Hypothesis HS : session en md r0 K L.
Let tbl := session_table K L.

Lemma reads_to_string id text : reads md r0 K id text ->
  exists n, forall m, (n <= m)%nat -> to_string m tbl id = Ok text.
Proof.
  intros [Hd Hf].
  assert (Hw : exists n, forall m, (n <= m)%nat -> write_to_string m tbl id = Ok text) by (apply (session_expansion en md r0 K L HS); auto).
  destruct Hd as [|v Hv Hr|v c s Hv Hr Hd|id s Ha|id cs s Ha _].
  - exists 1%nat. intros [|m] Hm; [lia|]. apply unknown_to_string. reflexivity.
  - exists 1%nat. intros [|m] Hm; [lia|]. apply unknown_to_string. rewrite (session_get_virtual en md r0 K L HS) by auto. rewrite Hr. reflexivity.
  - assert (exists x, allocated md r0 K c x) as (x & Hx).
    { assert (Hc : 100000003 <= c).
      { pose proof (session_resolve en md r0 K L HS v Hv) as R. rewrite Hr in R. apply R. }
      inversion Hd; subst; try lia; eauto. }
    apply (entry_to_string en md r0 K L HS v c x); auto.
  - apply (entry_to_string en md r0 K L HS id id (SStr s)); auto.
  - apply (entry_to_string en md r0 K L HS id id (SComps cs)); auto.
Qed.

Lemma session_recorded : Forall (fun e => match e with
  | (kind, id, tid, w) => is_u64 kind /\ is_u64 id /\ is_u32 tid /\
      match w with WInstant t => is_u64 t /\ t <= MAX_SINGLE_VALUE | WInteger v => is_u64 v /\ v <= MAX_SINGLE_VALUE
                 | WInterval s e => is_u64 s /\ is_u64 e /\ s <= e /\ e <= MAX_INTERVAL_VALUE end end) (recorded K).
Proof.
  destruct (session_effects en md r0 K L HS) as (L2 & He). apply effects_accepted in He. clear -He.
  induction He as [|[k r] K' [H1 H2] _ IH]; cbn [recorded fst] in *; [constructor|].
  destruct k; cbn [call_event call_ok accepted] in *; auto; constructor; auto; tauto.
Qed.

Definition raw_good (w : Z * Z * Z * want) : Prop :=
  raw_ok (want_raw w) /\ forall st, payload_from_raw_event (want_raw w) st = Ok (shown st (snd w)) /\
  event_kind (want_raw w) = fst (fst (fst w)) /\ event_id (want_raw w) = snd (fst (fst w)) /\ thread_id (want_raw w) = snd (fst w).

Lemma session_raw_good : Forall raw_good (recorded K).
Proof.
  eapply Forall_impl; [|apply session_recorded]. intros [[[kind id] tid] w] (Hk & Hi & Ht & Hw).
  pose proof marker_u48 as [M1 M2].
  assert (B : MAX_SINGLE_VALUE = 281474976710655 /\ MAX_INTERVAL_VALUE = 281474976710653) by (split; reflexivity). destruct B as [B1 B2].
  destruct w as [t|v|s e]; unfold raw_good; cbn [want_raw fst snd].
  - destruct Hw as [Hu Hm]. assert (Hn : is_u48 t) by (unfold is_u48, is_u64 in *; lia).
    split; [apply pack_raw_ok; auto|]. intros st.
    assert (E : new_instant kind id tid t = Ok (pack_values kind id tid t INSTANT_MARKER)).
    { unfold new_instant. destruct (Z.leb_spec t MAX_SINGLE_VALUE); [reflexivity|lia]. }
    destruct (C07_instant kind id tid t _ st Hu E) as (_ & E2 & E3 & E4 & E5). auto.
  - destruct Hw as [Hu Hm]. assert (Hn : is_u48 v) by (unfold is_u48, is_u64 in *; lia).
    split; [apply pack_raw_ok; auto|]. intros st.
    assert (E : new_integer kind id tid v = Ok (pack_values kind id tid v INTEGER_MARKER)).
    { unfold new_integer. destruct (Z.leb_spec v MAX_SINGLE_VALUE); [reflexivity|lia]. }
    destruct (C07_integer kind id tid v _ st Hu E) as (_ & E2 & E3 & E4 & E5). auto.
  - destruct Hw as (Hu & Hu' & Hle & Hm). assert (Hn : is_u48 s /\ is_u48 e) by (unfold is_u48, is_u64 in *; lia).
    split; [apply pack_raw_ok; tauto|]. intros st.
    assert (E : new_interval kind id tid s e = Ok (pack_values kind id tid s e)).
    { unfold new_interval. destruct (Z.leb_spec s e); [|lia]. destruct (Z.leb_spec e MAX_INTERVAL_VALUE); [reflexivity|lia]. }
    destruct (C07_interval kind id tid s e _ st Hu Hu' E) as (_ & _ & E2 & E3 & E4 & E5). auto.
Qed.

Definition session_decoder (m : metadata) : decoder := mkDecoder (written TEvents (map fst L)) tbl m.

Lemma raw_stream_len : zlen (written TEvents (map fst L)) = 8 + zlen (recorded K) * 32.
Proof.
  rewrite (session_written en md r0 K L HS TEvents), zlen_app, zlen_hdr by reflexivity. f_equal.
  rewrite (concat_len 32); [rewrite !zlen_map; reflexivity|]. apply Forall_map, Forall_forall. intros e _. apply zlen_raw_bytes.
Qed.

Lemma session_num m : num_events (session_decoder m) = Ok (zlen (recorded K)).
Proof.
  unfold num_events, session_decoder. cbn [event_data]. rewrite raw_stream_len.
  change FILE_HEADER_SIZE with 8. change RAW_EVENT_SIZE with 32.
  replace (8 + zlen (recorded K) * 32 - 8) with (zlen (recorded K) * 32) by lia.
  rewrite Z.mod_mul, Z.div_mul by lia. reflexivity.
Qed.

Lemma session_raw_at en' m i w : nth_error (recorded K) i = Some w ->
  raw_at en' (session_decoder m) (Z.of_nat i) = Ok (want_raw w).
Proof.
  intros Hi. unfold raw_at, event_index_to_addr, session_decoder. cbn [event_data]. rewrite raw_stream_len.
  change FILE_HEADER_SIZE with 8. change RAW_EVENT_SIZE with 32.
  assert (Hlt : (i < length (recorded K))%nat) by (apply nth_error_Some; congruence).
  destruct (Z.leb_spec (8 + Z.of_nat i * 32 + 32) (8 + zlen (recorded K) * 32)); [|unfold zlen in *; lia].
  rewrite (session_written en md r0 K L HS TEvents).
  apply nth_error_split in Hi. destruct Hi as (l1 & l2 & E & <-). pose proof session_raw_good as G.
  rewrite E in *. rewrite !map_app. cbn [map]. rewrite concat_app. cbn [concat]. rewrite app_assoc.
  assert (El : zlen (hdr FILE_MAGIC_EVENT_STREAM ++ concat (map raw_bytes (map want_raw l1))) = 8 + Z.of_nat (length l1) * 32).
  { rewrite zlen_app, zlen_hdr by reflexivity. f_equal.
    rewrite (concat_len 32); [rewrite !zlen_map; reflexivity|]. apply Forall_map, Forall_forall. intros e _. apply zlen_raw_bytes. }
  rewrite zslice_mid_eq.
  - rewrite deserialize_eq, zlen_raw_bytes. change (32 =? 32) with true. cbv iota. f_equal. apply raw_of_bytes.
    apply Forall_app in G. destruct G as [_ G]. inversion G as [|? ? [G1 _]]; auto.
  - symmetry. exact El.
  - rewrite El, zlen_raw_bytes. reflexivity.
Qed.

Lemma session_lw en' m i w : nth_error (recorded K) i = Some w ->
  decode_lightweight_event en' (session_decoder m) (Z.of_nat i)
  = Ok (mkLw (Z.of_nat i) (snd (fst w)) (shown (md_start_time m) (snd w))).
Proof.
  intros Hi. unfold decode_lightweight_event. rewrite (session_raw_at en' m i w Hi). cbn [bind].
  pose proof session_raw_good as G. rewrite Forall_forall in G. destruct (G w (nth_error_In _ _ Hi)) as [_ G'].
  destruct (G' (md_start_time m)) as (E1 & _ & _ & E4). cbn [d_metadata session_decoder]. rewrite E1. cbn [bind]. rewrite E4. reflexivity.
Qed.

Lemma session_full en' m i w e : nth_error (recorded K) i = Some w ->
  should_read md r0 K (md_start_time m) w e ->
  exists n, forall f, (n <= f)%nat -> decode_full_event f en' (session_decoder m) (Z.of_nat i) = Ok e.
Proof.
  intros Hi HR. destruct w as [[[kind id] tid] w]. destruct HR as (Hk & (text & Ht & Ej & Gl & Ga) & Hp & Htid).
  destruct (reads_to_string _ _ Hk) as (n1 & N1). destruct (reads_to_string _ _ Ht) as (n2 & N2).
  exists (n1 + n2)%nat. intros f Hf. unfold decode_full_event. rewrite (session_raw_at en' m i _ Hi). cbn [bind].
  pose proof session_raw_good as G. rewrite Forall_forall in G. destruct (G _ (nth_error_In _ _ Hi)) as [_ G'].
  destruct (G' (md_start_time m)) as (E1 & E2 & E3 & E4). cbn [d_metadata session_decoder stringtable]. rewrite E1. cbn [bind].
  rewrite E3, E2, E4. cbn [fst snd]. rewrite N2 by lia. cbn [bind].
  assert (U : utf8 (join (ev_label e) (ev_args e))) by (rewrite <- Ej; apply (denotes_utf8 en md r0 K L HS id); apply Ht).
  destruct (utf8_join _ _ U) as [U1 U2]. rewrite Ej, C19_parse by auto. cbn [bind fst snd]. rewrite N1 by lia. cbn [bind].
  destruct e; cbn in *; subst. reflexivity.
Qed.

Lemma Forall2_len {A B} (R : A -> B -> Prop) l l' : Forall2 R l l' -> length l = length l'.
Proof. induction 1; cbn; auto. Qed.
Lemma nth_combine {A B} (q : list A) : forall (l : list B) i a b, nth_error (combine q l) i = Some (a, b) ->
  nth_error q i = Some a /\ nth_error l i = Some b.
Proof.
  induction q as [|x q IH]; intros l i a b Ec; [destruct i; discriminate|]. destruct l as [|y l]; [destruct i; discriminate|].
  destruct i; cbn in *; [inversion Ec; auto|auto].
Qed.
Lemma mapM_ok {A B} (f : A -> res B) l bs : Forall2 (fun a b => f a = Ok b) l bs -> mapM f l = Ok bs.
Proof. induction 1 as [|a b l bs H _ IH]; [reflexivity|]. cbn [mapM]. rewrite H. cbn [bind]. rewrite IH. reflexivity. Qed.

Lemma session_iter_full en' m es : zlen (recorded K) < 2 ^ 64 ->
  Forall2 (should_read md r0 K (md_start_time m)) (recorded K) es ->
  exists n, forall f, (n <= f)%nat -> iter_full f en' (session_decoder m) = Ok es.
Proof.
  intros Hlen HF.
  assert (HX : exists n, forall f, (n <= f)%nat -> forall i e, nth_error es i = Some e ->
    decode_full_event f en' (session_decoder m) (Z.of_nat i) = Ok e).
  { assert (HY : forall i w e, nth_error (recorded K) i = Some w -> nth_error es i = Some e ->
      exists n, forall f, (n <= f)%nat -> decode_full_event f en' (session_decoder m) (Z.of_nat i) = Ok e).
    { intros i w e Hw He. eapply session_full; eauto.
      clear -HF Hw He. revert i Hw He. induction HF as [|w' e' ws es H _ IH]; intros [|i] Hw He; try discriminate.
      - cbn in *. congruence.
      - eapply IH; eauto. }
    assert (HL : length es = length (recorded K)) by (symmetry; eapply Forall2_len; eauto).
    assert (HN : forall j, (j <= length es)%nat -> exists n, forall f, (n <= f)%nat -> forall i e, (i < j)%nat -> nth_error es i = Some e ->
      decode_full_event f en' (session_decoder m) (Z.of_nat i) = Ok e).
    { induction j as [|j IHj]; intros Hj; [exists 0%nat; intros; lia|]. destruct IHj as (n & Hn); [lia|].
      destruct (nth_error es j) as [e|] eqn:Ee; [|apply nth_error_None in Ee; lia].
      destruct (nth_error (recorded K) j) as [w|] eqn:Ew; [|apply nth_error_None in Ew; lia].
      destruct (HY j w e Ew Ee) as (n' & Hn'). exists (n + n')%nat. intros f Hf i e' Hi He'.
      destruct (Nat.eq_dec i j) as [->|]; [rewrite Ee in He'; inversion He'; subst; apply Hn'; lia|]. apply Hn; auto; lia. }
    destruct (HN (length es)) as (n & Hn); [lia|]. exists n. intros f Hf i e He. apply Hn; auto. apply nth_error_Some. congruence. }
  destruct HX as (n & Hn). exists (n + S (length (recorded K)))%nat. intros f Hf.
  unfold iter_full. rewrite session_num. cbn [bind].
  set (lws := map (fun p => mkLw (Z.of_nat (fst p)) (snd (fst (snd p))) (shown (md_start_time m) (snd (snd p))))
                  (combine (seq 0 (length (recorded K))) (recorded K))).
  assert (Hlw : length lws = length (recorded K)) by (unfold lws; rewrite map_length, combine_length, seq_length; lia).
  assert (Hz : zlen (recorded K) = zlen lws) by (unfold zlen; congruence).
  assert (Hnth : forall i a, nth_error lws i = Some a -> exists w, nth_error (recorded K) i = Some w /\
     a = mkLw (Z.of_nat i) (snd (fst w)) (shown (md_start_time m) (snd w))).
  { intros i a Ha. unfold lws in Ha. rewrite nth_error_map in Ha.
    destruct (nth_error (combine _ _) i) as [[j w]|] eqn:Ec; inversion Ha; subst. cbn [fst snd].
    assert (E : nth_error (seq 0 (length (recorded K))) i = Some j /\ nth_error (recorded K) i = Some w).
    { apply nth_combine, Ec. }
    destruct E as [E1 E2]. assert (Hi : (i < length (recorded K))%nat) by (apply nth_error_Some; congruence).
    apply (nth_error_nth _ _ 0%nat) in E1. rewrite seq_nth in E1 by auto. cbn in E1. subst j. eauto. }
  rewrite Hz.
  destruct (C24_collect _ lws (decode_lightweight_event en' (session_decoder m))) with (n := f) as [-> _].
  { intros i a Ha. destruct (Hnth i a Ha) as (w & Hw & ->). apply session_lw, Hw. }
  { lia. } { lia. }
  cbn [bind]. apply mapM_ok.
  assert (HL : length lws = length es) by (rewrite Hlw; eapply Forall2_len; eauto).
  assert (Hall : forall i a e, nth_error lws i = Some a -> nth_error es i = Some e ->
     decode_full_event f en' (session_decoder m) (lw_index a) = Ok e).
  { intros i a e Ha He. destruct (Hnth i a Ha) as (w & _ & ->). cbn [lw_index]. apply Hn; auto. lia. }
  clear -HL Hall. revert es HL Hall. generalize lws as l. induction l as [|a l IH]; intros [|e es] HL Hall; try discriminate; [constructor|].
  constructor; [apply (Hall 0%nat); reflexivity|]. apply IH; [cbn in HL; lia|]. intros i x y Hx Hy. apply (Hall (S i)); auto.
Qed.

Lemma present_hdr magic rest : zlen magic = 4 -> present (hdr magic ++ rest) = Some (hdr magic ++ rest).
Proof. intros H. unfold hdr. destruct magic; [discriminate|reflexivity]. Qed.

Lemma session_metadata : exists n, forall f, (n <= f)%nat -> metadata_string f tbl = Ok md.
Proof.
  unfold metadata_string.
  assert (R : resolved r0 K METADATA_STRING_ID = Some (r0 + 100000003)) by reflexivity.
  assert (A : allocated md r0 K (r0 + 100000003) (SStr md)).
  { left. split; auto. rewrite (session_r0 en md r0 K L HS). reflexivity. }
  apply (entry_to_string en md r0 K L HS METADATA_STRING_ID (r0 + 100000003) (SStr md)); auto.
  - right. split; auto. unfold METADATA_STRING_ID, MAX_USER_VIRTUAL_STRING_ID; lia.
  - apply fast_path_plain. apply HS.
  - apply (session_expansion en md r0 K L HS). eapply d_mapped; [|exact R|].
    + unfold METADATA_STRING_ID, MAX_USER_VIRTUAL_STRING_ID; lia.
    + apply d_str. exact A.
Qed.

Lemma session_decoder_new parse m pages : parse md = Ok m ->
  split_streams pages = Ok (streams_of (fun t => written t (map fst L))) ->
  exists n, forall f, (n <= f)%nat -> decoder_new parse f (file_of pages) = Ok (session_decoder m).
Proof.
  intros Hm Hsp. destruct session_metadata as (n & Hn). exists n. intros f Hf. unfold decoder_new, file_of.
  change (concat (header_writes FILE_MAGIC_TOP_LEVEL)) with (hdr FILE_MAGIC_TOP_LEVEL).
  rewrite verify_hdr by reflexivity. cbn [bind]. rewrite zdrop_app_eq by reflexivity. rewrite Hsp. cbn [bind tget]. unfold streams_of. cbn [tm_sd tm_si tm_ev].
  rewrite (session_written en md r0 K L HS TStrData), (session_written en md r0 K L HS TStrIndex), (session_written en md r0 K L HS TEvents).
  rewrite !present_hdr by reflexivity. cbn [bind ok_or_err]. unfold from_separate_buffers. rewrite verify_hdr by reflexivity. cbn [bind].
  pose proof (session_table_new en md r0 K L HS) as T.
  rewrite (session_written en md r0 K L HS TStrData), (session_written en md r0 K L HS TStrIndex) in T. rewrite T. cbn [bind].
  fold tbl. rewrite Hn by auto. cbn [bind]. rewrite Hm. cbn [bind]. unfold session_decoder.
  rewrite (session_written en md r0 K L HS TEvents). reflexivity.
Qed.
End Decode.

(** ** crash: what the complete pages of the events stream contain *)
Lemma effects_split en K : forall La Lb, effects en K (La ++ Lb) ->
  exists K1 K2, K = K1 ++ K2 /\ effects en K1 La /\ effects en K2 Lb.
Proof.
  intros La. revert K. induction La as [|[o r] La IH]; intros K Lb H; cbn [app] in H.
  - exists [], K. split; auto. split; auto. constructor.
  - inversion H as [|k r' o' K' L' Hk Hop He]; subst. destruct (IH _ _ He) as (K1 & K2 & -> & H1 & H2).
    exists ((k, r) :: K1), K2. split; auto. split; auto. constructor; auto.
Qed.
Lemma recorded_app a b : recorded (a ++ b) = recorded a ++ recorded b.
Proof. induction a as [|[k r] a IH]; cbn [app recorded]; auto. destruct (call_event k); rewrite IH; reflexivity. Qed.

Lemma call_op_events en k o : call_op en k = Ok o -> ~ op_flushes o /\
  (op_tag o = TEvents -> op_unsplit o /\ zlen (op_data o) <= 32).
Proof.
  assert (R : forall e, op_unsplit (record_raw_event en e) /\ zlen (op_data (record_raw_event en e)) <= 32).
  { intros e. split; [vm_compute; congruence|]. rewrite record_op_data, zlen_raw_bytes. lia. }
  destruct k; cbn [call_op]; intros H.
  - inversion H; subst. split; [intros []|intros E; discriminate E].
  - unfold map_virtual_op in H. destruct (_ <=? _); [|discriminate]. apply bind_ok in H. destruct H as (a & _ & H). inversion H; subst.
    split; [intros []|intros E; discriminate E].
  - unfold bulk_map_op in H. apply bind_ok in H. destruct H as (a & _ & H). apply bind_ok in H. destruct H as (b & _ & H). inversion H; subst.
    split; [intros []|intros E; discriminate E].
  - apply bind_ok in H. destruct H as (e & _ & H). inversion H; subst. split; [intros []|intros _; apply R].
  - apply bind_ok in H. destruct H as (e & _ & H). inversion H; subst. split; [intros []|intros _; apply R].
  - apply bind_ok in H. destruct H as (e & _ & H). inversion H; subst. split; [intros []|intros _; apply R].
Qed.

Lemma init_op2_index r0 o2 : init_op2 r0 = Ok o2 -> exists a, o2 = index_op METADATA_STRING_ID a.
Proof.
  unfold init_op2. intros H. apply bind_ok in H. destruct H as (i & _ & H). apply bind_ok in H. destruct H as (a & _ & H). inversion H. eauto.
Qed.

Lemma init_events H md r0 o2 r2 : map fst H = init_headers -> init_op2 r0 = Ok o2 ->
  forall o, In o (map fst (H ++ [(init_alloc md, r0); (o2, r2)])) ->
    ~ op_flushes o /\ (op_tag o = TEvents -> op_unsplit o /\ zlen (op_data o) <= 32).
Proof.
  intros HH H2 o Ho. destruct (init_op2_index _ _ H2) as (a & ->).
  rewrite map_app, HH in Ho. cbn [map fst] in Ho. apply in_app_or in Ho.
  destruct Ho as [Ho|[<-|[<-|[]]]]; [|split; [intros []|intros E; discriminate E]..].
  cbn in Ho. repeat (destruct Ho as [<-|Ho]; [split; [intros []|]; try (intros E; discriminate E); intros _; vm_compute; split; congruence|]).
  destruct Ho.
Qed.

Lemma boundary_events en md r0 K L P : session en md r0 K L -> page_boundary TEvents (map fst L) P ->
  P = [] \/ exists k, P = hdr FILE_MAGIC_EVENT_STREAM ++ concat (map raw_bytes (map want_raw (firstn k (recorded K)))).
Proof.
  intros HS [->|(l1 & o & l2 & E & EP & Et & Hover)]; [left; auto|]. right.
  destruct HS as (Hmd & Hsc & H & o2 & r2 & L2 & HH & H2 & He & EL).
  set (I := H ++ [(init_alloc md, r0); (o2, r2)]).
  assert (EL' : L = I ++ L2) by (unfold I; rewrite <- app_assoc; exact EL).
  assert (Hin : ~ op_flushes o /\ (op_tag o = TEvents -> op_unsplit o /\ zlen (op_data o) <= 32)).
  { assert (Ho : In o (map fst L)) by (rewrite E; apply in_or_app; right; left; auto).
    rewrite EL', map_app in Ho. apply in_app_or in Ho. destruct Ho as [Ho|Ho].
    - eapply init_events; eauto.
    - apply in_map_iff in Ho. destruct Ho as ([o' r] & Eo & Ho). cbn in Eo. subst o'.
      clear -He Ho. induction He as [|k r' o' K L Hk Hop _ IH]; [destruct Ho|]. destruct Ho as [Ho|Ho]; auto.
      inversion Ho; subst. eapply call_op_events; eauto. }
  destruct Hin as [Hnf Hev]. destruct Hover as [Hover|Hover]; [contradiction|]. destruct (Hev Et) as [_ Hsz].
  assert (WI : written TEvents (map fst I) = hdr FILE_MAGIC_EVENT_STREAM).
  { unfold I. rewrite map_app, HH, written_app. destruct (init_op2_index _ _ H2) as (a & ->). reflexivity. }
  (* l1 extends past the initialisation *)
  assert (HX : exists l1', l1 = map fst I ++ l1').
  { rewrite EL', map_app in E. clear -E EP Hover Hsz WI.
    assert (G : forall (a b c d : list op), a ++ b = c ++ d -> (exists x, c = a ++ x) \/ (exists x, a = c ++ x)).
    { clear. induction a as [|x a IH]; intros b c d H; [left; exists c; auto|]. destruct c as [|y c]; [right; exists (x :: a); auto|].
      cbn [app] in H. inversion H; subst. destruct (IH b c d H2) as [(z & ->)|(z & ->)]; [left|right]; exists z; auto. }
    destruct (G _ _ _ _ E) as [X|(x & Hx)]; auto. exfalso.
    assert (zlen P <= 8).
    { assert (zlen (written TEvents (map fst I)) = 8) by (rewrite WI; reflexivity). rewrite Hx in H0. rewrite written_app, zlen_app in H0.
      rewrite EP. pose proof (zlen_nonneg (written TEvents x)). lia. }
    lia. }
  destruct HX as (l1' & ->). rewrite EL', map_app, <- app_assoc in E. apply app_inv_head in E.
  assert (HL2 : exists La Lb, L2 = La ++ Lb /\ map fst La = l1').
  { clear -E. revert l1' E. induction L2 as [|x L2 IH]; intros l1' E; cbn [map] in E.
    - destruct l1'; discriminate.
    - destruct l1' as [|y l1']; [exists [], (x :: L2); auto|]. cbn [app] in E. inversion E; subst.
      destruct (IH _ H1) as (La & Lb & -> & <-). exists (x :: La), Lb. auto. }
  destruct HL2 as (La & Lb & -> & <-). apply effects_split in He. destruct He as (K1 & K2 & -> & He1 & He2).
  exists (length (recorded K1)). rewrite recorded_app, firstn_app, Nat.sub_diag, firstn_all. cbn [firstn]. rewrite app_nil_r.
  rewrite EP, written_app, WI. f_equal. rewrite (effects_written _ _ _ _ He1), event_bytes. reflexivity.
Qed.

Lemma concurrent_crash en md r0 c0 acts b : utf8 md -> started md r0 c0 -> ucalls_ok acts ->
  prefix b (disk (cmem (uc (urun en acts (mkU c0 []))))) ->
  exists K L pages rest, partial_linearization (uhist (urun en acts (mkU c0 []))) K /\ session en md r0 K L /\
    b = enc_pages pages ++ rest /\ Forall page_ok pages /\
    (rest = [] \/ exists p, page_ok p /\ prefix rest (enc_page p) /\ zlen rest < zlen (enc_page p)) /\
    (forall t, prefix (stream t pages) (written t (map fst L))) /\
    page_boundary TEvents (map fst L) (stream TEvents pages).
Proof.
  intros Hmd Hst Hok Hb.
  destruct Hst as (acts0 & tid0 & H & o2 & r2 & Ec0 & Hi0 & HH & H2 & Hh).
  destruct (urun_exec en acts Hok (mkU c0 [])) as (acts' & Ha' & Ec & uh & h & Eu & Eh & HL). cbn [uc uhist app] in *.
  set (c := urun en acts (mkU c0 [])) in *.
  assert (Hexec : uc c = exec (effective acts0 conf0 ++ acts') conf0) by (rewrite exec_app, effective_exec, <- Ec0; exact Ec).
  assert (Hgood : acts_good (fun t => t = TEvents) (effective acts0 conf0 ++ acts')).
  { intros t o Hin. apply in_app_or in Hin. destruct Hin as [Hin|Hin].
    - apply effective_hist in Hin. rewrite <- Ec0, Hh in Hin. apply in_calls_hist in Hin.
      pose proof (init_ops_ok H md r0 o2 r2 HH H2) as F. rewrite Forall_forall in F. split; auto.
      destruct (init_events _ md _ _ r2 HH H2 o Hin) as [_ X]. intros E. apply X, E.
    - destruct (Ha' _ _ Hin) as (k & _ & Hk). split; [eapply op_ok_call; eauto|]. destruct (call_op_events _ _ _ Hk) as [_ X].
      intros E. apply X, E. }
  rewrite Hexec in Hb.
  destruct (crash _ _ b Hgood Hb) as (g & pages & rest & Hg & Hsc & Hpr & Eb & Hpg & Hrest & Hpre & Hbd).
  rewrite <- Hexec, Ec, Eh, Hh in Hg.
  assert (HP : forall x, ~ In (HPanic x) h).
  { intros x Hx. assert (In (HPanic x) (erase g)) as X by (rewrite Hg; apply in_or_app; auto).
    clear -X. induction g as [|[] g IH]; cbn in X; auto; destruct X as [X|X]; try discriminate; auto. }
  destruct (sequential_prefix _ _ _ _ Hg Hpr) as (g1 & g2 & -> & E2 & L1 & P1).
  assert (P2 : forall x, exists s, protocol x (proj x g2) s).
  { intros x. destruct (Hpr x) as (s & Hs). rewrite proj_app in Hs. exists s. apply (protocol_suffix x (proj x g1)); auto. }
  destruct (lift en g2 uh) as (ug & Eug & HG & HU).
  { rewrite E2. apply HL, HP. } { auto. }
  exists (ueffects ug), (lins (g1 ++ g2)), pages, rest. split; [|split; [|split; [|split; [|split; [|split]]]]]; auto.
  - exists ug. rewrite Eu. split; auto. split; auto. intros x. destruct (P2 x) as (s & Hs). destruct (HU x s Hs) as (l & us & El & _).
    exists l, us. exact El.
  - split; auto. split; auto. exists H, o2, r2, (lins g2). split; auto. split; auto. split; [apply glow_effects; auto|].
    rewrite lins_app, L1, <- app_assoc. reflexivity.
Qed.
