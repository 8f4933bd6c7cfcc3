(** C62: how much can be lost in a crash, and what a flush guarantees. *)
From Coq Require Import ZArith List Lia Bool.
From Verif Require Import M_Base F_Base M_Sink S_Sink F_Sink F_SinkSeq M_Conc S_Conc F_Conc F_Conc2 S_Durable.
Import ListNotations.
Open Scope Z_scope.

Lemma pending_of tid o : forall g,
  (protocol tid (proj tid g) (TCalled o) \/ exists r, protocol tid (proj tid g) (TDone o r)) ->
  pending (erase g) tid o.
Proof.
  intros g. induction g as [|e g IH] using rev_ind; intros H.
  { destruct H as [H|[r H]]; inversion H as [|l ? ? E|l ? ? ? E|]; destruct l; discriminate. }
  rewrite proj_app, erase_app in *. cbn [proj filter] in H.
  destruct (Z.eqb_spec (gev_tid e) tid) as [Et|Et].
  - change (filter (fun e => gev_tid e =? tid) g) with (proj tid g) in H.
    destruct H as [H|[r H]]; inversion H as [|l o1 H0 E|l o1 r1 H0 E|]; subst;
      match goal with E : _ = proj _ _ ++ _ |- _ => apply app_inj_tail in E; destruct E as [? E]; subst end.
    + destruct e as [x o'| |]; try discriminate. inversion E; subst o'.
      exists (erase g), []. cbn [erase]. split; [reflexivity|]. intros y [].
    + destruct e as [|x o' r'|]; try discriminate. inversion E; subst.
      cbn [erase]. rewrite app_nil_r. auto.
  - rewrite app_nil_r in H. destruct (IH H) as (h1 & h2 & E & N).
    exists h1, (h2 ++ erase [e]). rewrite E, <- app_assoc. split; [reflexivity|].
    intros x Hx. apply in_app_or in Hx. destruct Hx as [Hx|Hx]; [auto|].
    destruct e as [y o1|y o1 r1|y r1]; cbn in Et, Hx; [destruct Hx as [<-|[]]|destruct Hx|destruct Hx as [<-|[]]]; exact Et.
Qed.

Lemma erase_split : forall g a e b, erase g = a ++ e :: b ->
  exists g1 ge g2, g = g1 ++ ge :: g2 /\ erase g1 = a /\ erase [ge] = [e] /\ erase g2 = b.
Proof.
  induction g as [|x g IH]; intros a e b H; [destruct a; discriminate|].
  assert (D : (exists y, erase [x] = [y] /\ erase (x :: g) = y :: erase g) \/ (erase [x] = [] /\ erase (x :: g) = erase g)).
  { destruct x; cbn; [left; eauto|right; auto|left; eauto]. }
  destruct D as [(y & E1 & E2)|(E1 & E2)].
  - rewrite E2 in H. destruct a as [|a0 a]; cbn in H; inversion H; subst.
    + exists [], x, g. repeat (split; auto).
    + destruct (IH a e b) as (g1 & ge & g2 & -> & A & B & C); auto.
      exists (x :: g1), ge, g2. split; [reflexivity|]. split; [|auto].
      change (x :: g1) with ([x] ++ g1). rewrite erase_app, E1, A. reflexivity.
  - rewrite E2 in H. destruct (IH a e b H) as (g1 & ge & g2 & -> & A & B & C).
    exists (x :: g1), ge, g2. split; [reflexivity|]. split; [|auto].
    change (x :: g1) with ([x] ++ g1). rewrite erase_app, E1, A. reflexivity.
Qed.

Lemma protocol_prefix_state tid : forall l s, protocol tid l s -> forall a b, l = a ++ b -> exists s', protocol tid a s'.
Proof.
  intros l s H. induction H; intros a b E.
  - destruct a; [|discriminate]. exists TIdle. constructor.
  - destruct (exists_last_or b) as [->|(b' & x & ->)].
    + rewrite app_nil_r in E. subst a. eexists. constructor; eauto.
    + rewrite app_assoc in E. apply app_inj_tail in E. destruct E as [E _]. eauto.
  - destruct (exists_last_or b) as [->|(b' & x & ->)].
    + rewrite app_nil_r in E. subst a. eexists. constructor; eauto.
    + rewrite app_assoc in E. apply app_inj_tail in E. destruct E as [E _]. eauto.
  - destruct (exists_last_or b) as [->|(b' & x & ->)].
    + rewrite app_nil_r in E. subst a. eexists. econstructor; eauto.
    + rewrite app_assoc in E. apply app_inj_tail in E. destruct E as [E _]. eauto.
Qed.

Lemma pfx_app_l {A} (a b c : list A) : prefix (a ++ b) c -> prefix a c.
Proof. intros [x ->]. exists (b ++ x). rewrite app_assoc. reflexivity. Qed.

Lemma proj_erased tid g : (forall e, In e (erase g) -> hev_tid e <> tid) ->
  Forall (fun e => exists o r, e = GLin tid o r) (proj tid g).
Proof.
  induction g as [|e g IH]; intros H; [constructor|].
  assert (IH' : Forall (fun e => exists o r, e = GLin tid o r) (proj tid g)).
  { apply IH. intros x Hx. apply H. destruct e; cbn; auto. }
  cbn [proj filter]. destruct (Z.eqb_spec (gev_tid e) tid) as [E|E]; [|exact IH'].
  constructor; [|exact IH']. destruct e as [x o|x o r|x r]; cbn in *; subst.
  - exfalso. exact (H _ (or_introl eq_refl) eq_refl).
  - eauto.
  - exfalso. exact (H _ (or_introl eq_refl) eq_refl).
Qed.

(** A completed call has taken effect between its call and its return. *)
Lemma completed_lin g h1 tid o r : (exists s, protocol tid (proj tid g) s) -> completed (erase g) h1 tid o r ->
  exists g1 g2 g3, g = g1 ++ g2 ++ GLin tid o r :: g3 /\ erase g1 = h1 /\ exists r', In (GRet tid r') g3.
Proof.
  intros [s Hp] (h2 & h3 & E & Hn).
  destruct (erase_split _ _ _ _ E) as (g1 & e1 & gr & -> & E1 & Ee1 & Er).
  destruct (erase_split _ _ _ _ Er) as (g2 & e2 & g3 & -> & E2 & Ee2 & E3).
  assert (e1 = GInv tid o) as -> by (destruct e1; cbn in Ee1; inversion Ee1; reflexivity).
  assert (e2 = GRet tid r) as -> by (destruct e2; cbn in Ee2; inversion Ee2; reflexivity).
  clear Ee1 Ee2.
  assert (Hlin : Forall (fun e => exists o r, e = GLin tid o r) (proj tid g2)).
  { apply proj_erased. rewrite E2. exact Hn. }
  replace (proj tid (g1 ++ GInv tid o :: g2 ++ GRet tid r :: g3))
    with (((proj tid g1 ++ [GInv tid o]) ++ proj tid g2 ++ [GRet tid r]) ++ proj tid g3) in Hp.
  2:{ change (GInv tid o :: g2 ++ GRet tid r :: g3) with ([GInv tid o] ++ g2 ++ [GRet tid r] ++ g3).
      rewrite !proj_app. cbn [proj filter gev_tid]. rewrite Z.eqb_refl.
      unfold proj. rewrite <- !app_assoc. reflexivity. }
  destruct (protocol_prefix_state _ _ _ Hp _ _ eq_refl) as (s1 & H1). clear Hp.
  rewrite app_assoc in H1. inversion H1 as [E0|l ? ? E0|l ? ? ? E0|l o1 r1 H2 E0].
  1: { exfalso. apply (f_equal (@List.length gev)) in E0. rewrite !app_length in E0. cbn in E0. lia. }
  1,2: apply app_inj_tail in E0; destruct E0 as [_ E0]; discriminate.
  apply app_inj_tail in E0. destruct E0 as [-> E0]. inversion E0; subst r1. clear E0 H1.
  destruct (exists_last_or (proj tid g2)) as [E0|(l2 & x & E0)].
  { rewrite E0, app_nil_r in H2. inversion H2 as [| |l ? ? H3 E4|]. apply app_inj_tail in E4. destruct E4 as [_ E4]. discriminate. }
  rewrite E0 in H2, Hlin. rewrite app_assoc in H2. inversion H2 as [| |l o2 r2 H3 E4|]. subst o2 r2.
  apply app_inj_tail in E4. destruct E4 as [-> <-].
  assert (Hl2 : l2 = []).
  { destruct (exists_last_or l2) as [->|(l3 & y & ->)]; [reflexivity|]. exfalso.
    apply Forall_app in Hlin. destruct Hlin as [Hlin _]. apply Forall_app in Hlin. destruct Hlin as [_ Hy].
    inversion Hy as [|? ? (oy & ry & ->) _]. subst. rewrite app_assoc in H3.
    inversion H3 as [|l ? H5 E5| |]. apply app_inj_tail in E5. destruct E5 as [_ E5]. discriminate. }
  subst l2. rewrite app_nil_r in H3.
  assert (o1 = o). { inversion H3 as [|l ? H5 E5| |]. apply app_inj_tail in E5. destruct E5 as [_ E5]. congruence. }
  subst o1.
  assert (Hin : In (GLin tid o r) (proj tid g2)) by (rewrite E0; left; reflexivity).
  unfold proj in Hin. apply filter_In in Hin. destruct Hin as [Hin _]. apply in_split in Hin.
  destruct Hin as (a & b & ->).
  exists g1, (GInv tid o :: a), (b ++ GRet tid r :: g3). split; [|split; [exact E1|]].
  - cbn [app]. rewrite <- !app_assoc. reflexivity.
  - exists r. apply in_or_app. right. left. reflexivity.
Qed.

Lemma state_pages sm c : cinv sm c ->
  exists g pages, explains g (hist c) /\ file_holds (disk (cmem c)) pages /\
    (forall t, prefix (stream t pages) (written t (lin_ops g))) /\
    (forall t, quiet (hist c) t -> zlen (written t (lin_ops g)) - zlen (stream t pages) <= 256 * 1024) /\
    (forall h1 tid o r, completed (hist c) h1 tid o r -> op_flushes o ->
       exists g1 g2, g = g1 ++ g2 /\ erase g1 = h1 /\
         prefix (written (op_tag o) (lin_ops g1)) (stream (op_tag o) pages)).
Proof.
  intros (pages & part & g & Hd & Hp & Hh & Hsc & Hth & Hfree & Hsh & _ & Hfl).
  assert (Hpr : forall tid, exists s, protocol tid (proj tid g) s)
    by (intros tid; destruct (Hth tid) as (s & ? & _); eauto).
  assert (Hlock : forall t x, tget t (slk (cmem c)) = Some x -> exists o r, op_tag o = t /\ protocol x (proj x g) (TDone o r) /\
     exists q cur, okp t (written t (lin_ops g)) (fun P => sm t -> cut g t P) (op_fin o) r (stream t pages) cur q).
  { intros t x E. destruct (Hth x) as (s & Hpx & Hti). destruct s as [|o|o r]; simpl in Hti.
    - destruct Hti as (_ & H & _). exfalso; eapply H; eauto.
    - destruct Hti as (_ & _ & H & _). exfalso; eapply H; eauto.
    - destruct Hti as [(_ & H & _)|(q & cur & Ht & Hl & Hlu & Hokp & Hcur)].
      + exfalso; eapply H; eauto.
      + apply Hlu in E. subst t. exists o, r. split; [reflexivity|]. split; eauto. }
  exists g, pages. split; [repeat split; auto|]. split; [|split; [|split]].
  - exists part. split; [exact Hd|]. split; [exact Hp|].
    destruct (shl (cmem c)) as [x|] eqn:Es; [|left; auto].
    destruct (Hth x) as (s & Hpx & Hti). destruct s as [|o|o r]; simpl in Hti.
    + destruct Hti as (_ & _ & H). congruence.
    + destruct Hti as (_ & _ & _ & H). congruence.
    + destruct Hti as [(_ & _ & H)|(q & cur & Ht & Hl & Hlu & Hokp & Hcur)]; [congruence|].
      destruct cur as [[pl part']|]; [|congruence]. destruct Hcur as [_ ->].
      destruct (okp_part _ _ _ _ _ _ _ _ Hokp) as [(A & B & D)| ->]; [right; eauto|left; reflexivity].
  - intros t. destruct (tget t (slk (cmem c))) as [x|] eqn:E.
    + destruct (Hlock t x E) as (o & r & _ & _ & q & cur & Hokp). apply okp_prefix in Hokp. eapply pfx_app_l; eauto.
    + destruct (Hfree t E) as (<- & _). eexists; reflexivity.
  - intros t Hq. destruct (tget t (slk (cmem c))) as [x|] eqn:E.
    + exfalso. destruct (Hlock t x E) as (o & r & Ho & Hpx & _). apply (Hq x o); auto.
      rewrite <- Hh. apply pending_of. right. eauto.
    + destruct (Hfree t E) as (<- & _ & HL). rewrite zlen_app. unfold MAX_PAGE_SIZE in HL. lia.
  - intros h1 tid o r Hc Hf. rewrite <- Hh in Hc.
    destruct (completed_lin g h1 tid o r (Hpr tid) Hc) as (g1 & g2 & g3 & Eg & E1 & r' & Hr').
    exists g1, (g2 ++ GLin tid o r :: g3). split; [exact Eg|]. split; [exact E1|].
    destruct (Hfl (g1 ++ g2) tid o r g3) as [[_ N]|A].
    + rewrite Eg, app_assoc. reflexivity.
    + exact Hf.
    + exfalso. exact (N _ Hr' eq_refl).
    + rewrite lin_ops_app, written_app in A. eapply pfx_app_l; eauto.
Qed.

(** Whenever the process dies, the file holds complete pages from which at most the last 256 KiB of
    every stream with no call in progress are missing, and ... *)
Theorem C62_bounded_loss : forall acts, acts_ok acts ->
  let c := exec acts conf0 in
  exists g pages, explains g (hist c) /\ file_holds (disk (cmem c)) pages /\
    (forall t, prefix (stream t pages) (written t (lin_ops g))) /\
    (forall t, quiet (hist c) t -> zlen (written t (lin_ops g)) - zlen (stream t pages) <= 256 * 1024).
Proof.
  intros acts Hok c. destruct (state_pages (fun _ => False) c) as (g & pages & A & B & C & D & _).
  { apply cinv_exec; [apply acts_ok_good; auto|apply cinv0]. }
  exists g, pages. auto.
Qed.
Print Assumptions C62_bounded_loss.

(** ... everything written to a stream before a flush (or drop) of its sink was called is there as
    soon as that call has returned: [g1] is the part of the history before the call. *)
Theorem C62_flush_is_durable : forall acts h1 tid o r, acts_ok acts ->
  let c := exec acts conf0 in
  completed (hist c) h1 tid o r -> op_flushes o ->
  exists g1 g2 pages, explains (g1 ++ g2) (hist c) /\ erase g1 = h1 /\ file_holds (disk (cmem c)) pages /\
    (forall t, prefix (stream t pages) (written t (lin_ops (g1 ++ g2)))) /\
    prefix (written (op_tag o) (lin_ops g1)) (stream (op_tag o) pages).
Proof.
  intros acts h1 tid o r Hok c Hc Hf. destruct (state_pages (fun _ => False) c) as (g & pages & A & B & C & _ & D).
  { apply cinv_exec; [apply acts_ok_good; auto|apply cinv0]. }
  destruct (D _ _ _ _ Hc Hf) as (g1 & g2 & -> & E & P). exists g1, g2, pages. auto 6.
Qed.
Print Assumptions C62_flush_is_durable.

(** Two threads: thread 2's flush saves thread 1's completed write, and not the one made after it. *)
Definition ex_durable : list action :=
  Invoke 1 (OWriteBytes TEvents [1; 2; 3]) :: repeat (Tick 1) 4 ++ Invoke 2 (OStdFlush TEvents) :: repeat (Tick 2) 12 ++
  Invoke 1 (OWriteBytes TEvents [4]) :: repeat (Tick 1) 4.
Example ex_C62 : acts_ok ex_durable /\
  completed (hist (exec ex_durable conf0)) [HInv 1 (OWriteBytes TEvents [1; 2; 3]); HRet 1 0] 2 (OStdFlush TEvents) 0 /\
  disk (cmem (exec ex_durable conf0)) = enc_pages [(TEvents, [1; 2; 3])] /\
  quiet (hist (exec ex_durable conf0)) TEvents.
Proof.
  split; [|split; [|split]].
  - intros tid o H. cbn in H. repeat (destruct H as [H|H]; [inversion H; subst; cbn; auto; fail|]). destruct H.
  - exists [], [HInv 1 (OWriteBytes TEvents [4]); HRet 1 3]. split; [reflexivity|]. intros e [].
  - reflexivity.
  - intros tid o (h1 & h2 & E & N). exfalso.
    change (hist (exec ex_durable conf0)) with
      [HInv 1 (OWriteBytes TEvents [1; 2; 3]); HRet 1 0; HInv 2 (OStdFlush TEvents); HRet 2 0; HInv 1 (OWriteBytes TEvents [4]); HRet 1 3] in E.
    destruct h1 as [|x h1]; [cbn in E; inversion E; subst; apply (N (HRet 1 0)); cbn; tauto|].
    cbn in E. inversion E as [[E1 E2]]. clear E. destruct h1 as [|y h1]; [discriminate|].
    cbn in E2. inversion E2 as [[E3 E]]. clear E2. destruct h1 as [|z h1]; [cbn in E; inversion E; subst; apply (N (HRet 2 0)); cbn; tauto|].
    cbn in E. inversion E as [[E4 E5]]. clear E. destruct h1 as [|w h1]; [discriminate|].
    cbn in E5. inversion E5 as [[E6 E]]. clear E5. destruct h1 as [|v h1]; [cbn in E; inversion E; subst; apply (N (HRet 1 3)); cbn; tauto|].
    cbn in E. inversion E as [[E7 E8]]. clear E. destruct h1 as [|u h1]; [discriminate|]. cbn in E8. inversion E8 as [[E9 E]]. destruct h1; discriminate.
Qed.
(** The bound is attained: a write of 256 KiB may stay in memory altogether. *)
Example ex_C62_tight :
  let c := exec (Invoke 1 (OWriteAtomic TEvents (256 * 1024) (fun b => (b, false))) :: repeat (Tick 1) 5) conf0 in
  disk (cmem c) = [] /\ hist c = [HInv 1 (OWriteAtomic TEvents (256 * 1024) (fun b => (b, false))); HRet 1 0].
Proof. split; vm_compute; reflexivity. Qed.
