(** C54: storage that runs full.  Model M_Fault.v. *)
From Coq Require Import ZArith List Lia Bool.
From Verif Require Import M_Base F_Base M_Sink S_Sink M_Conc S_Conc F_Sink F_SinkSeq F_Conc F_Conc2 Prop_Sink M_Fault.
Import ListNotations.
Open Scope Z_scope.

Definition failed_by (c : conf) : Prop := exists tid, thr c tid = Some Fail \/ In (HPanic tid) (hist c).

Lemma cstep_hist c a : prefix (hist c) (hist (cstep c a)).
Proof.
  assert (R : prefix (hist c) (hist c)) by (exists []; rewrite app_nil_r; reflexivity).
  assert (E : forall x, prefix (hist c) (hist c ++ [x])) by (intros x; exists [x]; reflexivity).
  destruct a as [tid o|tid]; cbn [cstep]; destruct (thr c tid) as [p|]; cbn [hist]; auto.
  destruct p; cbn [hist]; auto; match goal with |- context [prog_step ?a ?b ?d] => destruct (prog_step a b d) as [[m' p']|] end; cbn [hist]; auto.
Qed.
Lemma lstep_hist after c x : prefix (hist c) (hist (lstep after c x)).
Proof.
  destruct x as [[tid o|tid] cap]; cbn [lstep]; [apply cstep_hist|]. destruct (thr c tid) as [[]|] eqn:E; try apply cstep_hist.
  destruct (_ <=? cap); [apply cstep_hist|]. exists []. rewrite app_nil_r. reflexivity.
Qed.
Lemma prefix_trans {A} (a b c : list A) : prefix a b -> prefix b c -> prefix a c.
Proof. intros (x & ->) (y & ->). exists (x ++ y). rewrite app_assoc. reflexivity. Qed.

(** Once the storage is full it does not change any more, and somebody has panicked or will. *)
Lemma full_step after cap c a : zlen (disk (cmem c)) = cap -> disk (cmem (lstep after c (a, cap))) = disk (cmem c).
Proof.
  intros H. destruct a as [tid o|tid]; [cbn [lstep cstep]; destruct (thr c tid); reflexivity|]. cbn [lstep].
  destruct (thr c tid) as [p|] eqn:E; [|cbn [cstep]; rewrite E; reflexivity].
  destruct p; try (cbn [cstep]; rewrite E; cbn [prog_step]; reflexivity).
  - cbn [cstep]; rewrite E; cbn [prog_step]. destruct (tget t (slk (cmem c))); reflexivity.
  - cbn [cstep]; rewrite E; cbn [prog_step]. destruct (shl (cmem c)); reflexivity.
  - destruct (Z.leb_spec (zlen (disk (cmem c)) + zlen bs) cap) as [L|L].
    + pose proof (zlen_nonneg bs). assert (EB : bs = []) by (apply zlen_0; lia). cbn [cstep]. rewrite E. cbn [prog_step cmem disk]. rewrite EB. apply app_nil_r.
    + cbn [cmem disk]. rewrite H, Z.max_id. apply ztake_app_eq. symmetry; exact H.
Qed.
Lemma failed_step after c x : failed_by c -> failed_by (lstep after c x).
Proof.
  intros (tid & H). exists tid. destruct H as [H|H].
  - destruct x as [[x o|x] cap]; cbn [lstep].
    + cbn [cstep]. destruct (thr c x) eqn:E; [left; auto|]. left. cbn [thr]. unfold set_thr. destruct (Z.eqb_spec tid x); [congruence|auto].
    + destruct (Z.eq_dec x tid) as [->|N].
      * rewrite H. cbn [cstep]. rewrite H. right. cbn [hist]. apply in_or_app. right. left. reflexivity.
      * left. assert (S : forall v, set_thr (thr c) x v tid = thr c tid) by (intros v; unfold set_thr; destruct (Z.eqb_spec tid x); congruence).
        destruct (thr c x) as [p|] eqn:E; [|cbn [cstep]; rewrite E; auto].
        destruct p; cbn [cstep]; rewrite ?E; cbn [prog_step thr]; rewrite ?S; auto;
          try (match goal with |- context [match tget ?t ?m with _ => _ end] => destruct (tget t m) end; cbn [thr]; rewrite ?S; auto; fail);
          try (destruct (shl (cmem c)); cbn [thr]; rewrite ?S; auto; fail).
        match goal with |- context [if ?b then _ else _] => destruct b end; cbn [thr]; rewrite ?S; auto.
  - right. destruct (lstep_hist after c x) as (y & ->). apply in_or_app. left. exact H.
Qed.
Lemma lexec_hist after l : forall c, prefix (hist c) (hist (lexec after l c)).
Proof. induction l as [|x l IH]; intros c; cbn [lexec fold_left]; [exists []; rewrite app_nil_r; reflexivity|]. eapply prefix_trans; [apply (lstep_hist after c x)|apply IH]. Qed.
Lemma lexec_full after cap acts : forall c, zlen (disk (cmem c)) = cap -> failed_by c ->
  disk (cmem (lexec after (at_capacity cap acts) c)) = disk (cmem c) /\ failed_by (lexec after (at_capacity cap acts) c).
Proof.
  induction acts as [|a acts IH]; intros c H F; cbn [at_capacity map lexec fold_left]; auto.
  destruct (IH (lstep after c (a, cap))) as (E & F'); [rewrite full_step; auto|apply failed_step; auto|]. unfold at_capacity, lexec in *. rewrite E, full_step; auto.
Qed.
Lemma cstep_write c tid bs k : thr c tid = Some (WriteAll bs k) -> disk (cmem (cstep c (Tick tid))) = disk (cmem c) ++ bs /\ hist (cstep c (Tick tid)) = hist c.
Proof. intros E. cbn [cstep]. rewrite E. cbn [prog_step cmem disk hist]. auto. Qed.
Lemma cstep_disk c a : (exists tid bs k, a = Tick tid /\ thr c tid = Some (WriteAll bs k)) \/ disk (cmem (cstep c a)) = disk (cmem c).
Proof.
  destruct a as [tid o|tid]; cbn [cstep]; [right; destruct (thr c tid); reflexivity|].
  destruct (thr c tid) as [p|] eqn:E; [|right; reflexivity]. destruct p; try (right; cbn [prog_step]; reflexivity).
  - right. cbn [prog_step]. destruct (tget t (slk (cmem c))); reflexivity.
  - right. cbn [prog_step]. destruct (shl (cmem c)); reflexivity.
  - left. eauto 6.
Qed.

(** The alternatives: nothing failed and the run is that on unlimited storage, or it failed at a
    decision and the storage holds what fits of the unlimited one. *)
Lemma lexec_cases after cap acts : forall c, zlen (disk (cmem c)) <= cap ->
  (lexec after (at_capacity cap acts) c = exec acts c /\ zlen (disk (cmem (exec acts c))) <= cap) \/
  exists l1 a l2, acts = l1 ++ a :: l2 /\ failed_by (lexec after (at_capacity cap acts) c) /\
    disk (cmem (lexec after (at_capacity cap acts) c)) = ztake cap (disk (cmem (exec (l1 ++ [a]) c))) /\ cap < zlen (disk (cmem (exec (l1 ++ [a]) c))) /\
    prefix (hist (exec (l1 ++ [a]) c)) (hist (lexec after (at_capacity cap acts) c)).
Proof.
  induction acts as [|a acts IH]; intros c H; [left; split; auto|].
  cbn [at_capacity map lexec fold_left]. fold (at_capacity cap acts).
  assert (G : lstep after c (a, cap) = cstep c a /\ zlen (disk (cmem (cstep c a))) <= cap \/
    exists tid bs k, a = Tick tid /\ thr c tid = Some (WriteAll bs k) /\ cap < zlen (disk (cmem c)) + zlen bs).
  { destruct (cstep_disk c a) as [(tid & bs & k & -> & E)|E].
    - cbn [lstep]. rewrite E. destruct (Z.leb_spec (zlen (disk (cmem c)) + zlen bs) cap); [left|right; eauto 6]. split; auto. destruct (cstep_write c tid bs k E) as (-> & _). rewrite zlen_app. lia.
    - destruct a as [tid o|tid]; [left; split; [reflexivity|rewrite E; exact H]|]. cbn [lstep]. destruct (thr c tid) as [[]|] eqn:ET; try (left; split; [reflexivity|rewrite E; exact H]).
      destruct (Z.leb_spec (zlen (disk (cmem c)) + zlen bs) cap); [left; split; [reflexivity|rewrite E; exact H]|right; eauto 6]. }
  destruct G as [(E & L)|(tid & bs & k & -> & ET & L)].
  - rewrite E. destruct (IH (cstep c a) L) as [(E2 & L2)|(l1 & a' & l2 & -> & F & ED & LD & PH)].
    + left. unfold lexec, at_capacity in *. rewrite E2. split; auto.
    + right. exists (a :: l1), a', l2. split; auto.
  - right. exists [], (Tick tid), acts. split; auto. cbn [app exec fold_left]. destruct (cstep_write c tid bs k ET) as (ED & EH). rewrite ED, EH.
    set (c1 := lstep after c (Tick tid, cap)).
    assert (D1 : disk (cmem c1) = ztake cap (disk (cmem c) ++ bs)).
    { unfold c1. cbn [lstep]. rewrite ET. destruct (Z.leb_spec (zlen (disk (cmem c)) + zlen bs) cap); [lia|]. cbn [cmem disk]. f_equal. lia. }
    assert (Z1 : zlen (disk (cmem c1)) = cap). { pose proof (zlen_nonneg (disk (cmem c))). rewrite D1, zlen_ztake; rewrite ?zlen_app; lia. }
    assert (F1 : failed_by c1). { exists tid. left. unfold c1. cbn [lstep]. rewrite ET. destruct (Z.leb_spec (zlen (disk (cmem c)) + zlen bs) cap); [lia|]. cbn [thr]. unfold set_thr. rewrite Z.eqb_refl. reflexivity. }
    destruct (lexec_full after cap acts c1 Z1 F1) as (E2 & F2). unfold lexec, at_capacity in *. rewrite E2, D1. split; auto. split; auto. split; [rewrite zlen_app; lia|].
    eapply prefix_trans; [|apply (lexec_hist after (map (fun a => (a, cap)) acts) c1)]. unfold c1. apply lstep_hist.
Qed.

(** Whatever the capacity and the schedule, what ends up in the file is a sequence of complete pages
    and a proper prefix of one page; the streams in the complete pages are prefixes of what the calls
    wrote, for calls made and returned as in an initial part of the history. *)
Theorem C54_file_readable : forall after cap acts, 0 <= cap -> acts_ok acts ->
  let c := lexec after (at_capacity cap acts) conf0 in
  exists g pages rest, prefix (erase g) (hist c) /\ (forall tid, exists s, protocol tid (proj tid g) s) /\ sequentially_correct (lins g) /\
    disk (cmem c) = enc_pages pages ++ rest /\ Forall page_ok pages /\
    (rest = [] \/ exists p, page_ok p /\ prefix rest (enc_page p) /\ zlen rest < zlen (enc_page p)) /\
    (forall t, prefix (stream t pages) (written t (lin_ops g))).
Proof.
  intros after cap acts Hc Hok c. assert (P0 : forall (b : bytes), prefix b b) by (intros b; exists []; rewrite app_nil_r; reflexivity).
  assert (PH : forall (b : list hev), prefix b b) by (intros b; exists []; rewrite app_nil_r; reflexivity).
  destruct (lexec_cases after cap acts conf0) as [(E & _)|(l1 & a & l2 & E & _ & ED & LD & HP)]; [unfold conf0, mem0, zlen; cbn; lia| |].
  - fold c in E. destruct (C05_crash_prefix acts (disk (cmem (exec acts conf0))) Hok (P0 _)) as (g & pages & rest & H1 & H2 & H3 & H4 & H5 & H6 & H7).
    exists g, pages, rest. rewrite E, H1. auto 10.
  - fold c in ED, HP. assert (Hok' : acts_ok (l1 ++ [a])). { intros tid o Hin. apply (Hok tid o). subst acts. apply in_app_or in Hin. apply in_or_app. destruct Hin as [|[->|[]]]; [left|right; left]; auto. }
    destruct (C05_crash_prefix (l1 ++ [a]) (disk (cmem c)) Hok') as (g & pages & rest & H1 & H2 & H3 & H4 & H5 & H6 & H7).
    { rewrite ED. exists (zdrop cap (disk (cmem (exec (l1 ++ [a]) conf0)))). rewrite ztake_zdrop. reflexivity. }
    exists g, pages, rest. rewrite H1. auto 10.
Qed.
(** No data is lost silently: unless some call panics (or is about to), everything is as on unlimited
    storage, so that the theorems about it apply. *)
Theorem C54_never_silent : forall after cap acts, 0 <= cap ->
  let c := lexec after (at_capacity cap acts) conf0 in
  all_idle c -> (forall tid, ~ In (HPanic tid) (hist c)) -> c = exec acts conf0.
Proof.
  intros after cap acts Hc c HI HN. destruct (lexec_cases after cap acts conf0) as [(E & _)|(l1 & a & l2 & _ & (tid & F) & _)]; [unfold conf0, mem0, zlen; cbn; lia|exact E|].
  exfalso. fold c in F. destruct F as [F|F]; [rewrite HI in F; discriminate|exact (HN tid F)].
Qed.
(** Nothing fails while everything fits. *)
Theorem C54_enough_space : forall after cap acts, zlen (disk (cmem (exec acts conf0))) <= cap ->
  lexec after (at_capacity cap acts) conf0 = exec acts conf0.
Proof.
  intros after cap acts HF.
  assert (P : forall a c, zlen (disk (cmem c)) <= zlen (disk (cmem (exec a c)))).
  { induction a as [|x a IH]; intros c; cbn [exec fold_left]; [lia|]. specialize (IH (cstep c x)). unfold exec in IH. destruct (cstep_disk c x) as [(tid & bs & k & -> & E)|E]; [|rewrite E in IH; lia].
    destruct (cstep_write c tid bs k E) as (E2 & _). rewrite E2, zlen_app in IH. pose proof (zlen_nonneg bs). lia. }
  assert (C0 : 0 <= cap). { pose proof (zlen_nonneg (disk (cmem (exec acts conf0)))). lia. }
  destruct (lexec_cases after cap acts conf0) as [(E & _)|(l1 & a & l2 & E & _ & _ & LD & _)]; [unfold conf0, mem0, zlen; cbn; lia|exact E|].
  exfalso. subst acts. specialize (P l2 (exec (l1 ++ [a]) conf0)). unfold exec in *. rewrite <- fold_left_app, <- app_assoc in P. cbn [app] in P. lia.
Qed.
Lemma lexec_others after tid l : forall c, (forall x o cap, In (Invoke x o, cap) l -> x <> tid) -> thr c tid = None -> thr (lexec after l c) tid = None.
Proof.
  induction l as [|(a, cap) l IH]; intros c Ha Hc; cbn [lexec fold_left]; auto. apply IH; [intros; eapply Ha; right; eauto|].
  assert (S : forall x v, x <> tid -> set_thr (thr c) x v tid = thr c tid) by (intros x v Hx; unfold set_thr; destruct (Z.eqb_spec tid x); congruence).
  destruct a as [x o|x]; cbn [lstep].
  - cbn [cstep]. destruct (thr c x); auto. cbn [thr]. rewrite S; auto. eapply Ha. left. reflexivity.
  - destruct (thr c x) as [p|] eqn:E; [|cbn [cstep]; rewrite E; auto]. assert (Hx : x <> tid) by congruence.
    assert (CS : thr (cstep c (Tick x)) tid = None).
    { cbn [cstep]. rewrite E. destruct p; cbn [thr]; rewrite ?S; auto;
      match goal with |- context [prog_step ?a ?b ?d] => destruct (prog_step a b d) as [[]|] end; cbn [thr]; rewrite ?S; auto. }
    destruct p; auto. match goal with |- context [if ?b then _ else _] => destruct b end; auto. cbn [thr]. rewrite S; auto.
Qed.
(** But when a caught failure is followed by successful writes (space was freed meanwhile) the file
    cannot be read at all: the torn page is not removed and the buffer is written again. *)
Theorem C54_freed_space_refuted : exists l c, c = lexec untouched l conf0 /\ all_idle c /\
  hist c = [HInv 1 (OWriteBytes TEvents [7; 8]); HRet 1 0; HInv 1 (OStdFlush TEvents); HPanic 1; HInv 1 (ODrop TEvents); HRet 1 0] /\
  split_streams (disk (cmem c)) = Panic.
Proof.
  exists (at_capacity 3 (Invoke 1 (OWriteBytes TEvents [7; 8]) :: repeat (Tick 1) 3 ++ Invoke 1 (OStdFlush TEvents) :: repeat (Tick 1) 5) ++ at_capacity 1000 (Invoke 1 (ODrop TEvents) :: repeat (Tick 1) 8)).
  eexists. split; [reflexivity|]. split; [|split; vm_compute; reflexivity].
  intros tid. destruct (Z.eq_dec tid 1) as [->|N]; [vm_compute; reflexivity|]. apply lexec_others; [|reflexivity]. intros x o cap Hin. assert (E : x = 1); [|congruence]. clear N. cbn in Hin. repeat (destruct Hin as [Hin|Hin]; [congruence|]). destruct Hin.
Qed.
Example ex_C54 : disk (cmem (lexec untouched (at_capacity 6 (Invoke 1 (OWriteBytes TEvents [7; 8]) :: repeat (Tick 1) 3 ++ Invoke 1 (ODrop TEvents) :: repeat (Tick 1) 8)) conf0)) = [0; 2; 0; 0; 0; 7].
Proof. vm_compute. reflexivity. Qed.
Print Assumptions C54_file_readable.
Print Assumptions C54_never_silent.
