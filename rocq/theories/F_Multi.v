(** Several sinks on one backing storage: page structure and projection to a single sink. *)
From Coq Require Import ZArith List Lia Bool.
From Verif Require Import M_Base F_Base M_Sink S_Sink F_Sink F_SinkSeq M_Conc S_Conc F_Conc F_Conc2 M_Multi S_Multi.
Import ListNotations.
Open Scope Z_scope.

(** ** The shape of the programs *)
(** [cur] is what has been written of the current page, if the shared lock is held. *)
Inductive okq (t : tag) : option bytes -> prog -> Prop :=
| q_done r : okq t None (Done r)
| q_fail : okq t None Fail
| q_lock k : (forall s, okq t None (k s)) -> okq t None (LockSink t k)
| q_unlock s k : okq t None k -> okq t None (UnlockSink t s k)
| q_shared k : okq t (Some []) k -> okq t None (LockShared k)
| q_write part bs k : okq t (Some (part ++ bs)) k -> okq t (Some part) (WriteAll bs k)
| q_page b k : page_ok (t, b) -> okq t None k -> okq t (Some (enc_page (t, b))) (UnlockShared k)
| q_nopage k : okq t None k -> okq t (Some []) (UnlockShared k).

Lemma okq_write_page t bs k : okq t None k -> okq t None (write_page t bs k).
Proof.
  intros Hk. unfold write_page. destruct (Z.ltb_spec 0 (zlen bs)); auto.
  destruct (Z.leb_spec (zlen bs) MAX_PAGE_SIZE); [|apply q_fail].
  apply q_shared, q_write, q_write, q_write.
  replace ((([] ++ [tag_byte t]) ++ le_bytes 4 (zlen bs)) ++ bs) with (enc_page (t, bs)).
  - apply q_page; auto. unfold page_ok, MAX_PAGE_SIZE in *. cbn [snd]. lia.
  - unfold enc_page. cbn [fst snd]. rewrite <- !app_assoc. destruct t; reflexivity.
Qed.
Lemma okq_chunks t k : (forall b, okq t None (k b)) -> forall chs buf, okq t None (write_chunks t chs buf k).
Proof.
  intros Hk chs. induction chs as [|ch chs IH]; intros buf; cbn [write_chunks]; auto.
  destruct (zlen ch =? MAX_PAGE_SIZE); [apply okq_write_page; auto|].
  destruct (MIN_PAGE_SIZE <=? zlen ch); [apply okq_write_page; auto|].
  destruct (zlen buf =? 0); auto. apply q_fail.
Qed.
Lemma okq_large t bs k : (forall r, okq t None (k r)) -> okq t None (write_bytes_large t bs k).
Proof.
  intros Hk. unfold write_bytes_large. apply q_lock. intros s. cbv zeta.
  destruct (_ =? 0); [apply q_unlock; auto|]. unfold flush. apply okq_write_page, okq_chunks.
  intros b. apply q_unlock; auto.
Qed.
Lemma okq_atomic t n cb k : (forall r, okq t None (k r)) -> okq t None (write_atomic t n cb k).
Proof.
  intros Hk. unfold write_atomic. destruct (MAX_PAGE_SIZE <? n).
  - destruct (cb (zeros n)) as [bs []]; [apply q_fail|apply okq_large; auto].
  - apply q_lock. intros s. cbv zeta.
    assert (forall b, okq t None (let '(bs, panicked) := cb (zeros n) in
      if panicked then UnlockSink t (mkSink (b ++ bs) (saddr s)) Fail
      else UnlockSink t (mkSink (b ++ bs) (saddr s + n)) (k (saddr s)))) as H.
    { intros b. destruct (cb (zeros n)) as [bs []]; apply q_unlock; auto. apply q_fail. }
    destruct (_ <? _); auto. unfold flush. apply okq_write_page. auto.
Qed.
Lemma okq_bytes t bs k : (forall r, okq t None (k r)) -> okq t None (write_bytes_atomic t bs k).
Proof. intros Hk. unfold write_bytes_atomic. destruct (_ <=? _); [apply okq_atomic|apply okq_large]; auto. Qed.
Lemma okq_op o : okq (op_tag o) None (op_prog o).
Proof.
  destruct o; cbn [op_prog op_tag].
  - apply okq_atomic; intros; apply q_done.
  - apply okq_bytes; intros; apply q_done.
  - apply okq_bytes; intros; apply q_done.
  - apply q_lock. intros s. unfold flush. apply okq_write_page, q_shared, q_nopage, q_unlock, q_done.
  - apply q_lock. intros s. unfold flush. apply okq_write_page, q_unlock, q_done.
Qed.
Lemma tag_with t o : op_tag (with_tag t o) = t.
Proof. destruct o; reflexivity. Qed.

(** What has been written of a page can be completed. *)
Lemma okq_part t cur p : okq t cur p -> match cur with
  | None => True | Some part => part = [] \/ exists b, page_ok (t, b) /\ prefix part (enc_page (t, b)) end.
Proof.
  induction 1; auto.
  - destruct IHokq as [E|(b & Hb & [x E])].
    + apply app_eq_nil in E. left. apply E.
    + right. exists b. split; auto. exists (bs ++ x). rewrite E, app_assoc. auto.
  - right. exists b. split; auto. exists []. rewrite app_nil_r. auto.
Qed.

(** ** Encoded pages *)
Lemma enc_page_head t b t' b' A B : page_ok (t, b) -> page_ok (t', b') ->
  enc_page (t, b) ++ A = enc_page (t', b') ++ B -> (t, b) = (t', b') /\ A = B.
Proof.
  intros H H' E. unfold enc_page in E. cbn [fst snd] in E. rewrite <- !app_assoc in E.
  assert (Et : page_tag t = page_tag t') by (cbn in E; congruence).
  apply (f_equal (@tl Z)) in E. cbn [tl app] in E. assert (t = t') as <- by (destruct t, t'; cbn in Et; congruence).
  unfold page_ok in H, H'. cbn [snd] in H, H'.
  assert (Es : le_bytes 4 (zlen b) = le_bytes 4 (zlen b')).
  { apply (f_equal (ztake 4)) in E. rewrite !ztake_app_eq in E by (rewrite zlen_le_bytes; auto). exact E. }
  pose proof E as E2. rewrite Es in E2. apply app_inv_head in E2.
  apply (f_equal le_val) in Es. rewrite !le_val_bytes_small in Es by (simpl Z.of_nat; lia).
  assert (b = b') as ->.
  { apply (f_equal (ztake (zlen b))) in E2. rewrite ztake_app_eq in E2 by auto.
    rewrite Es in E2. rewrite ztake_app_eq in E2 by auto. exact E2. }
  apply app_inv_head in E2. auto.
Qed.
Lemma enc_pages_prefix a : forall b, Forall page_ok a -> Forall page_ok b ->
  prefix (enc_pages a) (enc_pages b) -> prefix a b.
Proof.
  induction a as [|[t p] a IH]; intros b Ha Hb [x E]; [exists b; auto|].
  inversion Ha; subst. unfold enc_pages in E. cbn [map concat] in E. rewrite <- app_assoc in E.
  destruct b as [|[t' p'] b].
  - cbn in E. discriminate.
  - inversion Hb; subst. cbn [map concat] in E. apply enc_page_head in E; auto. destruct E as [[= -> ->] E].
    destruct (IH b) as [y ->]; auto. { exists x. exact E. } exists y. reflexivity.
Qed.
Lemma enc_pages_inj a b : Forall page_ok a -> Forall page_ok b -> enc_pages a = enc_pages b -> a = b.
Proof.
  intros Ha Hb E. destruct (enc_pages_prefix a b Ha Hb) as [x Ex]; [exists []; rewrite app_nil_r; auto|].
  subst b. rewrite enc_pages_app in E. destruct x as [|[t p] x]; [rewrite app_nil_r; auto|].
  exfalso. rewrite <- app_nil_r in E at 1. apply app_inv_head in E. discriminate.
Qed.

(** ** Updates *)
Lemma upd_same {A} (f : Z -> A) i v : upd f i v i = v.
Proof. unfold upd. rewrite Z.eqb_refl. auto. Qed.
Lemma upd_other {A} (f : Z -> A) i v x : x <> i -> upd f i v x = f x.
Proof. unfold upd. destruct (Z.eqb_spec x i); congruence. Qed.

Definition log_of (i : Z) (l : list (Z * bytes)) : bytes :=
  concat (map snd (filter (fun e => fst e =? i) l)).
Lemma log_of_snoc i l j bs : log_of i (l ++ [(j, bs)]) = log_of i l ++ (if j =? i then bs else []).
Proof.
  unfold log_of. rewrite filter_app, map_app, concat_app. cbn [filter fst]. destruct (j =? i); cbn; rewrite ?app_nil_r; auto.
Qed.
Lemma hist_of_snoc i h j e : hist_of i (h ++ [(j, e)]) = hist_of i h ++ (if j =? i then [e] else []).
Proof. unfold hist_of. rewrite filter_app, map_app. cbn [filter fst]. destruct (j =? i); cbn; auto. Qed.
Lemma pages_of_snoc i ps j p : pages_of i (ps ++ [(j, p)]) = pages_of i ps ++ (if j =? i then [p] else []).
Proof. unfold pages_of. rewrite filter_app, map_app. cbn [filter fst]. destruct (j =? i); cbn; auto. Qed.

(** Is the shared lock held for sink [i], and by whom? *)
Definition holder (i : Z) (c : mconf) : option Z :=
  match mshl (mcmem c) with
  | Some tid => match mthr c tid with Some (j, _) => if j =? i then Some tid else None | None => None end
  | None => None
  end.

Ltac csimp := cbn [mcmem mlog msinks mslk mshl mthr mhist mprog_step mstep cmem disk sinks slk shl thr hist].

Section Multi.
Variable tag_of : Z -> tag.

Definition qinv (c : mconf) (part : bytes) (tid : Z) : Prop :=
  match mthr c tid with
  | None => mshl (mcmem c) <> Some tid
  | Some (i, p) => exists cur, okq (tag_of i) cur p /\
      match cur with None => mshl (mcmem c) <> Some tid | Some x => mshl (mcmem c) = Some tid /\ x = part end
  end.

Definition ginv (c : mconf) : Prop := exists ps part,
  mdisk (mcmem c) = enc_pages (map snd ps) ++ part /\
  Forall page_ok (map snd ps) /\
  (forall i p, In (i, p) ps -> fst p = tag_of i) /\
  (forall i, log_of i (mlog (mcmem c)) = enc_pages (pages_of i ps) ++
                match holder i c with Some _ => part | None => [] end) /\
  (mshl (mcmem c) = None -> part = []) /\
  (forall tid, qinv c part tid).

Lemma ginv0 : ginv mconf0.
Proof.
  exists [], []. cbn. split; [auto|]. split; [auto|]. split; [intros i p []|]. split; [reflexivity|].
  split; [auto|]. intros tid. unfold qinv. cbn. discriminate.
Qed.

Lemma mdisk_snoc l j bs s k h : mdisk (mkMMem (l ++ [(j, bs)]) s k h) = concat (map snd l) ++ bs.
Proof. unfold mdisk. cbn. rewrite map_app, concat_app. cbn. rewrite app_nil_r. auto. Qed.

(** Steps that leave the log and the shared lock alone. *)
Lemma ginv_quiet c tid v s k h :
  ginv c -> mshl (mcmem c) <> Some tid ->
  (match v with None => True | Some (i, p) => okq (tag_of i) None p end) ->
  ginv (mkMConf (mkMMem (mlog (mcmem c)) s k (mshl (mcmem c))) (upd (mthr c) tid v) h).
Proof.
  intros (ps & part & Hd & Hp & Ht & Hl & Hsh & Hq) Hn Hv. exists ps, part. cbn [mcmem mlog mshl].
  split; [exact Hd|]. split; auto. split; auto. split; [|split; auto].
  - intros i. rewrite Hl. f_equal. unfold holder. cbn [mcmem mshl mthr]. destruct (mshl (mcmem c)) as [x|]; auto.
    rewrite upd_other; auto. congruence.
  - intros x. unfold qinv. cbn [mcmem mshl mthr]. destruct (Z.eq_dec x tid) as [->|Hne].
    + rewrite upd_same. destruct v as [[i p]|]; auto. exists None. auto.
    + rewrite upd_other by auto. apply Hq.
Qed.

Lemma ginv_step c a : ginv c -> ginv (mstep tag_of c a).
Proof.
  intros Hg. pose proof Hg as (ps & part & Hd & Hp & Ht & Hl & Hsh & Hq). destruct a as [tid i o|tid]; cbn [mstep].
  - specialize (Hq tid). unfold qinv in Hq. destruct (mthr c tid) eqn:Et; auto.
    destruct c as [[l s k h] th hi]. cbn in *.
    apply (ginv_quiet (mkMConf (mkMMem l s k h) th hi) tid); auto.
    rewrite <- (tag_with (tag_of i) o) at 1. apply okq_op.
  - pose proof (Hq tid) as Hqt. unfold qinv in Hqt. destruct (mthr c tid) as [[i p]|] eqn:Et; auto.
    destruct Hqt as (cur & Hok & Hcur).
    destruct c as [[l s k h] th hi]. cbn [mcmem mlog msinks mslk mshl mthr mhist] in *.
    pose proof (ginv_quiet (mkMConf (mkMMem l s k h) th hi) tid) as HQ. cbn [mcmem mlog msinks mslk mshl mthr mhist] in HQ.
    destruct Hok.
    + apply HQ; auto.
    + apply HQ; auto.
    + csimp. destruct (k i); [exact Hg|apply HQ; auto].
    + csimp. apply HQ; auto.
    + (* taking the shared lock *)
      csimp. destruct h as [x|]; auto. rewrite (Hsh eq_refl) in *. clear Hsh.
      exists ps, []. csimp. split; [exact Hd|]. split; auto. split; auto. split; [|split; [discriminate|]].
      * intros j. rewrite Hl. unfold holder. csimp. rewrite upd_same. destruct (i =? j); auto.
      * intros x. unfold qinv. csimp. destruct (Z.eq_dec x tid) as [->|Hne].
        { rewrite upd_same. exists (Some []). auto. }
        rewrite upd_other by auto. specialize (Hq x). unfold qinv in Hq. cbn in Hq.
        destruct (th x) as [[j p]|]; [|congruence]. destruct Hq as (cur & H1 & H2). exists cur. split; auto.
        destruct cur; [destruct H2; discriminate|congruence].
    + (* a write *)
      csimp. destruct Hcur as [Eh ->]. subst h.
      exists ps, (part ++ bs). csimp. rewrite mdisk_snoc. unfold mdisk in Hd. cbn in Hd.
      split; [rewrite Hd, app_assoc; auto|]. split; auto. split; auto. split; [|split; [discriminate|]].
      * intros j. rewrite log_of_snoc, Hl. unfold holder. csimp. rewrite upd_same, Et.
        destruct (i =? j); rewrite ?app_nil_r, ?app_assoc; auto.
      * intros x. unfold qinv. csimp. destruct (Z.eq_dec x tid) as [->|Hne].
        { rewrite upd_same. exists (Some (part ++ bs)). auto. }
        rewrite upd_other by auto. specialize (Hq x). unfold qinv in Hq. cbn in Hq.
        destruct (th x) as [[j p]|]; [|congruence]. destruct Hq as (cur & H1 & H2). exists cur. split; auto.
        destruct cur; [destruct H2; congruence|auto].
    + (* the end of a page *)
      csimp. destruct Hcur as [Eh Ep]. subst h. 
      exists (ps ++ [(i, (tag_of i, b))]), []. csimp. rewrite map_app. cbn [map snd].
      rewrite enc_pages_snoc, app_nil_r, Ep. split; [exact Hd|]. split; [apply Forall_app; auto|].
      split. { intros j p Hin. apply in_app_or in Hin. destruct Hin as [Hin|[[= <- <-]|[]]]; auto. }
      split; [|split; auto].
      * intros j. rewrite pages_of_snoc, Hl. unfold holder. csimp. rewrite Et.
        destruct (i =? j) eqn:E; rewrite ?app_nil_r; auto. rewrite enc_pages_snoc, Ep. auto.
      * intros x. unfold qinv. csimp. destruct (Z.eq_dec x tid) as [->|Hne].
        { rewrite upd_same. exists None. split; auto. discriminate. }
        rewrite upd_other by auto. specialize (Hq x). unfold qinv in Hq. cbn in Hq.
        destruct (th x) as [[j p]|]; [|congruence]. destruct Hq as (cur & H1 & H2). exists cur. split; auto.
        destruct cur; [destruct H2; congruence|discriminate].
    + csimp. destruct Hcur as [Eh Ep]. subst h part.
      exists ps, []. csimp. split; [exact Hd|]. split; auto. split; auto. split; [|split; auto].
      * intros j. rewrite Hl. unfold holder. csimp. rewrite Et. destruct (i =? j); auto.
      * intros x. unfold qinv. csimp. destruct (Z.eq_dec x tid) as [->|Hne].
        { rewrite upd_same. exists None. split; auto. discriminate. }
        rewrite upd_other by auto. specialize (Hq x). unfold qinv in Hq. cbn in Hq.
        destruct (th x) as [[j p]|]; [|congruence]. destruct Hq as (cur & H1 & H2). exists cur. split; auto.
        destruct cur; [destruct H2; congruence|discriminate].
Qed.

Lemma ginv_exec acts : forall c, ginv c -> ginv (mexec tag_of acts c).
Proof. induction acts as [|a acts IH]; intros c H; [exact H|]. cbn. apply IH, ginv_step, H. Qed.

(** ** Projection to one sink *)
Record sim (i : Z) (c : mconf) (d : conf) : Prop := mkSim {
  s_disk : disk (cmem d) = log_of i (mlog (mcmem c));
  s_sink : tget (tag_of i) (sinks (cmem d)) = msinks (mcmem c) i;
  s_slk : tget (tag_of i) (slk (cmem d)) = mslk (mcmem c) i;
  s_shl : shl (cmem d) = holder i c;
  s_thr : forall tid, thr d tid = match mthr c tid with Some (j, p) => if j =? i then Some p else None | None => None end;
  s_hist : hist d = hist_of i (mhist c) }.

Lemma sim0 i : sim i mconf0 conf0.
Proof. constructor; cbn; auto; destruct (tag_of i); reflexivity. Qed.

Definition calls_from (i : Z) (a : maction) (l : list action) : Prop :=
  forall tid o, In (Invoke tid o) l -> exists o', a = MInvoke tid i o' /\ o = with_tag (tag_of i) o'.

Lemma sim_step i c d a : ginv c -> sim i c d ->
  exists l, calls_from i a l /\ sim i (mstep tag_of c a) (exec l d).
Proof.
  intros (ps & part & _ & _ & _ & _ & _ & Hq) [Sd Ss Sl Sh St Sy].
  destruct c as [[l s k h] th hi], d as [[dd ds dk dh] dth dhi]. unfold holder in Sh.
  cbn [mcmem mlog msinks mslk mshl mthr mhist cmem disk sinks slk shl thr hist] in *.
  destruct a as [tid j o|tid].
  - specialize (Hq tid). unfold qinv in Hq. cbn in Hq. cbn [mstep mcmem mthr mhist].
    destruct (th tid) eqn:Et.
    { exists []. split; [intros ? ? []|]. constructor; auto. }
    destruct (Z.eqb_spec j i) as [->|Hji].
    + exists [Invoke tid (with_tag (tag_of i) o)]. split.
      { intros x o' [[= <- <-]|[]]. eauto. }
      cbn [exec fold_left cstep thr]. rewrite St, Et. constructor; csimp; auto.
      * unfold holder. csimp. rewrite Sh. destruct h as [x|]; auto. rewrite upd_other; auto. congruence.
      * intros x. unfold set_thr, upd. destruct (Z.eqb_spec x tid); auto. rewrite Z.eqb_refl. auto.
      * rewrite hist_of_snoc, Z.eqb_refl, Sy. auto.
    + exists []. split; [intros ? ? []|]. csimp. constructor; csimp; auto.
      * unfold holder. csimp. rewrite Sh. destruct h as [x|]; auto. rewrite upd_other; auto. congruence.
      * intros x. rewrite St. unfold upd. destruct (Z.eqb_spec x tid) as [->|]; auto. rewrite Et.
        destruct (Z.eqb_spec j i); congruence.
      * rewrite hist_of_snoc. destruct (Z.eqb_spec j i); [congruence|]. rewrite app_nil_r. auto.
  - specialize (Hq tid). unfold qinv in Hq. cbn in Hq. cbn [mstep mcmem mthr mhist].
    destruct (th tid) as [[j p]|] eqn:Et.
    2:{ exists []. split; [intros ? ? []|]. constructor; auto. }
    destruct Hq as (cur & Hok & Hcur).
    assert (SAME : exists l0 : list action, calls_from i (MTick tid) l0 /\
       sim i (mkMConf (mkMMem l s k h) th hi) (exec l0 (mkConf (mkMem dd ds dk dh) dth dhi))).
    { exists []. split; [intros ? ? []|]. constructor; auto. }
    destruct (Z.eqb_spec j i) as [->|Hji].
    + (* a step of the sink we look at *)
      pose proof (St tid) as Sti. rewrite Et, Z.eqb_refl in Sti.
      assert (TICK : forall c', sim i c' (cstep (mkConf (mkMem dd ds dk dh) dth dhi) (Tick tid)) ->
         exists l0 : list action, calls_from i (MTick tid) l0 /\ sim i c' (exec l0 (mkConf (mkMem dd ds dk dh) dth dhi))).
      { intros c' H. exists [Tick tid]. split; [|exact H]. intros x o [E|[]]. discriminate. }
      assert (THR : forall v x, set_thr dth tid v x = match upd th tid (option_map (fun p => (i, p)) v) x with
                 Some (j, p) => if j =? i then Some p else None | None => None end).
      { intros v x. unfold set_thr, upd. destruct (Z.eqb_spec x tid); auto. destruct v; cbn; auto. rewrite Z.eqb_refl. auto. }
      destruct Hok; cbn [mprog_step mslk mshl msinks mlog mcmem].
      * apply TICK. cbn [cstep thr]. rewrite Sti. constructor; csimp; auto.
        -- unfold holder. csimp. rewrite Sh. destruct h as [x|]; auto. rewrite upd_other; auto. congruence.
        -- apply (THR None).
        -- rewrite hist_of_snoc, Z.eqb_refl, Sy. auto.
      * apply TICK. cbn [cstep thr]. rewrite Sti. constructor; csimp; auto.
        -- unfold holder. csimp. rewrite Sh. destruct h as [x|]; auto. rewrite upd_other; auto. congruence.
        -- apply (THR None).
        -- rewrite hist_of_snoc, Z.eqb_refl, Sy. auto.
      * destruct (k i) eqn:Ek; [exact SAME|]. apply TICK. cbn [cstep thr]. rewrite Sti. cbn [prog_step cmem slk].
        rewrite Sl. constructor; csimp; auto.
        -- rewrite tget_tset_same, upd_same. auto.
        -- unfold holder. csimp. rewrite Sh. destruct h as [x|]; auto. rewrite upd_other; auto. congruence.
        -- rewrite Ss. apply (THR (Some (k0 (s i)))).
      * apply TICK. cbn [cstep thr]. rewrite Sti. cbn [prog_step cmem slk]. constructor; csimp; auto.
        -- rewrite tget_tset_same, upd_same. auto.
        -- rewrite tget_tset_same, upd_same. auto.
        -- unfold holder. csimp. rewrite Sh. destruct h as [x|]; auto. rewrite upd_other; auto. congruence.
        -- apply (THR (Some k0)).
      * destruct h as [x|]; [exact SAME|]. apply TICK. cbn [cstep thr]. rewrite Sti. cbn [prog_step cmem shl].
        rewrite Sh. constructor; csimp; auto.
        -- unfold holder. csimp. rewrite upd_same, Z.eqb_refl. auto.
        -- apply (THR (Some k0)).
      * apply TICK. cbn [cstep thr]. rewrite Sti. cbn [prog_step cmem]. destruct Hcur as [-> _]. constructor; csimp; auto.
        -- rewrite log_of_snoc, Z.eqb_refl, Sd. auto.
        -- unfold holder. csimp. rewrite upd_same, Z.eqb_refl, Sh, Et, Z.eqb_refl. auto.
        -- apply (THR (Some k0)).
      * apply TICK. cbn [cstep thr]. rewrite Sti. cbn [prog_step cmem]. constructor; csimp; auto. apply (THR (Some k0)).
      * apply TICK. cbn [cstep thr]. rewrite Sti. cbn [prog_step cmem]. constructor; csimp; auto. apply (THR (Some k0)).
    + (* a step of another sink *)
      assert (NIL : forall c', sim i c' (mkConf (mkMem dd ds dk dh) dth dhi) ->
         exists l0 : list action, calls_from i (MTick tid) l0 /\ sim i c' (exec l0 (mkConf (mkMem dd ds dk dh) dth dhi))).
      { intros c' H. exists []. split; [intros ? ? []|exact H]. }
      assert (THR : forall v x, (forall p, v = Some p -> fst p <> i) -> dth x = match upd th tid v x with
                 Some (j, p) => if j =? i then Some p else None | None => None end).
      { intros v x Hv. rewrite St. unfold upd. destruct (Z.eqb_spec x tid) as [->|]; auto. rewrite Et.
        destruct (Z.eqb_spec j i); [congruence|]. destruct v as [[j' p']|]; auto.
        specialize (Hv _ eq_refl). cbn in Hv. destruct (Z.eqb_spec j' i); congruence. }
      assert (Hj : (j =? i) = false) by (destruct (Z.eqb_spec j i); congruence).
      assert (Hij : i <> j) by congruence.
      assert (HV : forall (q : prog) (p0 : Z * prog), Some (j, q) = Some p0 -> fst p0 <> i) by (intros q p0 [= <-]; auto).
      assert (HOL : forall v m hi', mshl m = h -> (forall p, v = Some p -> fst p <> i) ->
                dh = holder i (mkMConf m (upd th tid v) hi')).
      { intros v m hi' E Hv. unfold holder. csimp. rewrite E, Sh. destruct h as [x|]; auto. unfold upd.
        destruct (Z.eqb_spec x tid) as [->|]; auto. rewrite Et, Hj. destruct v as [[j' p']|]; auto.
        specialize (Hv _ eq_refl). cbn in Hv. destruct (Z.eqb_spec j' i); congruence. }
      assert (HN : forall p : Z * prog, None = Some p -> fst p <> i) by discriminate.
      destruct Hok; cbn [mprog_step mslk mshl msinks mlog mcmem].
      * apply NIL. constructor; csimp; auto; try (intros x; apply THR; first [exact HN | apply HV]); try (apply HOL; [reflexivity | first [exact HN | apply HV]]). rewrite hist_of_snoc, Hj, app_nil_r. auto.
      * apply NIL. constructor; csimp; auto; try (intros x; apply THR; first [exact HN | apply HV]); try (apply HOL; [reflexivity | first [exact HN | apply HV]]). rewrite hist_of_snoc, Hj, app_nil_r. auto.
      * destruct (k j) eqn:Ek; [exact SAME|]. apply NIL. constructor; csimp; auto; try (intros x; apply THR; first [exact HN | apply HV]); try (apply HOL; [reflexivity | first [exact HN | apply HV]]). rewrite upd_other; auto.
      * apply NIL. constructor; csimp; auto; try (intros x; apply THR; first [exact HN | apply HV]); try (apply HOL; [reflexivity | first [exact HN | apply HV]]); rewrite upd_other; auto.
      * destruct h as [x|]; [exact SAME|]. apply NIL. constructor; csimp; auto; try (intros x; apply THR; first [exact HN | apply HV]); try (apply HOL; [reflexivity | first [exact HN | apply HV]]).
        unfold holder. csimp. rewrite upd_same, Hj. auto.
      * apply NIL. constructor; csimp; auto; try (intros x; apply THR; first [exact HN | apply HV]); try (apply HOL; [reflexivity | first [exact HN | apply HV]]). rewrite log_of_snoc, Hj, app_nil_r. auto.
      * destruct Hcur as [-> _]. rewrite Et, Hj in Sh. apply NIL. constructor; csimp; auto; try (intros x; apply THR; first [exact HN | apply HV]); try (apply HOL; [reflexivity | first [exact HN | apply HV]]).
      * destruct Hcur as [-> _]. rewrite Et, Hj in Sh. apply NIL. constructor; csimp; auto; try (intros x; apply THR; first [exact HN | apply HV]); try (apply HOL; [reflexivity | first [exact HN | apply HV]]).
Qed.

Lemma sim_exec i acts : forall c d, ginv c -> sim i c d ->
  exists l, (forall tid o, In (Invoke tid o) l -> exists o', In (MInvoke tid i o') acts /\ o = with_tag (tag_of i) o') /\
    sim i (mexec tag_of acts c) (exec l d).
Proof.
  induction acts as [|a acts IH]; intros c d Hg Hs.
  - exists []. split; [intros ? ? []|exact Hs].
  - destruct (sim_step i c d a Hg Hs) as (l1 & H1 & S1).
    destruct (IH _ _ (ginv_step c a Hg) S1) as (l2 & H2 & S2).
    exists (l1 ++ l2). split; [|rewrite exec_app; exact S2].
    intros tid o Hin. apply in_app_or in Hin. destruct Hin as [Hin|Hin].
    + destruct (H1 _ _ Hin) as (o' & -> & E). exists o'. split; auto. left. auto.
    + destruct (H2 _ _ Hin) as (o' & Ho & E). exists o'. split; auto. right. auto.
Qed.

Lemma with_tag_ok t o : op_ok o -> op_ok (with_tag t o).
Proof. destruct o; cbn; auto. Qed.
Lemma with_tag_unsplit t o : op_unsplit o -> op_unsplit (with_tag t o).
Proof. destruct o; cbn; auto. Qed.

(** Every sink behaves like the only one. *)
Lemma one_sink (sm : tag -> Prop) i acts : macts_ok acts ->
  (forall tid o, In (MInvoke tid i o) acts -> sm (tag_of i) -> op_unsplit o) ->
  exists d, sim i (mexec tag_of acts mconf0) d /\ cinv sm d.
Proof.
  intros Hok Hun. destruct (sim_exec i acts mconf0 conf0 ginv0 (sim0 i)) as (l & Hl & Hs).
  exists (exec l conf0). split; auto. apply cinv_exec; [|apply cinv0].
  intros tid o Hin. destruct (Hl _ _ Hin) as (o' & Ho & ->). split.
  - apply with_tag_ok. eapply Hok; eauto.
  - rewrite tag_with. intros H. apply with_tag_unsplit. eapply Hun; eauto.
Qed.
End Multi.
