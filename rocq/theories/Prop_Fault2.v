(** C54, continued: a panic for lack of space (or in a callback) blocks nobody.  Model M_Fault.v. *)
From Coq Require Import ZArith List Lia Bool.
From Verif Require Import M_Base F_Base M_Sink S_Sink M_Conc S_Conc F_Sink F_SinkSeq F_Conc F_Conc2 Prop_Sink M_Fault Prop_Fault.
Import ListNotations.
Open Scope Z_scope.

(** Calls whose callback keeps the length of its buffer; it may panic. *)
Definition op_sized (o : op) : Prop :=
  match o with OWriteAtomic _ n cb => 0 <= n /\ zlen (fst (cb (zeros n))) = n | _ => True end.
Definition acts_sized (l : list (action * Z)) : Prop := forall tid o cap, In (Invoke tid o, cap) l -> op_sized o.
(** No buffer is larger than a page. *)
Definition small (s : tmap sink) : Prop := forall t, zlen (sbuf (tget t s)) <= 256 * 1024.

(** * Programs that take one sink, then the storage, and give back what they took *)
Inductive lp : option tag -> bool -> prog -> Prop :=
| lp_done r : lp None false (Done r)
| lp_fail : lp None false Fail
| lp_lock t k : (forall s, zlen (sbuf s) <= MAX_PAGE_SIZE -> lp (Some t) false (k s)) -> lp None false (LockSink t k)
| lp_unlock t s k : zlen (sbuf s) <= MAX_PAGE_SIZE -> ((exists r, k = Done r) \/ k = Fail) -> lp (Some t) false (UnlockSink t s k)
| lp_shared t k : lp (Some t) true k -> lp (Some t) false (LockShared k)
| lp_write t bs k : lp (Some t) true k -> lp (Some t) true (WriteAll bs k)
| lp_unshare t k : lp (Some t) false k -> lp (Some t) true (UnlockShared k).

Lemma lp_page t t' bs k : zlen bs <= MAX_PAGE_SIZE -> lp (Some t) false k -> lp (Some t) false (write_page t' bs k).
Proof.
  intros L H. unfold write_page. destruct (0 <? zlen bs); [|exact H]. destruct (Z.leb_spec (zlen bs) MAX_PAGE_SIZE); [|lia].
  apply lp_shared, lp_write, lp_write, lp_write, lp_unshare, H.
Qed.
Lemma lp_chunks t chs : chunked MAX_PAGE_SIZE chs -> forall buf k, zlen buf = 0 -> (forall b, zlen b <= MAX_PAGE_SIZE -> lp (Some t) false (k b)) -> lp (Some t) false (write_chunks t chs buf k).
Proof.
  intros C. induction C as [|c Hc|c chs Hc HC IH]; intros buf k Hb HK; cbn [write_chunks].
  - apply HK. unfold MAX_PAGE_SIZE. lia.
  - destruct (zlen c =? MAX_PAGE_SIZE); [apply lp_page; [lia|apply HK; unfold MAX_PAGE_SIZE; lia]|].
    destruct (MIN_PAGE_SIZE <=? zlen c); [apply lp_page; [lia|apply HK; unfold MAX_PAGE_SIZE; lia]|].
    rewrite Hb. apply HK. rewrite zlen_app. lia.
  - rewrite Hc, Z.eqb_refl. apply lp_page; [lia|]. apply IH; auto.
Qed.
Lemma lp_large t bs k : (forall r, exists r', k r = Done r') -> lp None false (write_bytes_large t bs k).
Proof.
  intros HK. unfold write_bytes_large. apply lp_lock. intros s Hs. cbv zeta. set (n := if zlen (sbuf s) <? MIN_PAGE_SIZE then _ else 0).
  assert (HB : zlen (sbuf s ++ ztake n bs) <= MAX_PAGE_SIZE).
  { pose proof (zlen_nonneg (sbuf s)). pose proof (zlen_nonneg bs). rewrite zlen_app. unfold n. destruct (Z.ltb_spec (zlen (sbuf s)) MIN_PAGE_SIZE).
    - rewrite zlen_ztake by lia. unfold MIN_PAGE_SIZE, MAX_PAGE_SIZE in *. change (256 * 1024 / 2) with 131072 in *. lia.
    - rewrite zlen_ztake by lia. lia. }
  destruct (HK (saddr s)) as (r' & Er). destruct (zlen (zdrop n bs) =? 0); [apply lp_unlock; [exact HB|left; eauto]|].
  unfold flush. apply lp_page; [exact HB|]. apply lp_chunks; [apply chunks_chunked; unfold MAX_PAGE_SIZE; lia|reflexivity|]. intros b Hb'. apply lp_unlock; [exact Hb'|left; eauto].
Qed.
Lemma lp_atomic t n cb k : 0 <= n -> zlen (fst (cb (zeros n))) = n -> (forall r, exists r', k r = Done r') -> lp None false (write_atomic t n cb k).
Proof.
  intros Hn HC HK. unfold write_atomic. destruct (Z.ltb_spec MAX_PAGE_SIZE n) as [L|L].
  - destruct (cb (zeros n)) as (bs & []); [apply lp_fail|apply lp_large, HK].
  - apply lp_lock. intros s Hs. cbv zeta. destruct (HK (saddr s)) as (r' & Er). destruct (cb (zeros n)) as (bs & pk). cbn [fst] in HC.
    assert (BD : forall b, zlen b + n <= MAX_PAGE_SIZE -> lp (Some t) false (if pk then UnlockSink t (mkSink (b ++ bs) (saddr s)) Fail else UnlockSink t (mkSink (b ++ bs) (saddr s + n)) (k (saddr s)))).
    { intros b Hb. destruct pk; (apply lp_unlock; [cbn [sbuf]; rewrite zlen_app; lia|]); [right; reflexivity|left; eauto]. }
    destruct (Z.ltb_spec MAX_PAGE_SIZE (zlen (sbuf s) + n)).
    + unfold flush. apply lp_page; [exact Hs|]. apply BD. change (zlen (@nil Z)) with 0. lia.
    + apply BD. lia.
Qed.
Lemma lp_op o : op_sized o -> lp None false (op_prog o).
Proof.
  assert (D : forall r, exists r', Done r = Done r') by eauto.
  assert (WB : forall t bs k, (forall r, exists r', k r = Done r') -> lp None false (write_bytes_atomic t bs k)).
  { intros t bs k HK. unfold write_bytes_atomic. destruct (zlen bs <=? 128); [|apply lp_large, HK]. apply lp_atomic; [apply zlen_nonneg|reflexivity|exact HK]. }
  destruct o as [t n cb|t bs|t bs|t|t]; cbn [op_sized op_prog]; intros H.
  - destruct H. apply lp_atomic; auto.
  - apply WB; auto.
  - apply WB. eauto.
  - unfold std_flush. apply lp_lock. intros s Hs. unfold flush. apply lp_page; [exact Hs|]. apply lp_shared, lp_unshare, lp_unlock; [cbn; unfold MAX_PAGE_SIZE; change (zlen (@nil Z)) with 0; lia|left; eauto].
  - unfold drop_sink. apply lp_lock. intros s Hs. unfold flush. apply lp_page; [exact Hs|]. apply lp_unlock; [cbn; unfold MAX_PAGE_SIZE; change (zlen (@nil Z)) with 0; lia|left; eauto].
Qed.

(** * Who holds what *)
Definition holds (m : mem) (tid : Z) (h : option tag) (s : bool) : Prop :=
  (forall t, tget t (slk m) = Some tid <-> h = Some t) /\ (shl m = Some tid <-> s = true).
Definition linv (c : conf) : Prop := small (sinks (cmem c)) /\ forall tid,
  match thr c tid with None => holds (cmem c) tid None false | Some p => exists h s, lp h s p /\ holds (cmem c) tid h s end.
Definition keeps_small (after : Z -> mem -> tmap sink) : Prop := forall tid m, small (sinks m) -> small (after tid m).

Lemma linv0 : linv conf0.
Proof. split; [intros []; vm_compute; discriminate|]. intros tid. cbn. split; [intros []; cbn; split; discriminate|split; discriminate]. Qed.
Lemma tget_release tid t m : tget t (TM (release tid (tm_ev m)) (release tid (tm_sd m)) (release tid (tm_si m))) = release tid (tget t m).
Proof. destruct t; reflexivity. Qed.
Lemma release_self tid l : release tid l <> Some tid.
Proof. destruct l as [x|]; cbn [release]; [|discriminate]. destruct (Z.eqb_spec x tid); congruence. Qed.
Lemma release_other tid l x : x <> tid -> (release tid l = Some x <-> l = Some x).
Proof. intros N. destruct l as [y|]; cbn [release]; [|reflexivity]. destruct (Z.eqb_spec y tid); [|reflexivity]. subst. split; [discriminate|congruence]. Qed.

(** A step of one thread and the others *)
Lemma others_hold c c' tid : (forall x, x <> tid -> thr c' x = thr c x) ->
  (forall x h s, x <> tid -> holds (cmem c) x h s -> holds (cmem c') x h s) ->
  (forall x, x <> tid -> match thr c x with None => holds (cmem c) x None false | Some p => exists h s, lp h s p /\ holds (cmem c) x h s end) ->
  forall x, x <> tid -> match thr c' x with None => holds (cmem c') x None false | Some p => exists h s, lp h s p /\ holds (cmem c') x h s end.
Proof.
  intros T H A x N. rewrite (T x N). specialize (A x N). destruct (thr c x); [destruct A as (h & s & L & HH); exists h, s; auto|auto].
Qed.
Lemma linv_step after c a cap : keeps_small after -> (forall tid o, a = Invoke tid o -> op_sized o) -> linv c -> linv (lstep after c (a, cap)).
Proof.
  intros KS HO (SM & H). set (c' := lstep after c (a, cap)).
  assert (G : forall tid, (forall x, x <> tid -> thr c' x = thr c x) -> (forall x h s, x <> tid -> holds (cmem c) x h s -> holds (cmem c') x h s) ->
     small (sinks (cmem c')) -> match thr c' tid with None => holds (cmem c') tid None false | Some p => exists h s, lp h s p /\ holds (cmem c') tid h s end -> linv c').
  { intros tid T HH S' B. split; [exact S'|]. intros x. destruct (Z.eq_dec x tid) as [->|N]; [exact B|]. apply (others_hold c c' tid T HH); [intros y _; apply H|exact N]. }
  destruct a as [tid o|tid].
  - unfold c' in *. cbn [lstep cstep] in *. destruct (thr c tid) eqn:E; [split; auto|]. apply (G tid); cbn [thr cmem].
    + intros x N. apply set_thr_other, N.
    + auto.
    + exact SM.
    + rewrite set_thr_same. specialize (H tid). rewrite E in H. exists None, false. split; [apply lp_op, (HO tid o eq_refl)|exact H].
  - unfold c' in *. clear c'. cbn [lstep] in *. pose proof (H tid) as Ht. destruct (thr c tid) as [p|] eqn:E.
    2: { cbn [cstep] in *. rewrite E in *. split; auto. }
    destruct Ht as (h & s & L & (H1 & H2)). destruct L as [r| |t k L|t sk k L K|t k L|t bs k L|t k L].
    + cbn [cstep] in *. rewrite E in *. apply (G tid); cbn [thr cmem]; [intros x N; apply set_thr_other, N|auto|exact SM|]. rewrite set_thr_same. split; auto.
    + cbn [cstep] in *. rewrite E in *. apply (G tid); cbn [thr cmem]; [intros x N; apply set_thr_other, N|auto|exact SM|]. rewrite set_thr_same. split; auto.
    + cbn [cstep] in *. rewrite E in *. cbn [prog_step] in *. destruct (tget t (slk (cmem c))) eqn:EL; [split; auto|]. apply (G tid); cbn [thr cmem].
      * intros x N; apply set_thr_other, N.
      * intros x h s N (A1 & A2). split; [|exact A2]. cbn [slk]. intros t'. destruct (tag_eq_dec t' t) as [->|Nt]; [rewrite tget_tset_same|rewrite tget_tset_other by auto; apply A1]. split; [congruence|]. intros X. apply A1 in X. congruence.
      * exact SM.
      * rewrite set_thr_same. exists (Some t), false. split; [apply L, SM|]. split; [|exact H2]. cbn [slk]. intros t'. destruct (tag_eq_dec t' t) as [->|Nt]; [rewrite tget_tset_same; tauto|]. rewrite tget_tset_other by auto. rewrite H1. split; [discriminate|congruence].
    + cbn [cstep] in *. rewrite E in *. cbn [prog_step] in *. apply (G tid); cbn [thr cmem].
      * intros x N; apply set_thr_other, N.
      * intros x h s N (A1 & A2). split; [|exact A2]. cbn [slk]. intros t'. destruct (tag_eq_dec t' t) as [->|Nt]; [rewrite tget_tset_same|rewrite tget_tset_other by auto; apply A1]. split; [discriminate|]. intros X. apply A1 in X. rewrite (proj2 (H1 t) eq_refl) in X. congruence.
      * intros t'. cbn [sinks]. destruct (tag_eq_dec t' t) as [->|Nt]; [rewrite tget_tset_same; exact L|rewrite tget_tset_other by auto; apply SM].
      * rewrite set_thr_same. exists None, false. split; [destruct K as [(r & ->)| ->]; constructor|]. split; [|exact H2]. cbn [slk]. intros t'. destruct (tag_eq_dec t' t) as [->|Nt]; [rewrite tget_tset_same; split; discriminate|]. rewrite tget_tset_other by auto. rewrite H1. split; [congruence|discriminate].
    + cbn [cstep] in *. rewrite E in *. cbn [prog_step] in *. destruct (shl (cmem c)) eqn:EL; [split; auto|]. apply (G tid); cbn [thr cmem].
      * intros x N; apply set_thr_other, N.
      * intros x h s N (A1 & A2). split; [exact A1|]. cbn [shl]. rewrite <- A2. rewrite EL. split; congruence.
      * exact SM.
      * rewrite set_thr_same. exists (Some t), true. split; [exact L|]. split; [exact H1|]. cbn [shl]. tauto.
    + destruct (zlen (disk (cmem c)) + zlen bs <=? cap) eqn:EC.
      * cbn [cstep] in *. rewrite E in *. cbn [prog_step] in *. apply (G tid); cbn [thr cmem]; [intros x N; apply set_thr_other, N|auto|exact SM|]. rewrite set_thr_same. exists (Some t), true. split; [exact L|]. split; auto.
      * apply (G tid); cbn [thr cmem].
        -- intros x N; apply set_thr_other, N.
        -- intros x h s N (A1 & A2). split; cbn [slk shl]; [intros t'; rewrite tget_release, release_other by auto; apply A1|rewrite release_other by auto; exact A2].
        -- apply KS, SM.
        -- rewrite set_thr_same. exists None, false. split; [constructor|]. split; cbn [slk shl]; [intros t'; rewrite tget_release; split; [intros X; destruct (release_self _ _ X)|discriminate]|split; [intros X; destruct (release_self _ _ X)|discriminate]].
    + cbn [cstep] in *. rewrite E in *. cbn [prog_step] in *. apply (G tid); cbn [thr cmem].
      * intros x N; apply set_thr_other, N.
      * intros x h s N (A1 & A2). split; [exact A1|]. cbn [shl]. rewrite <- A2. rewrite (proj2 H2 eq_refl). split; congruence.
      * exact SM.
      * rewrite set_thr_same. exists (Some t), false. split; [exact L|]. split; [exact H1|]. cbn [shl]. split; discriminate.
Qed.
Lemma linv_exec after l : keeps_small after -> forall c, acts_sized l -> linv c -> linv (lexec after l c).
Proof.
  intros KS. induction l as [|(a & cap) l IH]; intros c HO H; [exact H|]. cbn [lexec fold_left]. apply IH; [intros x o cp I; apply (HO x o cp); right; exact I|].
  apply linv_step; auto. intros tid o ->. apply (HO tid o cap). left. reflexivity.
Qed.

(** * Finishing *)
Lemma lexec_app after a b c : lexec after (a ++ b) c = lexec after b (lexec after a c).
Proof. apply fold_left_app. Qed.
Lemma at_capacity_app cap a b : at_capacity cap (a ++ b) = at_capacity cap a ++ at_capacity cap b.
Proof. apply map_app. Qed.
(** [c'] is [c] after [tid] has finished its call: nobody else has moved, no lock has been taken. *)
Definition done_with (tid : Z) (c c' : conf) : Prop :=
  thr c' tid = None /\ (forall x, x <> tid -> thr c' x = thr c x) /\ (forall t, tget t (slk (cmem c')) = tget t (slk (cmem c)) \/ tget t (slk (cmem c)) = Some tid /\ tget t (slk (cmem c')) = None) /\
  (shl (cmem c) = None -> shl (cmem c') = None) /\ (shl (cmem c) = Some tid -> shl (cmem c') = None).
Definition free_for (tid : Z) (l : option Z) : Prop := l = None \/ l = Some tid.
Lemma finish_call after cap tid : keeps_small after -> forall p h s, lp h s p -> forall c, linv c -> thr c tid = Some p -> free_for tid (shl (cmem c)) ->
  (h = None -> forall t, tget t (slk (cmem c)) = None) ->
  exists n, done_with tid c (lexec after (at_capacity cap (repeat (Tick tid) n)) c).
Proof.
  intros KS p h s L. assert (NI : forall x o, Tick tid = Invoke x o -> op_sized o) by discriminate.
  (* [free_locks]: what may have changed on the way *)
  assert (G : forall c, linv c -> thr c tid = Some p -> free_for tid (shl (cmem c)) -> (h = None -> forall t, free_for tid (tget t (slk (cmem c)))) ->
     exists n, let c' := lexec after (at_capacity cap (repeat (Tick tid) n)) c in thr c' tid = None /\ (forall x, x <> tid -> thr c' x = thr c x) /\
       (forall t x, x <> tid -> tget t (slk (cmem c')) = Some x -> tget t (slk (cmem c)) = Some x) /\ (forall t x, x <> tid -> tget t (slk (cmem c)) = Some x -> tget t (slk (cmem c')) = Some x) /\
       (forall x, x <> tid -> shl (cmem c') = Some x -> shl (cmem c) = Some x)).
  { induction L as [r| |t k L IH|t sk k L K|t k L IH|t bs k L IH|t k L IH]; intros c I E FS FL.
    - exists 1%nat. cbn [repeat at_capacity map lexec fold_left lstep]. rewrite E. cbn [cstep]. rewrite E. cbn [thr cmem]. split; [apply set_thr_same|]. split; [intros x N; apply set_thr_other, N|auto].
    - exists 1%nat. cbn [repeat at_capacity map lexec fold_left lstep]. rewrite E. cbn [cstep]. rewrite E. cbn [thr cmem]. split; [apply set_thr_same|]. split; [intros x N; apply set_thr_other, N|auto].
    - assert (LF : tget t (slk (cmem c)) = None). { destruct (FL eq_refl t) as [X|X]; [exact X|]. destruct I as (_ & I). specialize (I tid). rewrite E in I. destruct I as (h' & s' & L' & (A1 & _)). inversion L'; subst. apply A1 in X. discriminate. }
      set (c1 := lstep after c (Tick tid, cap)). pose proof (linv_step after c (Tick tid) cap KS NI I) as I1. fold c1 in I1.
      assert (E1 : c1 = mkConf (mkMem (disk (cmem c)) (sinks (cmem c)) (tset t (Some tid) (slk (cmem c))) (shl (cmem c))) (set_thr (thr c) tid (Some (k (tget t (sinks (cmem c)))))) (hist c)).
      { unfold c1. cbn [lstep]. rewrite E. cbn [cstep]. rewrite E. cbn [prog_step]. rewrite LF. reflexivity. }
      destruct (IH (tget t (sinks (cmem c))) (proj1 I t) c1 I1) as (n & N1 & N2 & N3 & N4 & N5).
      { rewrite E1. apply set_thr_same. } { rewrite E1. exact FS. } { discriminate. }
      exists (S n). change (lexec after (at_capacity cap (repeat (Tick tid) (S n))) c) with (lexec after (at_capacity cap (repeat (Tick tid) n)) c1). cbv zeta in *. rewrite E1 in *. cbn [thr cmem slk shl] in *.
      split; [exact N1|]. split; [intros x N; rewrite N2 by exact N; apply set_thr_other, N|]. split; [|split; [|exact N5]].
      + intros t' x N X. apply N3 in X; [|exact N]. destruct (tag_eq_dec t' t) as [->|Nt]; [rewrite tget_tset_same in X; congruence|rewrite tget_tset_other in X by auto; exact X].
      + intros t' x N X. apply N4; [exact N|]. destruct (tag_eq_dec t' t) as [->|Nt]; [congruence|rewrite tget_tset_other by auto; exact X].
    - pose proof I as (_ & I'). specialize (I' tid). rewrite E in I'. destruct I' as (h' & s' & L' & (A1 & A2)). inversion L'; subst. pose proof (proj2 (A1 t) eq_refl) as LT.
      exists 2%nat. cbn [repeat at_capacity map lexec fold_left]. set (c1 := lstep after c (Tick tid, cap)).
      assert (E1 : c1 = mkConf (mkMem (disk (cmem c)) (tset t sk (sinks (cmem c))) (tset t None (slk (cmem c))) (shl (cmem c))) (set_thr (thr c) tid (Some k)) (hist c)).
      { unfold c1. cbn [lstep]. rewrite E. cbn [cstep]. rewrite E. reflexivity. }
      assert (E2 : exists ev, lstep after c1 (Tick tid, cap) = mkConf (cmem c1) (set_thr (thr c1) tid None) ev).
      { assert (T1 : thr c1 tid = Some k) by (rewrite E1; apply set_thr_same). cbn [lstep]. rewrite T1. destruct K as [(r & ->)| ->]; cbn [cstep]; rewrite T1; eexists; reflexivity. }
      destruct E2 as (ev & ->). rewrite E1. cbv zeta. cbn [thr cmem slk shl]. split; [apply set_thr_same|]. split; [intros x N; rewrite !set_thr_other by exact N; reflexivity|]. split; [|split; [|auto]].
      + intros t' x N X. destruct (tag_eq_dec t' t) as [->|Nt]; [rewrite tget_tset_same in X; discriminate|rewrite tget_tset_other in X by auto; exact X].
      + intros t' x N X. destruct (tag_eq_dec t' t) as [->|Nt]; [congruence|rewrite tget_tset_other by auto; exact X].
    - pose proof I as (_ & I'). specialize (I' tid). rewrite E in I'. destruct I' as (h' & s' & L' & (A1 & A2)). inversion L'; subst.
      assert (SF : shl (cmem c) = None) by (destruct FS as [X|X]; [exact X|apply A2 in X; discriminate]).
      set (c1 := lstep after c (Tick tid, cap)). pose proof (linv_step after c (Tick tid) cap KS NI I) as I1. fold c1 in I1.
      assert (E1 : c1 = mkConf (mkMem (disk (cmem c)) (sinks (cmem c)) (slk (cmem c)) (Some tid)) (set_thr (thr c) tid (Some k)) (hist c)).
      { unfold c1. cbn [lstep]. rewrite E. cbn [cstep]. rewrite E. cbn [prog_step]. rewrite SF. reflexivity. }
      destruct (IH c1 I1) as (n & N1 & N2 & N3 & N4 & N5). { rewrite E1. apply set_thr_same. } { rewrite E1. right. reflexivity. } { discriminate. }
      exists (S n). change (lexec after (at_capacity cap (repeat (Tick tid) (S n))) c) with (lexec after (at_capacity cap (repeat (Tick tid) n)) c1). cbv zeta in *. rewrite E1 in *. cbn [thr cmem slk shl] in *.
      split; [exact N1|]. split; [intros x N; rewrite N2 by exact N; apply set_thr_other, N|]. split; [exact N3|]. split; [exact N4|]. intros x N X. apply N5 in X; [congruence|exact N].
    - destruct (zlen (disk (cmem c)) + zlen bs <=? cap) eqn:EC.
      + set (c1 := lstep after c (Tick tid, cap)). pose proof (linv_step after c (Tick tid) cap KS NI I) as I1. fold c1 in I1.
        assert (E1 : c1 = mkConf (mkMem (disk (cmem c) ++ bs) (sinks (cmem c)) (slk (cmem c)) (shl (cmem c))) (set_thr (thr c) tid (Some k)) (hist c)).
        { unfold c1. cbn [lstep]. rewrite E, EC. cbn [cstep]. rewrite E. reflexivity. }
        destruct (IH c1 I1) as (n & N1 & N2 & N3 & N4 & N5). { rewrite E1. apply set_thr_same. } { rewrite E1. exact FS. } { discriminate. }
        exists (S n). change (lexec after (at_capacity cap (repeat (Tick tid) (S n))) c) with (lexec after (at_capacity cap (repeat (Tick tid) n)) c1). cbv zeta in *. rewrite E1 in *. cbn [thr cmem slk shl] in *.
        split; [exact N1|]. split; [intros x N; rewrite N2 by exact N; apply set_thr_other, N|]. auto.
      + exists 2%nat. cbn [repeat at_capacity map lexec fold_left]. set (c1 := lstep after c (Tick tid, cap)).
        assert (E1 : exists D, c1 = mkConf (mkMem D (after tid (cmem c)) (TM (release tid (tm_ev (slk (cmem c)))) (release tid (tm_sd (slk (cmem c)))) (release tid (tm_si (slk (cmem c))))) (release tid (shl (cmem c)))) (set_thr (thr c) tid (Some Fail)) (hist c)).
        { eexists. unfold c1. cbn [lstep]. rewrite E, EC. reflexivity. }
        destruct E1 as (D & E1). assert (T1 : thr c1 tid = Some Fail) by (rewrite E1; apply set_thr_same). cbn [lstep]. rewrite T1. cbn [cstep]. rewrite T1. cbv zeta. cbn [thr cmem]. rewrite E1. cbn [thr cmem slk shl].
        split; [apply set_thr_same|]. split; [intros x N; rewrite !set_thr_other by exact N; reflexivity|].
        split; [intros t' x N X; rewrite tget_release in X; apply release_other in X; auto|]. split; [intros t' x N X; rewrite tget_release; apply release_other; auto|]. intros x N X. apply release_other in X; auto.
    - pose proof I as (_ & I'). specialize (I' tid). rewrite E in I'. destruct I' as (h' & s' & L' & (A1 & A2)). inversion L'; subst.
      set (c1 := lstep after c (Tick tid, cap)). pose proof (linv_step after c (Tick tid) cap KS NI I) as I1. fold c1 in I1.
      assert (E1 : c1 = mkConf (mkMem (disk (cmem c)) (sinks (cmem c)) (slk (cmem c)) None) (set_thr (thr c) tid (Some k)) (hist c)).
      { unfold c1. cbn [lstep]. rewrite E. cbn [cstep]. rewrite E. reflexivity. }
      destruct (IH c1 I1) as (n & N1 & N2 & N3 & N4 & N5). { rewrite E1. apply set_thr_same. } { rewrite E1. left. reflexivity. } { discriminate. }
      exists (S n). change (lexec after (at_capacity cap (repeat (Tick tid) (S n))) c) with (lexec after (at_capacity cap (repeat (Tick tid) n)) c1). cbv zeta in *. rewrite E1 in *. cbn [thr cmem slk shl] in *.
      split; [exact N1|]. split; [intros x N; rewrite N2 by exact N; apply set_thr_other, N|]. split; [exact N3|]. split; [exact N4|]. intros x N X. apply N5 in X; [discriminate|exact N]. }
  intros c I E FS FL. destruct (G c I E FS) as (n & N1 & N2 & N3 & N4 & N5); [intros X t; left; auto|]. exists n. cbv zeta in *. set (c' := lexec after (at_capacity cap (repeat (Tick tid) n)) c) in *.
  assert (I' : linv c').
  { apply linv_exec; auto. intros x o cp X. unfold at_capacity in X. apply in_map_iff in X. destruct X as (a & X1 & X2). apply repeat_spec in X2. congruence. }
  destruct I' as (_ & I'). specialize (I' tid). rewrite N1 in I'. destruct I' as (A1 & A2). split; [exact N1|]. split; [exact N2|]. split; [|].
  - intros t. destruct (tget t (slk (cmem c'))) as [x|] eqn:X.
    + destruct (Z.eq_dec x tid) as [->|N]; [apply A1 in X; discriminate|]. left. symmetry. apply N3; auto.
    + destruct (tget t (slk (cmem c))) as [y|] eqn:Y; [|left; auto]. destruct (Z.eq_dec y tid) as [->|N]; [right; auto|]. apply (N4 t y N) in Y. congruence.
  - assert (NS : shl (cmem c) = None \/ shl (cmem c) = Some tid -> shl (cmem c') = None).
    { intros Hs. destruct (shl (cmem c')) as [x|] eqn:X; [|reflexivity]. destruct (Z.eq_dec x tid) as [->|N]; [discriminate (proj1 A2 eq_refl)|]. specialize (N5 x N eq_refl). destruct Hs; congruence. }
    split; auto.
Qed.
Lemma linv_ticks after cap ts c : keeps_small after -> ticks ts -> linv c -> linv (lexec after (at_capacity cap ts) c).
Proof.
  intros KS T I. apply linv_exec; auto. intros x o cp X. unfold at_capacity in X. apply in_map_iff in X. destruct X as (a & X1 & X2). unfold ticks in T. rewrite Forall_forall in T. destruct (T a X2) as (y & ->). congruence.
Qed.
(** Whoever holds the storage, then a sink, then everybody. *)
Lemma some_free after cap c (l : option Z) : keeps_small after -> linv c -> (forall tid, l = Some tid -> free_for tid (shl (cmem c)) /\ exists h s p, thr c tid = Some p /\ lp h s p /\ h <> None) ->
  exists ts, ticks ts /\ let c' := lexec after (at_capacity cap ts) c in linv c' /\
    (forall x, thr c' x = thr c x \/ thr c' x = None) /\ (forall t, tget t (slk (cmem c')) = tget t (slk (cmem c)) \/ tget t (slk (cmem c')) = None) /\
    (shl (cmem c) = None -> shl (cmem c') = None) /\ (forall tid, l = Some tid -> thr c' tid = None /\ (shl (cmem c) = Some tid -> shl (cmem c') = None)).
Proof.
  intros KS I H. destruct l as [tid|]; [|exists []; split; [constructor|]; cbv zeta; split; [exact I|]; split; [auto|]; split; [auto|]; split; [auto|]; discriminate].
  destruct (H tid eq_refl) as (F & h & s & p & E & L & NH). destruct (finish_call after cap tid KS p h s L c I E F) as (n & D1 & D2 & D3 & D4 & D5); [intros X; contradiction|].
  exists (repeat (Tick tid) n). split; [apply ticks_repeat|]. cbv zeta. split; [apply linv_ticks; auto; apply ticks_repeat|]. split; [intros x; destruct (Z.eq_dec x tid) as [->|N]; auto|]. split; [intros t; destruct (D3 t) as [X|(_ & X)]; auto|].
  split; [exact D4|]. intros x X. injection X as <-. auto.
Qed.
Lemma finish_all after cap tids : keeps_small after -> forall c, linv c -> shl (cmem c) = None -> (forall t, tget t (slk (cmem c)) = None) ->
  exists ts, ticks ts /\ let c' := lexec after (at_capacity cap ts) c in (forall x, In x tids -> thr c' x = None) /\ (forall x, thr c x = None -> thr c' x = None).
Proof.
  intros KS. induction tids as [|tid tids IH]; intros c I S K; [exists []; split; [constructor|]; cbv zeta; split; [intros x []|auto]|].
  destruct (thr c tid) as [p|] eqn:E.
  - pose proof I as (_ & I'). specialize (I' tid). rewrite E in I'. destruct I' as (h & s & L & _). destruct (finish_call after cap tid KS p h s L c I E (or_introl S)) as (n & D1 & D2 & D3 & D4 & D5); [auto|].
    set (c1 := lexec after (at_capacity cap (repeat (Tick tid) n)) c) in *. destruct (IH c1) as (ts & T & A & B).
    + apply linv_ticks; auto. apply ticks_repeat.
    + auto.
    + intros t. destruct (D3 t) as [X|(_ & X)]; [rewrite X; apply K|exact X].
    + exists (repeat (Tick tid) n ++ ts). split; [apply Forall_app; split; [apply ticks_repeat|exact T]|]. cbv zeta in *. rewrite at_capacity_app, lexec_app. fold c1. split.
      * intros x [<-|X]; [apply B, D1|apply A, X].
      * intros x X. apply B. destruct (Z.eq_dec x tid) as [->|N]; [exact D1|rewrite D2; auto].
  - destruct (IH c I S K) as (ts & T & A & B). exists ts. split; [exact T|]. cbv zeta in *. split; [intros x [<-|X]; auto|exact B].
Qed.
Lemma busy_finite after l : exists tids, forall x, thr (lexec after l conf0) x <> None -> In x tids.
Proof.
  induction l as [|(a & cap) l IH] using rev_ind.
  - exists []. cbn. congruence.
  - destruct IH as (tids & IH). rewrite lexec_app. set (c := lexec after l conf0) in *. cbn [lexec fold_left].
    exists ((match a with Invoke x _ => x | Tick x => x end) :: tids). intros x X. destruct (Z.eq_dec x (match a with Invoke x _ => x | Tick x => x end)) as [->|N]; [left; reflexivity|]. right. apply IH. intros Y. apply X.
    rewrite <- Y. clear X Y IH. destruct a as [y o|y]; [cbn [lstep cstep]; destruct (thr c y); [reflexivity|apply set_thr_other, N]|]. cbn [lstep].
    destruct (thr c y) as [p|] eqn:E; [|cbn [cstep]; rewrite E; reflexivity].
    destruct p; cbn [cstep]; rewrite ?E; try (apply set_thr_other, N); cbn [prog_step].
    + destruct (tget t (slk (cmem c))); [reflexivity|apply set_thr_other, N].
    + destruct (shl (cmem c)); [reflexivity|apply set_thr_other, N].
    + destruct (_ <=? cap); apply set_thr_other, N.
Qed.
(** After any failures (for lack of space, at capacities that change as they like, or in callbacks) all calls in progress can be
    completed, whatever the capacity is by then: nobody waits for a lock of a thread that has panicked. *)
Theorem C54_no_deadlock : forall after l cap, keeps_small after -> acts_sized l ->
  exists ts, ticks ts /\ all_idle (lexec after (l ++ at_capacity cap ts) conf0).
Proof.
  intros after l cap KS HO. pose proof (linv_exec after l KS conf0 HO linv0) as I. destruct (busy_finite after l) as (tids & HB). set (c := lexec after l conf0) in *.
  assert (HS : forall c t tid, linv c -> tget t (slk (cmem c)) = Some tid -> exists h s p, thr c tid = Some p /\ lp h s p /\ h <> None).
  { intros c0 t tid (_ & I0) X. specialize (I0 tid). destruct (thr c0 tid) as [p|]; [destruct I0 as (h & s & L & (A1 & _)); apply A1 in X; exists h, s, p; split; [reflexivity|]; split; [exact L|congruence]|]. destruct I0 as (A1 & _). apply A1 in X. discriminate. }
  destruct (some_free after cap c (shl (cmem c)) KS I) as (t0 & T0 & I0 & B0 & L0 & S0 & R0).
  { intros tid X. split; [right; exact X|]. destruct I as (_ & I). specialize (I tid). destruct (thr c tid) as [p|]; [destruct I as (h & s & L & (_ & A2)); apply A2 in X; exists h, s, p; split; [reflexivity|]; split; [exact L|subst s; inversion L; congruence]|]. destruct I as (_ & A2). apply A2 in X. discriminate. }
  cbv zeta in *. set (c0 := lexec after (at_capacity cap t0) c) in *.
  assert (F0 : shl (cmem c0) = None). { destruct (shl (cmem c)) as [tid|] eqn:X; [apply (R0 tid eq_refl), eq_refl|auto]. }
  assert (GO : forall c1 t, linv c1 -> shl (cmem c1) = None -> exists ts, ticks ts /\ let c' := lexec after (at_capacity cap ts) c1 in linv c' /\ shl (cmem c') = None /\ tget t (slk (cmem c')) = None /\
     (forall t', tget t' (slk (cmem c1)) = None -> tget t' (slk (cmem c')) = None) /\ (forall x, thr c' x = thr c1 x \/ thr c' x = None)).
  { intros c1 t I1 S1. destruct (some_free after cap c1 (tget t (slk (cmem c1))) KS I1) as (ts & T & I2 & B & L & S2 & R).
    { intros tid X. split; [left; exact S1|apply (HS c1 t tid I1 X)]. }
    exists ts. split; [exact T|]. cbv zeta in *. split; [exact I2|]. split; [auto|]. split; [|split; [intros t' X; destruct (L t') as [Y|Y]; congruence|exact B]].
    destruct (tget t (slk (cmem (lexec after (at_capacity cap ts) c1)))) as [x|] eqn:Y; [|reflexivity]. exfalso. destruct (L t) as [X|X]; [|congruence]. rewrite Y in X. symmetry in X. destruct (R x X) as (R1 & _).
    destruct (HS _ t x I2 Y) as (h & s & p & E & _). congruence. }
  destruct (GO c0 TEvents I0 F0) as (t1 & T1 & I1 & F1 & K1 & M1 & B1). cbv zeta in *. set (c1 := lexec after (at_capacity cap t1) c0) in *.
  destruct (GO c1 TStrData I1 F1) as (t2 & T2 & I2 & F2 & K2 & M2 & B2). cbv zeta in *. set (c2 := lexec after (at_capacity cap t2) c1) in *.
  destruct (GO c2 TStrIndex I2 F2) as (t3 & T3 & I3 & F3 & K3 & M3 & B3). cbv zeta in *. set (c3 := lexec after (at_capacity cap t3) c2) in *.
  destruct (finish_all after cap tids KS c3 I3 F3) as (t4 & T4 & A4 & B4); [intros []; auto|]. cbv zeta in *.
  exists (t0 ++ t1 ++ t2 ++ t3 ++ t4). split; [repeat (apply Forall_app; split; [assumption|]); assumption|].
  rewrite lexec_app. fold c. rewrite !at_capacity_app, !lexec_app. fold c0. fold c1. fold c2. fold c3. intros x.
  destruct (thr c3 x) as [p|] eqn:E3; [|apply B4, E3]. apply A4, HB. destruct (B3 x) as [X3|X3]; [|congruence]. destruct (B2 x) as [X2|X2]; [|congruence]. destruct (B1 x) as [X1|X1]; [|congruence]. destruct (B0 x) as [X0|X0]; congruence.
Qed.
(** Failures do not break mutual exclusion: at no moment are two threads inside the same sink, or writing to the storage. *)
Theorem C54_exclusive : forall after l, keeps_small after -> acts_sized l ->
  let c := lexec after l conf0 in
  (forall a b t s k s' k', thr c a = Some (UnlockSink t s k) -> thr c b = Some (UnlockSink t s' k') -> a = b) /\
  (forall a b bs k bs' k', thr c a = Some (WriteAll bs k) -> thr c b = Some (WriteAll bs' k') -> a = b).
Proof.
  intros after l KS HO c. pose proof (linv_exec after l KS conf0 HO linv0) as (_ & I). fold c in I. split.
  - intros a b t s k s' k' A B. pose proof (I a) as Ha. pose proof (I b) as Hb. rewrite A in Ha. rewrite B in Hb. destruct Ha as (h & x & L & (H1 & _)). destruct Hb as (h' & x' & L' & (H1' & _)). inversion L; subst. inversion L'; subst.
    pose proof (proj2 (H1 t) eq_refl). pose proof (proj2 (H1' t) eq_refl). congruence.
  - intros a b bs k bs' k' A B. pose proof (I a) as Ha. pose proof (I b) as Hb. rewrite A in Ha. rewrite B in Hb. destruct Ha as (h & x & L & (_ & H1)). destruct Hb as (h' & x' & L' & (_ & H1')). inversion L; subst. inversion L'; subst.
    pose proof (proj2 H1 eq_refl). pose proof (proj2 H1' eq_refl). congruence.
Qed.
Print Assumptions C54_no_deadlock.
Print Assumptions C54_exclusive.

(** Thread 1 is writing a page to storage for three bytes, thread 2 waits for its sink, the callback of thread 3 panics; when the second
    write fails thread 2 gets the sink. *)
Definition ex_waiting : list (action * Z) :=
  at_capacity 3 (Invoke 1 (OWriteBytes TEvents [7; 8]) :: repeat (Tick 1) 3 ++
    [Invoke 1 (OStdFlush TEvents); Invoke 2 (ODrop TEvents); Invoke 3 (OWriteAtomic TStrData 2 (fun _ => ([1; 2], true))); Tick 1; Tick 2; Tick 3; Tick 1; Tick 1; Tick 3; Tick 2]).
Example ex_C54_waiting : keeps_small untouched /\ acts_sized ex_waiting /\
  (let c := lexec untouched ex_waiting conf0 in slk (cmem c) = TM (Some 1) None None /\ shl (cmem c) = Some 1 /\ match thr c 2 with Some (LockSink TEvents _) => true | _ => false end = true /\ thr c 3 = Some Fail) /\
  (let c := lexec untouched (ex_waiting ++ at_capacity 3 [Tick 1; Tick 2]) conf0 in slk (cmem c) = TM (Some 2) None None /\ thr c 1 = Some Fail) /\
  map (thr (lexec untouched (ex_waiting ++ at_capacity 3 (repeat (Tick 1) 2 ++ repeat (Tick 2) 5 ++ [Tick 3])) conf0)) [1; 2; 3] = [None; None; None].
Proof.
  split; [intros tid m H; exact H|]. split.
  { intros tid o cap H. unfold ex_waiting, at_capacity in H. apply in_map_iff in H. destruct H as (a & E & H). injection E as -> _. cbn in H.
    repeat (destruct H as [H|H]; [first [discriminate H|injection H as _ <-; cbn; first [exact I|split; [lia|reflexivity]]]|]). destruct H. }
  split; [cbv zeta; split; [vm_compute; reflexivity|]; split; [vm_compute; reflexivity|]; split; vm_compute; reflexivity|].
  split; [cbv zeta; split; vm_compute; reflexivity|vm_compute; reflexivity].
Qed.
