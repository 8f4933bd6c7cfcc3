(** C42: panicking callbacks.  Model M_Sink.v, specification S_SinkPanic.v. *)
From Coq Require Import ZArith List Lia Bool.
From Verif Require Import M_Base F_Base M_Sink S_Sink F_Sink F_SinkSeq Prop_Sink S_SinkPanic.
Import ListNotations.
Open Scope Z_scope.

(** ** Simulation by a history without panics *)
Definition calm (o : op) : list op :=
  if op_panics o then
    match o with
    | OWriteAtomic t n cb => if MAX_PAGE_SIZE <? n then [] else [OWriteAtomic t n (fun z => (fst (cb z), false))]
    | _ => [o]
    end
  else [o].

Definition shifted (L : tag -> Z) (m m' : mem) : Prop :=
  disk m = disk m' /\ slk m = slk m' /\ shl m = shl m' /\
  forall t, sbuf (tget t (sinks m)) = sbuf (tget t (sinks m')) /\ saddr (tget t (sinks m')) = saddr (tget t (sinks m)) + L t.

Inductive psim (t : tag) (d : Z) (R : res Z -> Z -> Prop) : prog -> prog -> Prop :=
| ps_done s s' r r' : sbuf s = sbuf s' -> saddr s' = saddr s + d -> R (Ok r) r' -> psim t d R (UnlockSink t s (Done r)) (UnlockSink t s' (Done r'))
| ps_panic s s' r' : sbuf s = sbuf s' -> saddr s' = saddr s + d -> R Panic r' -> psim t d R (UnlockSink t s Fail) (UnlockSink t s' (Done r'))
| ps_fail p : psim t d R p Fail
| ps_lock k k' : psim t d R k k' -> psim t d R (LockShared k) (LockShared k')
| ps_write bs k k' : psim t d R k k' -> psim t d R (WriteAll bs k) (WriteAll bs k')
| ps_unlock k k' : psim t d R k k' -> psim t d R (UnlockShared k) (UnlockShared k').

Lemma run_psim t d R p p' : psim t d R p p' -> forall L m m', shifted L m m' ->
  fst (run p' m') = Panic \/ fst (run p' m') = Diverge \/
  exists r', fst (run p' m') = Ok r' /\ R (fst (run p m)) r' /\
    shifted (fun x => if tag_eqb x t then d else L x) (snd (run p m)) (snd (run p' m')).
Proof.
  assert (U : forall L m m' s s', shifted L m m' -> sbuf s = sbuf s' -> saddr s' = saddr s + d ->
    shifted (fun x => if tag_eqb x t then d else L x) (mkMem (disk m) (tset t s (sinks m)) (tset t None (slk m)) (shl m)) (mkMem (disk m') (tset t s' (sinks m')) (tset t None (slk m')) (shl m'))).
  { intros L m m' s s' (H1 & H2 & H3 & H4) Hb Ha. split; [|split; [|split]]; cbn [disk sinks slk shl]; try congruence. intros x. destruct (tag_eqb x t) eqn:E.
    - apply tag_eqb_eq in E; subst x. rewrite !tget_tset_same. auto.
    - apply tag_eqb_neq in E. rewrite !tget_tset_other by auto. auto. }
  induction 1 as [s s' r r' Hb Ha HR|s s' r' Hb Ha HR|p|k k' H IH|bs k k' H IH|k k' H IH]; intros L m m' HS.
  - right; right. exists r'. cbn [run fst snd]. auto.
  - right; right. exists r'. cbn [run fst snd]. auto.
  - left. reflexivity.
  - cbn [run]. destruct HS as (H1 & H2 & H3 & H4). rewrite H3. destruct (shl m') as [x|]; [right; left; reflexivity|]. apply IH. split; [|split; [|split]]; cbn; auto.
  - cbn [run]. destruct HS as (H1 & H2 & H3 & H4). apply IH. split; [|split; [|split]]; cbn; auto. congruence.
  - cbn [run]. destruct HS as (H1 & H2 & H3 & H4). apply IH. split; [|split; [|split]]; cbn; auto.
Qed.

Lemma psim_page t d R bs k k' : psim t d R k k' -> psim t d R (write_page t bs k) (write_page t bs k').
Proof. intros H. unfold write_page. destruct (0 <? zlen bs); auto. destruct (zlen bs <=? MAX_PAGE_SIZE); [|constructor]. repeat constructor. exact H. Qed.
Lemma psim_flush t d R b k k' : psim t d R (k []) (k' []) -> psim t d R (flush t b k) (flush t b k').
Proof. intros H. apply psim_page, H. Qed.
Lemma psim_chunks t d R chs : forall b k k', (forall b, psim t d R (k b) (k' b)) -> psim t d R (write_chunks t chs b k) (write_chunks t chs b k').
Proof.
  induction chs as [|c chs IH]; intros b k k' H; cbn [write_chunks]; auto. destruct (zlen c =? MAX_PAGE_SIZE); [apply psim_page; auto|]. destruct (MIN_PAGE_SIZE <=? zlen c); [apply psim_page; auto|]. destruct (zlen b =? 0); auto. constructor.
Qed.

(** What an operation returns in the two histories. *)
Definition related (o : op) (l : Z) (r : res Z) (r' : Z) : Prop :=
  if op_panics o then r = Panic else exists a, r = Ok a /\ r' = match o with OWriteAtomic _ _ _ | OWriteBytes _ _ => a + l | _ => a end.

Lemma large_sim t bs l (R : res Z -> Z -> Prop) s s' (k k' : Z -> prog) : sbuf s = sbuf s' -> saddr s' = saddr s + l ->
  (forall b b', sbuf b = sbuf b' -> saddr b' = saddr b + l -> psim t l R (UnlockSink t b (k (saddr s))) (UnlockSink t b' (k' (saddr s')))) ->
  psim t l R (match write_bytes_large t bs k with LockSink _ f => f s | _ => Fail end) (match write_bytes_large t bs k' with LockSink _ f => f s' | _ => Fail end).
Proof.
  intros Hb Ha HU. cbn. rewrite <- Hb.
  match goal with |- context [zlen (zdrop ?n bs) =? 0] => set (N := n) end.
  destruct (zlen (zdrop N bs) =? 0); [apply HU; cbn; auto; lia|]. apply psim_flush. apply psim_chunks. intros b. apply HU; cbn; auto; lia.
Qed.
Lemma small_sim t n cb l lo (R : res Z -> Z -> Prop) s s' (k k' : Z -> prog) : n <= MAX_PAGE_SIZE -> sbuf s = sbuf s' -> saddr s' = saddr s + l ->
  (snd (cb (zeros n)) = false -> lo = l) -> (snd (cb (zeros n)) = true -> lo = l + n) ->
  (forall b b', sbuf b = sbuf b' -> saddr b' = saddr b + lo -> psim t lo R (UnlockSink t b (if snd (cb (zeros n)) then Fail else k (saddr s))) (UnlockSink t b' (k' (saddr s')))) ->
  psim t lo R (match write_atomic t n cb k with LockSink _ f => f s | _ => Fail end) (match write_atomic t n (fun z => (fst (cb z), false)) k' with LockSink _ f => f s' | _ => Fail end).
Proof.
  intros Hn Hb Ha H1 H2 HU. unfold write_atomic. destruct (Z.ltb_spec MAX_PAGE_SIZE n); [lia|]. cbn. rewrite <- Hb. destruct (cb (zeros n)) as [bs pan]. cbn [fst snd] in *.
  assert (B : forall b : bytes, psim t lo R (if pan then UnlockSink t (mkSink (b ++ bs) (saddr s)) Fail else UnlockSink t (mkSink (b ++ bs) (saddr s + n)) (k (saddr s))) (UnlockSink t (mkSink (b ++ bs) (saddr s' + n)) (k' (saddr s')))).
  { intros b. destruct pan; apply HU; cbn; auto; rewrite ?H1, ?H2 by reflexivity; lia. }
  destruct (MAX_PAGE_SIZE <? zlen (sbuf s) + n); [|apply B]. apply psim_flush. apply B.
Qed.

Lemma op_sim o L m m' : op_sane o -> slk m' = tconst None -> shifted L m m' ->
  match calm o with
  | [] => run (op_prog o) m = (Panic, m) /\ op_panics o = true /\ op_leaves o = []
  | o' :: l => l = [] /\ op_tag o' = op_tag o /\ op_data o' = op_leaves o /\ op_ok o' /\ (op_panics o = false -> o' = o) /\
      forall r', fst (run (op_prog o') m') = Ok r' ->
        related o (L (op_tag o)) (fst (run (op_prog o) m)) r' /\
        shifted (fun x => L x + (if tag_eqb (op_tag o) x && op_panics o then zlen (op_leaves o) else 0)) (snd (run (op_prog o) m)) (snd (run (op_prog o') m'))
  end.
Proof.
  intros Hs Hl HS. pose proof HS as (_ & HS2 & _ & HS4).
  (* a program that starts by locking *)
  assert (G : forall f f' lo R r', (forall s s', sbuf s = sbuf s' -> saddr s' = saddr s + L (op_tag o) -> psim (op_tag o) lo R (f s) (f' s')) ->
    fst (run (LockSink (op_tag o) f') m') = Ok r' ->
    R (fst (run (LockSink (op_tag o) f) m)) r' /\ shifted (fun x => if tag_eqb x (op_tag o) then lo else L x) (snd (run (LockSink (op_tag o) f) m)) (snd (run (LockSink (op_tag o) f') m'))).
  { intros f f' lo R r' HP. cbn [run]. rewrite HS2, Hl, tget_tconst. intros Hr.
    destruct (HS4 (op_tag o)) as (Eb & Ea).
    destruct (run_psim _ _ _ _ _ (HP _ _ Eb Ea) L (mkMem (disk m) (sinks m) (tset (op_tag o) (Some 0) (tconst None)) (shl m)) (mkMem (disk m') (sinks m') (tset (op_tag o) (Some 0) (tconst None)) (shl m'))) as [E|[E|(r2 & E & HR & HH)]].
    - destruct HS as (A & B & C & D). split; [|split; [|split]]; cbn; auto.
    - congruence.
    - congruence.
    - rewrite E in Hr. injection Hr as <-. auto. }
  assert (W : forall lo a b, shifted (fun x => if tag_eqb x (op_tag o) then lo else L x) a b -> lo = L (op_tag o) + (if op_panics o then zlen (op_leaves o) else 0) ->
    shifted (fun x => L x + (if tag_eqb (op_tag o) x && op_panics o then zlen (op_leaves o) else 0)) a b).
  { intros lo a b (A & B & C & D) E. split; [|split; [|split]]; auto. intros x. destruct (D x) as (D1 & D2). split; auto. rewrite D2. destruct (tag_eqb x (op_tag o)) eqn:EX.
    - apply tag_eqb_eq in EX. subst x. rewrite tag_eqb_refl. cbn [andb]. lia.
    - apply tag_eqb_neq in EX. replace (tag_eqb (op_tag o) x) with false by (symmetry; apply tag_eqb_neq; congruence). cbn [andb]. lia. }
  destruct o as [t n cb|t bs|t bs|t|t]; cbn [op_tag] in *.
  - cbn [op_sane] in Hs. destruct Hs as (Hn & Hlen). unfold calm. destruct (op_panics (OWriteAtomic t n cb)) eqn:EP; change (snd (cb (zeros n)) = true) in EP || change (snd (cb (zeros n)) = false) in EP.
    + assert (EL : op_leaves (OWriteAtomic t n cb) = if 256 * 1024 <? n then [] else fst (cb (zeros n))).
      { unfold op_leaves. cbn [op_panics op_data]. rewrite EP, Hlen. reflexivity. }
      change MAX_PAGE_SIZE with (256 * 1024). destruct (Z.ltb_spec (256 * 1024) n) as [LT|GE].
      * split; [|auto]. cbn [op_prog]. unfold write_atomic. change MAX_PAGE_SIZE with (256 * 1024). destruct (Z.ltb_spec (256 * 1024) n); [|lia]. destruct (cb (zeros n)) as [d pan]. cbn [snd] in EP. subst pan. reflexivity.
      * split; auto. split; auto. split; [symmetry; exact EL|]. split; [cbn; auto|]. split; [discriminate|]. intros r' Hr.
        assert (SP : forall k cb', write_atomic t n cb' k = LockSink t (fun s => match write_atomic t n cb' k with LockSink _ f => f s | _ => Fail end)).
        { intros k cb'. unfold write_atomic. change MAX_PAGE_SIZE with (256 * 1024). destruct (Z.ltb_spec (256 * 1024) n); [lia|reflexivity]. }
        cbn [op_prog] in *. rewrite (SP Done (fun z => (fst (cb z), false))) in *. rewrite (SP Done cb). apply G with (lo := L t + n) (R := related (OWriteAtomic t n cb) (L t)) (f := fun s => match write_atomic t n cb Done with LockSink _ f => f s | _ => Fail end) in Hr.
        { destruct Hr as (HR & HH). split; auto. apply (W (L t + n)); auto.
 rewrite EL, Hlen. reflexivity. }
        intros s s' Eb Ea. apply (small_sim t n cb (L t)); auto; [congruence|]. intros b b' E1 E2. rewrite EP. apply ps_panic; auto. unfold related. cbn [op_panics]. rewrite EP. reflexivity.
    + split; auto. split; auto. split; [unfold op_leaves; cbn [op_panics]; rewrite EP; reflexivity|]. split; [cbn; auto|]. split; auto. intros r' Hr.
      destruct (Z_le_gt_dec n MAX_PAGE_SIZE) as [LE|GT].
      * assert (SP : forall k cb', write_atomic t n cb' k = LockSink t (fun s => match write_atomic t n cb' k with LockSink _ f => f s | _ => Fail end)).
        { intros k cb'. unfold write_atomic. destruct (Z.ltb_spec MAX_PAGE_SIZE n); [lia|reflexivity]. }
        assert (EQ : forall k, write_atomic t n cb k = write_atomic t n (fun z => (if beq z (zeros n) then fst (cb (zeros n)) else fst (cb z), false)) k).
        { intros k. unfold write_atomic. destruct (MAX_PAGE_SIZE <? n); rewrite beq_refl; destruct (cb (zeros n)) as [d pan]; cbn [snd fst] in *; subst pan; reflexivity. }
        assert (EQ2 : forall k, write_atomic t n (fun z => (fst (cb z), false)) k = write_atomic t n cb k).
        { intros k. unfold write_atomic. destruct (MAX_PAGE_SIZE <? n); destruct (cb (zeros n)) as [d pan]; cbn [snd fst] in *; subst pan; reflexivity. }
        cbn [op_prog] in *. rewrite (SP Done cb) in *. apply G with (lo := L t) (R := related (OWriteAtomic t n cb) (L t)) (f := fun s => match write_atomic t n cb Done with LockSink _ f => f s | _ => Fail end) in Hr.
        { destruct Hr as (HR & HH). split; auto. apply (W (L t)); auto. lia. }
        intros s s' Eb Ea. rewrite <- (EQ2 Done) at 2. apply (small_sim t n cb (L t)); auto; [congruence|]. intros b b' E1 E2. rewrite EP. apply ps_done; auto. unfold related. cbn [op_panics]. rewrite EP. eexists; split; eauto.
      * assert (SP : write_atomic t n cb Done = write_bytes_large t (fst (cb (zeros n))) Done).
        { unfold write_atomic. destruct (Z.ltb_spec MAX_PAGE_SIZE n); [|lia]. destruct (cb (zeros n)) as [d pan]; cbn [snd fst] in *; subst pan; reflexivity. }
        cbn [op_prog] in *. rewrite SP in *. apply G with (lo := L t) (R := related (OWriteAtomic t n cb) (L t)) (f := fun s => match write_bytes_large t (fst (cb (zeros n))) Done with LockSink _ f => f s | _ => Fail end) in Hr.
        { destruct Hr as (HR & HH). split; auto. apply (W (L t)); auto. lia. }
        intros s s' Eb Ea. apply large_sim; auto. intros b b' E1 E2. apply ps_done; auto. unfold related. cbn [op_panics]. rewrite EP. eexists; split; eauto.
  - unfold calm. cbn [op_panics op_prog]. split; auto. split; auto. split; [reflexivity|]. split; [cbn; auto|]. split; auto. intros r' Hr.
    unfold write_bytes_atomic in *. destruct (Z.leb_spec (zlen bs) 128) as [LE|GT].
    + assert (SP : write_atomic t (zlen bs) (fun _ => (bs, false)) Done = LockSink t (fun s => match write_atomic t (zlen bs) (fun _ => (bs, false)) Done with LockSink _ f => f s | _ => Fail end)).
      { unfold write_atomic. destruct (Z.ltb_spec MAX_PAGE_SIZE (zlen bs)); [unfold MAX_PAGE_SIZE in *; lia|reflexivity]. }
      rewrite SP in *. apply G with (lo := L t) (R := related (OWriteBytes t bs) (L t)) (f := fun s => match write_atomic t (zlen bs) (fun _ => (bs, false)) Done with LockSink _ f => f s | _ => Fail end) in Hr.
      { destruct Hr as (HR & HH). split; auto. apply (W (L t)); auto. cbn [op_panics]. lia. }
      intros s s' Eb Ea. apply (small_sim t (zlen bs) (fun _ => (bs, false)) (L t)); auto; [unfold MAX_PAGE_SIZE; lia|discriminate|]. intros b b' E1 E2. apply ps_done; auto. unfold related. cbn [op_panics]. eexists; split; eauto.
    + apply G with (lo := L t) (R := related (OWriteBytes t bs) (L t)) (f := fun s => match write_bytes_large t bs Done with LockSink _ f => f s | _ => Fail end) in Hr.
      { destruct Hr as (HR & HH). split; auto. apply (W (L t)); auto. cbn [op_panics]. lia. }
      intros s s' Eb Ea. apply large_sim; auto. intros b b' E1 E2. apply ps_done; auto. unfold related. cbn [op_panics]. eexists; split; eauto.
  - unfold calm. cbn [op_panics op_prog]. split; auto. split; auto. split; [reflexivity|]. split; [cbn; auto|]. split; auto. intros r' Hr.
    unfold std_write, write_bytes_atomic in *. destruct (Z.leb_spec (zlen bs) 128) as [LE|GT].
    + set (K := fun _ : Z => Done (zlen bs)) in *. assert (SP : write_atomic t (zlen bs) (fun _ => (bs, false)) K = LockSink t (fun s => match write_atomic t (zlen bs) (fun _ => (bs, false)) K with LockSink _ f => f s | _ => Fail end)).
      { unfold write_atomic. destruct (Z.ltb_spec MAX_PAGE_SIZE (zlen bs)); [unfold MAX_PAGE_SIZE in *; lia|reflexivity]. }
      rewrite SP in *. apply G with (lo := L t) (R := related (OStdWrite t bs) (L t)) (f := fun s => match write_atomic t (zlen bs) (fun _ => (bs, false)) K with LockSink _ f => f s | _ => Fail end) in Hr.
      { destruct Hr as (HR & HH). split; auto. apply (W (L t)); auto. cbn [op_panics]. lia. }
      intros s s' Eb Ea. apply (small_sim t (zlen bs) (fun _ => (bs, false)) (L t)); auto; [unfold MAX_PAGE_SIZE; lia|discriminate|]. intros b b' E1 E2. apply ps_done; auto. unfold related. cbn [op_panics]. eexists; split; eauto.
    + set (K := fun _ : Z => Done (zlen bs)) in *. apply G with (lo := L t) (R := related (OStdWrite t bs) (L t)) (f := fun s => match write_bytes_large t bs K with LockSink _ f => f s | _ => Fail end) in Hr.
      { destruct Hr as (HR & HH). split; auto. apply (W (L t)); auto. cbn [op_panics]. lia. }
      intros s s' Eb Ea. apply large_sim; auto. intros b b' E1 E2. apply ps_done; auto. unfold related. cbn [op_panics]. eexists; split; eauto.
  - unfold calm. cbn [op_panics op_prog]. split; auto. split; auto. split; [reflexivity|]. split; [cbn; auto|]. split; auto. intros r' Hr. unfold std_flush in *.
    apply G with (lo := L t) (R := related (OStdFlush t) (L t)) (f := fun s => flush t (sbuf s) (fun buffer => LockShared (UnlockShared (UnlockSink t (mkSink buffer (saddr s)) (Done 0))))) in Hr.
    { destruct Hr as (HR & HH). split; auto. apply (W (L t)); auto. cbn [op_panics]. lia. }
    intros s s' Eb Ea. rewrite Eb. apply psim_flush. apply ps_lock, ps_unlock, ps_done; auto. unfold related. cbn [op_panics]. eexists; split; eauto.
  - unfold calm. cbn [op_panics op_prog]. split; auto. split; auto. split; [reflexivity|]. split; [cbn; auto|]. split; auto. intros r' Hr. unfold drop_sink in *.
    apply G with (lo := L t) (R := related (ODrop t) (L t)) (f := fun s => flush t (sbuf s) (fun buffer => UnlockSink t (mkSink buffer (saddr s)) (Done 0))) in Hr.
    { destruct Hr as (HR & HH). split; auto. apply (W (L t)); auto. cbn [op_panics]. lia. }
    intros s s' Eb Ea. rewrite Eb. apply psim_flush. apply ps_done; auto. unfold related. cbn [op_panics]. eexists; split; eauto.
Qed.

Lemma remains_app t a b : remains t (a ++ b) = remains t a ++ remains t b.
Proof. induction a as [|o a IH]; cbn [app remains]; auto. rewrite IH, app_assoc. reflexivity. Qed.
Lemma lost_app t a b : lost t (a ++ b) = lost t a + lost t b.
Proof. induction a as [|o a IH]; cbn [app lost]; auto. rewrite IH. lia. Qed.

Definition outcome (before : list op) (o : op) : res Z :=
  if op_panics o then Panic else Ok (op_result o (zlen (remains (op_tag o) before) - lost (op_tag o) before)).
Fixpoint outcomes (before ops : list op) : list (res Z) :=
  match ops with [] => [] | o :: ops' => outcome before o :: outcomes (before ++ [o]) ops' end.

Definition calm_inv (before : list op) (m m' : mem) : Prop :=
  exists cs, Forall op_ok cs /\ seq_inv cs m' /\ (forall t, written t cs = remains t before) /\ shifted (fun t => lost t before) m m'.

Lemma calm_step before o m m' : op_sane o -> calm_inv before m m' ->
  exists m2', run_ops (calm o) m' = (match calm o with [] => [] | o' :: _ => [fst (run (op_prog o') m')] end, m2') /\
    fst (run (op_prog o) m) = outcome before o /\ calm_inv (before ++ [o]) (snd (run (op_prog o) m)) m2'.
Proof.
  intros Hs (cs & Hcs & Hi & Hw & HS). pose proof Hi as (pages & _ & _ & Hl & _).
  pose proof (op_sim o _ m m' Hs Hl HS) as P. destruct (calm o) as [|o' l] eqn:EC.
  - destruct P as (Hr & Hp & Hlv). exists m'. split; [reflexivity|]. rewrite Hr. cbn [fst snd]. split; [unfold outcome; rewrite Hp; reflexivity|].
    exists cs. split; auto. split; auto. split.
    + intros t. rewrite remains_app. cbn [remains]. rewrite Hlv, Hw. destruct (tag_eqb (op_tag o) t); cbn [app]; rewrite app_nil_r; reflexivity.
    + destruct HS as (A & B & C & D). split; [|split; [|split]]; auto. intros t. destruct (D t) as (D1 & D2). split; auto. rewrite D2, lost_app. cbn [lost]. rewrite Hlv. destruct (tag_eqb (op_tag o) t && op_panics o); unfold zlen; cbn [List.length]; lia.
  - destruct P as (-> & Ht & Hd & Hok & Hsame & HP).
    destruct (run_op_seq cs o' m' Hok Hi) as (m2 & news & Hr & Hi2 & _).
    exists m2. cbn [run_ops]. rewrite Hr. split; [reflexivity|]. rewrite Hr in HP. cbn [fst snd] in HP. specialize (HP _ eq_refl). destruct HP as (HR & HH).
    split.
    + unfold related in HR. unfold outcome. destruct (op_panics o) eqn:EP; auto. destruct HR as (a & -> & E). rewrite (Hsame eq_refl) in *. rewrite Hw in E. f_equal. destruct o; cbn [op_result op_tag] in *; lia.
    + exists (cs ++ [o']). split; [apply Forall_app; auto|]. split; auto. split.
      * intros t. rewrite written_app, remains_app, Hw. cbn [written remains]. rewrite Ht, Hd. reflexivity.
      * destruct HH as (A & B & C & D). split; [|split; [|split]]; auto. intros t. destruct (D t) as (D1 & D2). split; auto. rewrite D2, lost_app. cbn [lost]. lia.
Qed.
Lemma calm_run ops : forall before m m', Forall op_sane ops -> calm_inv before m m' ->
  exists m2', fst (run_ops ops m) = outcomes before ops /\ calm_inv (before ++ ops) (snd (run_ops ops m)) m2'.
Proof.
  induction ops as [|o ops IH]; intros before m m' F HI; cbn [run_ops outcomes]; [exists m'; rewrite app_nil_r; auto|].
  inversion F; subst. destruct (calm_step before o m m' ltac:(auto) HI) as (m1' & _ & Ho & HI1). destruct (run (op_prog o) m) as [r m1]. cbn [fst snd] in *.
  destruct (IH (before ++ [o]) m1 m1' ltac:(auto) HI1) as (m2' & Hos & HI2). destruct (run_ops ops m1) as [rs m2]. cbn [fst snd] in *. exists m2'. rewrite <- app_assoc in HI2. split; [congruence|exact HI2].
Qed.
Lemma calm_inv0 : calm_inv [] mem0 mem0.
Proof. exists []. split; [constructor|]. split; [apply seq_inv0|]. split; [reflexivity|]. split; [|split; [|split]]; auto. intros []; cbn; auto. Qed.
Lemma run_ops_app a b m : run_ops (a ++ b) m = let '(r1, m1) := run_ops a m in let '(r2, m2) := run_ops b m1 in (r1 ++ r2, m2).
Proof.
  revert m. induction a as [|o a IH]; intros m; cbn [app run_ops]; [destruct (run_ops b m); auto|].
  destruct (run (op_prog o) m) as [r m0]. rewrite IH. destruct (run_ops a m0) as [rs m1], (run_ops b m1). auto.
Qed.
Lemma drop_sane drops : Forall is_drop drops -> Forall op_sane drops.
Proof. intros F. eapply Forall_impl; [|exact F]. intros o (t & ->). exact I. Qed.
Lemma remains_drops t drops : Forall is_drop drops -> remains t drops = [].
Proof. induction 1 as [|o l (t' & ->) _ IH]; cbn [remains]; auto. rewrite IH. destruct (tag_eqb _ _); reflexivity. Qed.
Lemma outcomes_length b a : length (outcomes b a) = length a.
Proof. revert b; induction a; cbn; intros; auto. Qed.
Lemma outcomes_app b a c : outcomes b (a ++ c) = outcomes b a ++ outcomes (b ++ a) c.
Proof. revert b; induction a as [|o a IH]; intros b; cbn [app outcomes]; [rewrite app_nil_r; auto|]. rewrite IH, <- app_assoc. auto. Qed.
Lemma drops_run drops : forall before m m', Forall is_drop drops -> calm_inv before m m' ->
  forall t, In (ODrop t) drops \/ sbuf (tget t (sinks m)) = [] -> sbuf (tget t (sinks (snd (run_ops drops m)))) = [].
Proof.
  induction drops as [|o drops IH]; intros before m m' F HI t Ht; [destruct Ht as [[]|Ht]; auto|]. inversion F as [|? ? (t0 & ->) F']; subst.
  destruct (calm_step before (ODrop t0) m m' I HI) as (m1' & Hrun & _ & HI1). cbn [run_ops].
  assert (K : forall m1, snd (run (op_prog (ODrop t0)) m) = m1 -> sbuf (tget t (sinks m1)) = [] \/ In (ODrop t) drops).
  { intros m1 <-. destruct HI as (cs & Hcs & Hi & Hw & HS). destruct (run_op_seq cs (ODrop t0) m' I Hi) as (m2 & news & Hr & _ & _ & Hf & Hss).
    cbn [calm op_panics run_ops] in Hrun. unfold calm in Hrun. cbn [op_panics] in Hrun. cbn [run_ops] in Hrun. rewrite Hr in Hrun. injection Hrun as E. subst m1'.
    destruct HI1 as (cs1 & _ & _ & _ & (_ & _ & _ & D)). destruct (D t) as (-> & _). destruct (tag_eq_dec t t0) as [->|Hne]; [left; exact Hf|].
    destruct Ht as [[E|Hin]|Hb]; [congruence|right; auto|left]. rewrite Hss by auto. destruct HS as (_ & _ & _ & D2). destruct (D2 t) as (<- & _). exact Hb. }
  destruct (run (op_prog (ODrop t0)) m) as [r m1]. cbn [snd] in *. specialize (K m1 eq_refl). pose proof (IH _ _ _ F' HI1 t ltac:(tauto)) as X. destruct (run_ops drops m1) as [rs m2]. exact X.
Qed.

(** Whatever callbacks panic, the sink stays usable: only the calls whose own callback panics panic,
    and every other call returns the number of bytes in the stream minus those that failed writes left
    behind ... *)
Theorem C42_results : forall ops1 o ops2, Forall op_sane (ops1 ++ o :: ops2) ->
  nth_error (fst (run_ops (ops1 ++ o :: ops2) mem0)) (length ops1) =
  Some (if op_panics o then Panic else Ok (op_result o (zlen (remains (op_tag o) ops1) - lost (op_tag o) ops1))).
Proof.
  intros ops1 o ops2 F. destruct (calm_run _ [] mem0 mem0 F calm_inv0) as (m2 & -> & _). rewrite outcomes_app, nth_error_app2 by (rewrite outcomes_length; auto).
  rewrite outcomes_length, Nat.sub_diag. reflexivity.
Qed.
(** ... nothing is lost or reordered in the streams: they contain the data of all calls, including what
    failed writes of at most a page left behind ... *)
Theorem C42_streams : forall ops drops, Forall op_sane ops -> Forall is_drop drops -> (forall t, In (ODrop t) drops) ->
  split_streams (disk (snd (run_ops (ops ++ drops) mem0))) = Ok (streams_of (fun t => remains t ops)).
Proof.
  intros ops drops F Hd Hin. rewrite run_ops_app. destruct (calm_run ops [] mem0 mem0 F calm_inv0) as (m1' & _ & HI). destruct (run_ops ops mem0) as [rs m1]. cbn [snd app] in *.
  destruct (calm_run drops ops m1 m1' (drop_sane _ Hd) HI) as (m2' & _ & HI2). pose proof (drops_run drops ops m1 m1' Hd HI) as HB. destruct (run_ops drops m1) as [rs2 m2]. cbn [snd] in *.
  destruct HI2 as (cs & _ & Hi & Hw & (E & _ & _ & D)). rewrite E, (seq_inv_closed cs m2' Hi).
  - f_equal. unfold streams_of. rewrite !Hw, !remains_app, !(remains_drops _ drops), !app_nil_r by auto. reflexivity.
  - intros t. destruct (D t) as (<- & _). apply HB. left. apply Hin.
Qed.
(** ... but a later write is found not at the address it returned but [lost] bytes further on: addresses
    are right exactly if failed writes left nothing in the stream. *)
Theorem C42_displaced : forall ops1 o ops2 drops a, Forall op_sane (ops1 ++ o :: ops2) -> Forall is_drop drops -> (forall t, In (ODrop t) drops) ->
  (exists t n cb, o = OWriteAtomic t n cb) \/ (exists t bs, o = OWriteBytes t bs) ->
  nth_error (fst (run_ops (ops1 ++ o :: ops2) mem0)) (length ops1) = Some (Ok a) -> op_data o <> [] ->
  exists s stream, split_streams (disk (snd (run_ops ((ops1 ++ o :: ops2) ++ drops) mem0))) = Ok s /\ tget (op_tag o) s = Some stream /\
    0 <= lost (op_tag o) ops1 /\ stream = remains (op_tag o) (ops1 ++ o :: ops2) /\ zlen (remains (op_tag o) ops1) = a + lost (op_tag o) ops1 /\
    zslice (a + lost (op_tag o) ops1) (a + lost (op_tag o) ops1 + zlen (op_data o)) stream = op_data o.
Proof.
  intros ops1 o ops2 drops a F Hd Hin Hw Ha Hne. rewrite C42_streams by auto. rewrite C42_results in Ha by auto. destruct (op_panics o) eqn:EP; [discriminate|]. injection Ha as Ea.
  assert (Er : a = zlen (remains (op_tag o) ops1) - lost (op_tag o) ops1) by (destruct Hw as [(t & n & cb & ->)|(t & bs & ->)]; auto). clear Ea.
  assert (El : op_leaves o = op_data o) by (unfold op_leaves; rewrite EP; reflexivity).
  assert (Ew : remains (op_tag o) (ops1 ++ o :: ops2) = remains (op_tag o) ops1 ++ op_data o ++ remains (op_tag o) ops2) by (rewrite remains_app; cbn [remains]; rewrite tag_eqb_refl, El; auto).
  eexists. exists (remains (op_tag o) (ops1 ++ o :: ops2)). split; [reflexivity|]. split.
  - assert (G : forall f t, tget t (streams_of f) = present (f t)) by (intros f []; reflexivity). rewrite G. unfold present. rewrite Ew.
    destruct (remains (op_tag o) ops1); [destruct (op_data o); [congruence|reflexivity]|reflexivity].
  - split. { generalize (op_tag o). intros t. clear. induction ops1 as [|x l IH]; cbn [lost]; [lia|]. pose proof (zlen_nonneg (op_leaves x)). destruct (tag_eqb (op_tag x) t && op_panics x); lia. }
    split; [reflexivity|]. split; [lia|]. rewrite Ew. replace (a + lost (op_tag o) ops1) with (zlen (remains (op_tag o) ops1)) by lia. apply zslice_mid.
Qed.
(** The storage is at any time a sequence of well-formed pages. *)
Theorem C42_pages : forall ops, Forall op_sane ops ->
  exists pages, disk (snd (run_ops ops mem0)) = enc_pages pages /\ Forall page_ok pages /\ forall t, prefix (stream t pages) (remains t ops).
Proof.
  intros ops F. destruct (calm_run ops [] mem0 mem0 F calm_inv0) as (m' & _ & (cs & _ & (pages & Hd & Hp & _ & _ & Hs) & Hw & (E & _))). cbn [app] in *.
  exists pages. split; [congruence|]. split; auto. intros t. destruct (Hs t) as (Hs' & _). rewrite <- Hw, <- Hs'. eexists; reflexivity.
Qed.
Example ex_C42 : let ops := [OWriteBytes TEvents [9]; OWriteAtomic TEvents 4 (fun _ => ([1; 2; 0; 0], true)); OWriteAtomic TEvents 300000 (fun z => (z, true)); OWriteBytes TEvents [7; 8]] in
  Forall op_sane ops /\ fst (run_ops ops mem0) = [Ok 0; Panic; Panic; Ok 1] /\ lost TEvents ops = 4 /\
  split_streams (disk (snd (run_ops (ops ++ [ODrop TEvents; ODrop TStrData; ODrop TStrIndex]) mem0))) = Ok (TM (Some [9; 1; 2; 0; 0; 7; 8]) None None).
Proof. split; [|vm_compute; auto]. repeat (constructor; [vm_compute; auto; split; congruence|]). constructor. Qed.
Print Assumptions C42_displaced.
