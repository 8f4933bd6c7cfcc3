(** C89, several threads: an order of the sinks rules out deadlocks.  Model M_Nested.v, specification S_Nested.v. *)
From Coq Require Import ZArith List Lia Bool.
From Verif Require Import M_Base F_Base M_Sink S_Sink F_Sink F_SinkSeq M_Nested S_Nested Prop_Nested.
From Verif Require Prop_Progress.
Import ListNotations.
Open Scope Z_scope.

(** [p] takes and releases mutexes in a disciplined way: the thread holds the sinks [h], and the
    storage if [sh]; sinks are taken in the order of their ranks, the storage last; a normal return
    leaves the sinks [b] locked. *)
Inductive wo (rank : tag -> Z) (b : list tag) : list tag -> bool -> prog -> Prop :=
| wo_done r : wo rank b b false (Done r)
| wo_fail h sh : wo rank b h sh Fail
| wo_lock h t k : (forall t', In t' h -> rank t' < rank t) -> (forall s, wo rank b (t :: h) false (k s)) -> wo rank b h false (LockSink t k)
| wo_unlock h t s k : wo rank b h false k -> wo rank b (t :: h) false (UnlockSink t s k)
| wo_shared h k : wo rank b h true k -> wo rank b h false (LockShared k)
| wo_write h bs k : wo rank b h true k -> wo rank b h true (WriteAll bs k)
| wo_unshared h k : wo rank b h false k -> wo rank b h true (UnlockShared k).

Section Order.
Context (rank : tag -> Z).
Notation wo := (wo rank).
Notation above h t := (forall t', In t' h -> rank t' < rank t).

Lemma wo_pbind b c k : (forall r, wo c b false (k r)) -> forall h sh p, wo b h sh p -> wo c h sh (pbind p k).
Proof. intros Hk h sh p H. induction H; cbn [pbind]; try constructor; auto. Qed.
Lemma wo_page b h t bs k : wo b h false k -> wo b h false (write_page t bs k).
Proof. intros H. unfold write_page. destruct (_ <? _); [|exact H]. destruct (_ <=? _); repeat constructor. exact H. Qed.
Lemma wo_chunks b h t k : (forall x, wo b h false (k x)) -> forall chs x, wo b h false (write_chunks t chs x k).
Proof.
  intros H. induction chs as [|c chs IH]; intros x; cbn [write_chunks]; [apply H|].
  destruct (_ =? _); [apply wo_page, IH|]. destruct (_ <=? _); [apply wo_page, IH|]. destruct (_ =? _); [apply IH|constructor].
Qed.
Lemma wo_large b h t bs k : above h t -> (forall r, wo b h false (k r)) -> wo b h false (write_bytes_large t bs k).
Proof.
  intros Ht H. unfold write_bytes_large. constructor; [exact Ht|]. intros s. cbv zeta. destruct (_ =? 0); [constructor; auto|].
  unfold flush. apply wo_page, wo_chunks. intros x. constructor; auto.
Qed.
Lemma wo_atomic b h t n cb k : above h t -> (forall r, wo b h false (k r)) -> wo b h false (write_atomic t n cb k).
Proof.
  intros Ht H. unfold write_atomic. destruct (_ <? _).
  - destruct (cb _) as (bs & []); [constructor|]. apply wo_large; auto.
  - constructor; [exact Ht|]. intros s. cbv zeta. assert (B : forall x : bytes, wo b (t :: h) false (let '(bs, panicked) := cb (zeros n) in
      if panicked then UnlockSink t (mkSink (x ++ bs) (saddr s)) Fail else UnlockSink t (mkSink (x ++ bs) (saddr s + n)) (k (saddr s)))).
    { intros x. destruct (cb _) as (bs & []); constructor; auto. constructor. }
    destruct (_ <? _); [unfold flush; apply wo_page, B|apply B].
Qed.
Lemma wo_bytes b h t bs k : above h t -> (forall r, wo b h false (k r)) -> wo b h false (write_bytes_atomic t bs k).
Proof. intros Ht H. unfold write_bytes_atomic. destruct (_ <=? _); [apply wo_atomic|apply wo_large]; auto. Qed.
Lemma wo_op h o : above h (op_tag o) -> wo h h false (op_prog o).
Proof.
  intros H. destruct o; cbn [op_tag op_prog] in *.
  - apply wo_atomic; auto. constructor.
  - apply wo_bytes; auto. constructor.
  - apply wo_bytes; auto. constructor.
  - unfold std_flush. constructor; [exact H|]. intros s. unfold flush. apply wo_page. repeat constructor; auto.
  - unfold drop_sink. constructor; [exact H|]. intros s. unfold flush. apply wo_page. repeat constructor; auto.
Qed.
Definition list_up (low : Z) (l : list nop) : Prop := fold_right (fun c' P => upward rank low c' /\ P) True l.
Lemma wo_call c : forall h low, upward rank low c -> (forall t, In t h -> rank t <= low) -> wo h h false (call c).
Proof.
  induction c as [o|t n inner bs IH] using nop_ind'; intros h low; cbn [upward call].
  - intros U H. apply wo_op. intros t' Ht'. specialize (H t' Ht'). lia.
  - fold (list_up (if n <=? 256 * 1024 then rank t else low) inner). intros (U & F) H. cbv zeta.
    assert (G : forall low', list_up low' inner -> forall h' b k, (forall t, In t h' -> rank t <= low') -> wo b h' false k -> wo b h' false (calls inner k)).
    { clear F U H. intros low' F h' b k Hh Hk. unfold calls. induction IH as [|c l Hc _ IH]; [exact Hk|]. destruct F as (F1 & F2). cbn [fold_right].
      apply wo_pbind with (b := h'); [|eapply Hc; eauto]. intros _. apply IH, F2. }
    destruct (Z.ltb_spec MAX_PAGE_SIZE n) as [Hn|Hn]; unfold MAX_PAGE_SIZE in Hn; destruct (Z.leb_spec n (256 * 1024)); try lia.
    + fold (calls inner (write_bytes_large t bs Done)). apply (G low F); [exact H|]. apply wo_large; [|constructor]. intros t' Ht'. specialize (H t' Ht'). lia.
    + constructor; [intros t' Ht'; specialize (H t' Ht'); lia|]. intros s.
      assert (B : forall x : bytes, wo h (t :: h) false (calls inner (UnlockSink t (mkSink (x ++ bs) (saddr s + n)) (Done (saddr s))))).
      { intros x. apply (G (rank t) F); [|repeat constructor]. intros t' [<-|Ht']; [lia|]. specialize (H t' Ht'). lia. }
      destruct (_ <? _); [unfold flush; apply wo_page, B|apply B].
Qed.

(** Every thread holds exactly the mutexes that the rest of its call expects. *)
Definition holds (m : mem) (tid : Z) (h : list tag) (sh : bool) : Prop :=
  NoDup h /\ (forall t, tget t (slk m) = Some tid <-> In t h) /\ (shl m = Some tid <-> sh = true).
Definition ordered (c : nconf) : Prop := forall tid,
  match nthr c tid with
  | None => holds (nmem c) tid [] false
  | Some (_, p) => exists h sh, wo [] h sh p /\ holds (nmem c) tid h sh
  end.
Lemma ordered0 : ordered nconf0.
Proof. intros tid. cbn. split; [constructor|]. split; [intros t; cbn; rewrite tget_tconst; split; [discriminate|intros []]|cbn; split; discriminate]. Qed.

Lemma release_locks tid m t : tget t (slk (release tid m)) = release1 tid (tget t (slk m)).
Proof. destruct t; reflexivity. Qed.
Lemma release1_other tid x o : x <> tid -> (release1 tid o = Some x <-> o = Some x).
Proof. intros N. destruct o as [y|]; cbn; [|tauto]. destruct (Z.eqb_spec y tid); [subst; split; [discriminate|intros [= ->]; contradiction]|tauto]. Qed.
Lemma release1_self tid o : release1 tid o <> Some tid.
Proof. destruct o as [y|]; cbn; [|discriminate]. destruct (Z.eqb_spec y tid); [discriminate|]. intros [= ->]; contradiction. Qed.

(** The other threads keep what they hold. *)
Lemma ordered_upd c m v tid hi : ordered c ->
  (forall x, x <> tid -> (forall t, tget t (slk m) = Some x <-> tget t (slk (nmem c)) = Some x) /\ (shl m = Some x <-> shl (nmem c) = Some x)) ->
  match v with None => holds m tid [] false | Some (_, p) => exists h sh, wo [] h sh p /\ holds m tid h sh end ->
  ordered (mkNConf m (nset (nthr c) tid v) hi).
Proof.
  intros O K V x. cbn [nthr nmem]. unfold nset. destruct (Z.eqb_spec x tid) as [->|N]; [exact V|]. specialize (O x). destruct (K x N) as (K1 & K2).
  assert (G : forall h sh, holds (nmem c) x h sh -> holds m x h sh).
  { intros h sh (A & B & C). split; [exact A|]. split; [intros t; rewrite K1; apply B|rewrite K2; exact C]. }
  destruct (nthr c x) as [(o, p)|]; [destruct O as (h & sh & W & Hh); exists h, sh; auto|auto].
Qed.

Lemma step_ordered c a : ordered c -> (match a with NInvoke _ o => exists low, upward rank low o | NTick _ => True end) -> ordered (nstep c a).
Proof.
  intros O U. destruct a as [tid o|tid]; cbn [nstep].
  - pose proof (O tid) as Ot. destruct (nthr c tid); [exact O|]. destruct U as (low & U). apply ordered_upd; [exact O|tauto|].
    exists [], false. split; [apply (wo_call o [] low U); intros t []|exact Ot].
  - pose proof (O tid) as Ot. destruct (nthr c tid) as [(o, p)|] eqn:E; [|exact O]. destruct Ot as (h & sh & W & ND & HS & HH).
    destruct W as [r|h sh|h t k Hb Hk|h t s k Hk|h k Hk|h bs k Hk|h k Hk]; cbn [prog_step].
    + apply ordered_upd; [exact O|tauto|]. split; [exact ND|]. auto.
    + apply ordered_upd; [exact O| |].
      * intros x N. split; [intros t; rewrite release_locks; apply release1_other, N|apply (release1_other tid x _ N)].
      * split; [constructor|]. split; [intros t; rewrite release_locks; split; [intros Q; destruct (release1_self _ _ Q)|intros []]|split; [intros Q; destruct (release1_self _ _ Q)|discriminate]].
    + destruct (tget t (slk (nmem c))) eqn:L; [exact O|]. apply ordered_upd; [exact O| |]; cbn [slk shl].
      * intros x N. split; [|tauto]. intros t'. destruct (tag_eq_dec t' t) as [->|Ne]; [rewrite tget_tset_same, L; split; [intros [= ->]; contradiction|discriminate]|rewrite tget_tset_other by exact Ne; tauto].
      * exists (t :: h), false. split; [apply Hk|]. split; [constructor; [intros Q; specialize (Hb _ Q); lia|exact ND]|]. split; [|exact HH]. cbn [slk In].
        intros t'. destruct (tag_eq_dec t' t) as [->|Ne]; [rewrite tget_tset_same; tauto|]. rewrite tget_tset_other by exact Ne. rewrite HS. split; [tauto|intros [Q|Q]; [congruence|exact Q]].
    + apply ordered_upd; [exact O| |]; cbn [slk shl].
      * intros x N. split; [|tauto]. intros t'. destruct (tag_eq_dec t' t) as [->|Ne]; [|rewrite tget_tset_other by exact Ne; tauto].
        rewrite tget_tset_same. assert (tget t (slk (nmem c)) = Some tid) as -> by (apply HS; left; reflexivity). split; [discriminate|intros [= ->]; contradiction].
      * exists h, false. split; [exact Hk|]. inversion ND as [|? ? Hni ND']; subst. split; [exact ND'|]. split; [|exact HH]. cbn [slk].
        intros t'. destruct (tag_eq_dec t' t) as [->|Ne]; [rewrite tget_tset_same; split; [discriminate|contradiction]|]. rewrite tget_tset_other by exact Ne. rewrite HS. cbn [In]. split; [intros [Q|Q]; [congruence|exact Q]|tauto].
    + destruct (shl (nmem c)) eqn:L; [exact O|]. apply ordered_upd; [exact O| |]; cbn [slk shl].
      * intros x N. split; [tauto|]. rewrite L. split; [intros [= ->]; contradiction|discriminate].
      * exists h, true. split; [exact Hk|]. split; [exact ND|]. split; [exact HS|]. cbn [shl]. tauto.
    + apply ordered_upd; [exact O|tauto|]. exists h, true. split; [exact Hk|]. split; [exact ND|]. split; [exact HS|exact HH].
    + apply ordered_upd; [exact O| |]; cbn [slk shl].
      * intros x N. split; [tauto|]. assert (shl (nmem c) = Some tid) as -> by tauto. split; [discriminate|intros [= ->]; contradiction].
      * exists h, false. split; [exact Hk|]. split; [exact ND|]. split; [exact HS|]. cbn [shl]. split; discriminate.
Qed.
Lemma exec_ordered acts : forall c, all_upward rank acts -> ordered c -> ordered (nexec acts c).
Proof. induction acts as [|a acts IH]; intros c U O; [exact O|]. inversion U; subst. apply IH; auto. apply step_ordered; auto. Qed.

Lemma rank_max : exists M, forall t, rank t <= M.
Proof. exists (Z.max (rank TEvents) (Z.max (rank TStrData) (rank TStrIndex))). intros []; lia. Qed.
Lemma someone c tid : ordered c -> nthr c tid <> None -> exists x, can_go_on c x.
Proof.
  intros O B. destruct (shl (nmem c)) as [x|] eqn:ES.
  - exists x. specialize (O x). destruct (nthr c x) as [(o, p)|] eqn:E; [|destruct O as (_ & _ & O); destruct O as (O & _); specialize (O ES); discriminate].
    destruct O as (h & sh & W & _ & _ & O). assert (sh = true) as -> by tauto. exists o, p. split; [exact E|]. inversion W; subst; cbn; try exact I; discriminate.
  - destruct rank_max as (M & HM).
    assert (G : forall n tid o p, nthr c tid = Some (o, p) -> (forall t k, p = LockSink t k -> (Z.to_nat (M - rank t) < n)%nat) -> exists x, can_go_on c x).
    { clear tid B. induction n as [|n IH]; intros tid o p E Hn.
      - exists tid, o, p. split; [exact E|]. destruct p as [r| |t k|t s k|k|bs k|k]; cbn; try exact I; try discriminate; [specialize (Hn t k eq_refl); lia|rewrite ES; discriminate].
      - destruct p as [r| |t k|t s k|k|bs k|k]; try (exists tid, o; eexists; split; [exact E|]; cbn; rewrite ?ES; try exact I; discriminate).
        destruct (tget t (slk (nmem c))) as [y|] eqn:L; [|exists tid, o; eexists; split; [exact E|]; cbn; rewrite L; discriminate].
        specialize (Hn t k eq_refl). pose proof (O y) as Oy. destruct (nthr c y) as [(o', q)|] eqn:Ey; [|destruct Oy as (_ & Oy & _); apply Oy in L; destruct L].
        apply (IH y o' q Ey). intros t' k' ->. destruct Oy as (h & sh & W & _ & Oy & _). apply Oy in L. inversion W as [| |? ? ? Hb| | | |]; subst. specialize (Hb _ L). pose proof (HM t'). lia. }
    destruct (nthr c tid) as [(o, p)|] eqn:E; [|congruence]. apply (G (S (match p with LockSink t _ => Z.to_nat (M - rank t) | _ => 0%nat end)) tid o p E). intros t k ->. lia.
Qed.
End Order.

(** ** Every call is a bounded number of actions *)
Import Prop_Progress.
Lemma bounded_pbind k j : (forall r, bounded j (k r)) -> forall n p, bounded n p -> bounded (n + j) (pbind p k).
Proof. intros Hk n p H. induction H; cbn [pbind Nat.add]; try (constructor; auto; fail). eapply bounded_le; [apply Hk|lia]. Qed.
Lemma bounded_call c : exists N, bounded N (call c).
Proof.
  induction c as [o|t n inner bs IH] using nop_ind'; [apply bounded_op|]. cbn [call]. cbv zeta.
  assert (G : exists N, forall k j, bounded j k -> bounded (N + j) (calls inner k)).
  { induction IH as [|c l (N & Hc) _ (N' & IH)]; [exists 0%nat; auto|]. exists (N + N')%nat. intros k j Hk. cbn [calls fold_right]. rewrite <- Nat.add_assoc. apply bounded_pbind; [|exact Hc]. intros _. apply IH, Hk. }
  destruct G as (N & G). destruct (_ <? _).
  - fold (calls inner (write_bytes_large t bs Done)). destruct (bounded_large t bs Done 1) as (j & Hj); [constructor|]. eauto.
  - exists (S (6 + (N + 2))). constructor. intros s.
    assert (B : forall x : bytes, bounded (N + 2) (calls inner (UnlockSink t (mkSink (x ++ bs) (saddr s + n)) (Done (saddr s))))) by (intros x; apply G; repeat constructor).
    destruct (_ <? _); [unfold flush; apply bounded_page, B|eapply bounded_le; [apply B|lia]].
Qed.

Definition nticks (l : list naction) : Prop := Forall (fun a => exists tid, a = NTick tid) l.
Definition nmeasured (c : nconf) (f : Z -> nat) : Prop := forall tid o p, nthr c tid = Some (o, p) -> bounded (f tid) p.
Definition neffective (c : nconf) (tid : Z) : bool :=
  match nthr c tid with
  | None => false
  | Some (_, Done _) | Some (_, Fail) => true
  | Some (_, p) => match prog_step tid (nmem c) p with Some _ => true | None => false end
  end.
Lemma neffective_spec c tid : can_go_on c tid -> neffective c tid = true.
Proof. intros (o & p & E & H). unfold neffective. rewrite E. destruct p; auto; destruct (prog_step _ _ _); auto; congruence. Qed.
Lemma nineffective c tid : neffective c tid = false -> nstep c (NTick tid) = c.
Proof. unfold neffective. cbn [nstep]. destruct (nthr c tid) as [(o, p)|]; auto. destruct p; try discriminate; destruct (prog_step _ _ _) as [[]|]; auto; discriminate. Qed.
Lemma ntick_measured c f tid : nmeasured c f -> neffective c tid = true -> (0 < f tid)%nat /\ nmeasured (nstep c (NTick tid)) (dec f tid).
Proof.
  intros HM E. unfold neffective in E. destruct (nthr c tid) as [(o, p)|] eqn:Ep; [|discriminate]. pose proof (HM tid o p Ep) as HB.
  assert (Hpos : (0 < f tid)%nat) by (inversion HB; lia). split; [exact Hpos|].
  assert (G : forall m v hi, (forall o' p', v = Some (o', p') -> bounded (pred (f tid)) p') -> nmeasured (mkNConf m (nset (nthr c) tid v) hi) (dec f tid)).
  { intros m v hi Ho x o' q. cbn [nthr]. unfold nset, dec. destruct (Z.eqb_spec x tid) as [->|]; [apply Ho|apply HM]. }
  cbn [nstep]. rewrite Ep. destruct p; try (apply G; discriminate); inversion HB as [| | ? ? ? Hk|? ? ? ? Hk|? ? Hk|? ? ? Hk|? ? Hk]; subst; cbn [prog_step] in *.
  - destruct (tget t (slk (nmem c))); [discriminate|]. apply G. intros o' p' [= <- <-]. match goal with E : S _ = f tid |- _ => rewrite <- E end. apply Hk.
  - apply G. intros o' p' [= <- <-]. match goal with E : S _ = f tid |- _ => rewrite <- E end. exact Hk.
  - destruct (shl (nmem c)); [discriminate|]. apply G. intros o' p' [= <- <-]. match goal with E : S _ = f tid |- _ => rewrite <- E end. exact Hk.
  - apply G. intros o' p' [= <- <-]. match goal with E : S _ = f tid |- _ => rewrite <- E end. exact Hk.
  - apply G. intros o' p' [= <- <-]. match goal with E : S _ = f tid |- _ => rewrite <- E end. exact Hk.
Qed.
Lemma ntick_busy c tid x : nthr (nstep c (NTick tid)) x <> None -> nthr c x <> None.
Proof.
  cbn [nstep]. destruct (nthr c tid) as [(o, p)|] eqn:E; auto. intros H. destruct (Z.eq_dec x tid) as [->|N]; [congruence|].
  destruct p; cbn [nthr] in H; unfold nset in H; try (destruct (Z.eqb_spec x tid); [contradiction|exact H]);
  destruct (prog_step _ _ _) as [[]|]; auto; cbn [nthr] in H; destruct (Z.eqb_spec x tid); auto; contradiction.
Qed.
Lemma nexec_busy l : nticks l -> forall c x, nthr (nexec l c) x <> None -> nthr c x <> None.
Proof. intros T. induction T as [|a l (tid & ->) T IH]; intros c x H; auto. cbn [nexec fold_left] in H. eapply ntick_busy, IH, H. Qed.
Lemma nticks_measured l tids : NoDup tids -> nticks l -> forall c f, (forall x, nthr c x <> None -> In x tids) -> nmeasured c f ->
  exists f', nmeasured (nexec l c) f' /\ (total tids f' <= total tids f)%nat /\
    ((exists tid, neffective c tid = true /\ In (NTick tid) l) -> (total tids f' < total tids f)%nat).
Proof.
  intros ND T. induction T as [|a l (tid & ->) T IH]; intros c f HB HM.
  - exists f. split; [exact HM|]. split; [lia|]. intros (x & _ & []).
  - destruct (neffective c tid) eqn:E.
    + destruct (ntick_measured c f tid HM E) as (Hp & HM').
      assert (Hin : In tid tids) by (apply HB; unfold neffective in E; destruct (nthr c tid); congruence).
      pose proof (total_dec tids f tid ND Hin Hp). destruct (IH (nstep c (NTick tid)) (dec f tid)) as (f' & F1 & F2 & _); auto.
      { intros x Hx. apply HB. eapply ntick_busy; eauto. }
      exists f'. split; [exact F1|]. split; [lia|]. intros _. lia.
    + cbn [nexec fold_left]. rewrite (nineffective _ _ E). destruct (IH c f HB HM) as (f' & F1 & F2 & F3). exists f'. split; [exact F1|]. split; [exact F2|].
      intros (x & Ex & [Hx|Hx]); [inversion Hx; subst; congruence|]. apply F3. eauto.
Qed.
Lemma nbusy_list acts : forall c l, (forall x, nthr c x <> None -> In x l) -> exists l', forall x, nthr (nexec acts c) x <> None -> In x l'.
Proof.
  induction acts as [|a acts IH]; intros c l H; [eauto|]. cbn [nexec fold_left]. destruct a as [tid o|tid].
  - apply (IH _ (tid :: l)). intros x Hx. cbn [nstep] in Hx. destruct (nthr c tid) eqn:E; [right; auto|]. cbn [nthr] in Hx. unfold nset in Hx. destruct (Z.eqb_spec x tid); [left; auto|right; auto].
  - apply (IH _ l). intros x Hx. apply H. eapply ntick_busy; eauto.
Qed.
Lemma nmeasured_exists acts : forall c f, nmeasured c f -> exists f', nmeasured (nexec acts c) f'.
Proof.
  induction acts as [|a acts IH]; intros c f HM; [exists f; exact HM|]. cbn [nexec fold_left].
  assert (exists f1, nmeasured (nstep c a) f1) as (f1 & H1); [|eapply IH; eauto].
  destruct a as [tid o|tid].
  - cbn [nstep]. destruct (nthr c tid) eqn:E; [eauto|]. destruct (bounded_call o) as (N & HN). exists (fun x => if x =? tid then N else f x).
    intros x o' p. cbn [nthr]. unfold nset. destruct (Z.eqb_spec x tid) as [->|]; [intros [= <- <-]; exact HN|apply HM].
  - destruct (neffective c tid) eqn:E; [|rewrite (nineffective _ _ E); eauto]. destruct (ntick_measured c f tid HM E). eauto.
Qed.
Lemma idle_stays tid acts : forall c, nthr c tid = None -> (forall o, ~ In (NInvoke tid o) acts) -> nthr (nexec acts c) tid = None.
Proof.
  induction acts as [|a acts IH]; intros c H N; [exact H|]. cbn [nexec fold_left]. apply IH; [|intros o Q; apply (N o); right; exact Q].
  destruct a as [x o|x].
  - cbn [nstep]. destruct (nthr c x) eqn:E; [exact H|]. cbn [nthr]. unfold nset. destruct (Z.eqb_spec tid x) as [->|]; [destruct (N o); left; reflexivity|exact H].
  - destruct (nthr (nstep c (NTick x)) tid) eqn:E; [|reflexivity]. exfalso. apply (ntick_busy c x tid); [congruence|exact H].
Qed.
Lemma nexec_app a b c : nexec (a ++ b) c = nexec b (nexec a c).
Proof. apply fold_left_app. Qed.

(** A part of a schedule without new calls in which every thread that is busy in [c] gets at least one turn. *)
Definition nround (c : nconf) (l : list naction) : Prop := nticks l /\ forall tid, nthr c tid <> None -> In (NTick tid) l.

(** If callbacks use sinks only in the order of some ranking, no reachable state is deadlocked ... *)
Theorem C89_no_deadlock : forall rank acts, all_upward rank acts ->
  idle (nexec acts nconf0) \/ exists tid, can_go_on (nexec acts nconf0) tid.
Proof.
  intros rank acts U. pose proof (exec_ordered rank acts nconf0 U (ordered0 rank)) as O. destruct (nbusy_list acts nconf0 []) as (l & HL); [intros x Hx; destruct (Hx eq_refl)|].
  set (c := nexec acts nconf0) in *. assert (D : (exists x, nthr c x <> None) \/ idle c).
  { assert (G : (exists x, In x l /\ nthr c x <> None) \/ forall x, In x l -> nthr c x = None).
    { clear. induction l as [|y l IH]; [right; intros x []|]. destruct (nthr c y) eqn:E; [left; exists y; split; [left; auto|congruence]|].
      destruct IH as [(x & Hx & Hn)|IH]; [left; exists x; split; [right; auto|exact Hn]|right; intros x [<-|Hx]; auto]. }
    destruct G as [(x & _ & Hx)|G]; [eauto|]. right. intros x. destruct (nthr c x) eqn:E; auto. rewrite <- E. apply G, HL. congruence. }
  destruct D as [(x & Hx)|D]; [right|left; exact D]. eapply someone; eauto.
Qed.
Print Assumptions C89_no_deadlock.

(** ... and in every fair schedule all calls return. *)
Theorem C89_all_return : forall rank acts, all_upward rank acts ->
  exists n, forall rounds, (n <= length rounds)%nat -> Forall (nround (nexec acts nconf0)) rounds -> idle (nexec (acts ++ concat rounds) nconf0).
Proof.
  intros rank acts U. destruct (nbusy_list acts nconf0 []) as (l & HL); [intros x Hx; destruct (Hx eq_refl)|].
  set (tids := nodup Z.eq_dec l). assert (ND : NoDup tids) by apply NoDup_nodup. assert (HB : forall x, nthr (nexec acts nconf0) x <> None -> In x tids) by (intros x Hx; apply nodup_In, HL, Hx).
  clearbody tids. clear l HL. destruct (nmeasured_exists acts nconf0 (fun _ => 0%nat)) as (f & HM); [intros x o p; discriminate|]. set (c := nexec acts nconf0) in *.
  exists (S (total tids f)). intros rs Hlen HR. rewrite nexec_app. fold c.
  assert (G : forall rs pre f, nticks pre -> nmeasured (nexec pre c) f -> (total tids f < length rs)%nat -> Forall (nround c) rs -> idle (nexec (concat rs) (nexec pre c))).
  { clear rs Hlen HR f HM. induction rs as [|r rs IH]; intros pre f Tp HM Hl HR; [cbn in Hl; lia|]. inversion HR as [|? ? (Tr & Br) HR']; subst.
    assert (Tc : nticks (concat rs)). { clear -HR'. induction HR' as [|x l (T & _) H IH]; [constructor|]. cbn [concat]. apply Forall_app. auto. }
    cbn [concat]. rewrite nexec_app, <- (nexec_app pre r).
    assert (U' : all_upward rank (acts ++ pre)).
    { apply Forall_app. split; [exact U|]. eapply Forall_impl; [|exact Tp]. intros a (x & ->). exact Logic.I. }
    destruct (C89_no_deadlock rank _ U') as [Hi|(tid & Et)]; [rewrite nexec_app in Hi; fold c in Hi|rewrite nexec_app in Et; fold c in Et].
    - intros x. destruct (nthr (nexec (concat rs) (nexec (pre ++ r) c)) x) eqn:E; [|reflexivity]. exfalso. rewrite nexec_app in E.
      apply (nexec_busy r Tr (nexec pre c) x); [|apply Hi]. apply (nexec_busy (concat rs) Tc). congruence.
    - apply neffective_spec in Et. destruct (nticks_measured r tids ND Tr (nexec pre c) f) as (f' & F1 & F2 & F3); [|exact HM|].
      { intros x Hx. apply HB. exact (nexec_busy pre Tp c x Hx). }
      apply (IH (pre ++ r) f'); [apply Forall_app; auto|rewrite nexec_app; exact F1| |exact HR'].
      assert (In (NTick tid) r). { apply Br. apply (nexec_busy pre Tp). unfold neffective in Et. destruct (nthr (nexec pre c) tid); congruence. }
      cbn [length] in Hl. assert (total tids f' < total tids f)%nat by (apply F3; eauto). lia. }
  apply (G rs [] f); [constructor|exact HM|lia|exact HR].
Qed.
Print Assumptions C89_all_return.

(** Without such an order two threads can wait for each other for ever, although neither call uses a
    sink that its own thread has locked. *)
Theorem C89_deadlock_refuted : exists c1 c2 acts, never_reentered [] c1 /\ never_reentered [] c2 /\ nop_ok c1 /\ nop_ok c2 /\
  let c := nexec (NInvoke 1 c1 :: NInvoke 2 c2 :: acts) nconf0 in
  ~ idle c /\ forall l, nticks l -> nexec l c = c.
Proof.
  exists (Within TEvents 1 [Plain (OWriteBytes TStrData [7])] [1]), (Within TStrData 1 [Plain (OWriteBytes TEvents [8])] [2]), [NTick 1; NTick 2].
  split; [cbv; intuition discriminate|]. split; [cbv; intuition discriminate|]. split; [cbv; auto|]. split; [cbv; auto|]. cbv zeta.
  match goal with |- ~ idle ?x /\ _ => set (c := x) end. split; [intros H; specialize (H 1); discriminate H|].
  assert (S : forall tid, nstep c (NTick tid) = c).
  { intros tid. destruct (Z.eq_dec tid 1) as [->|N1]; [reflexivity|]. destruct (Z.eq_dec tid 2) as [->|N2]; [reflexivity|]. cbn [nstep].
    assert (nthr c tid = None) as ->; [|reflexivity]. apply idle_stays; [reflexivity|]. intros o [Q|[Q|[Q|[Q|[]]]]]; inversion Q; congruence. }
  intros l T. induction T as [|a l (tid & ->) T IH]; [reflexivity|]. cbn [nexec fold_left]. rewrite S. exact IH.
Qed.
Print Assumptions C89_deadlock_refuted.

(** The hypothesis: two threads, callbacks for string data that write events, and for the index one
    that writes string data. *)
Example ex_C89_upward : all_upward (fun t => match t with TEvents => 2 | TStrData => 1 | TStrIndex => 0 end)
  [NInvoke 1 (Within TStrData 1 [Plain (OWriteBytes TEvents [7])] [1]); NTick 1;
   NInvoke 2 (Within TStrIndex 1 [Within TStrData 1 [Plain (OStdFlush TEvents)] [2]] [3]); NTick 2; NTick 2].
Proof. repeat constructor; try (exists (-1); cbv; intuition discriminate). Qed.
