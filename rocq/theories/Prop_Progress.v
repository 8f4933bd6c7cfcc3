(** C04, progress: under every fair schedule all calls return. *)
From Coq Require Import ZArith List Lia Bool.
From Verif Require Import M_Base F_Base M_Sink S_Sink M_Conc S_Conc F_Sink F_SinkSeq F_Conc F_Conc2 Prop_Run.
Import ListNotations.
Open Scope Z_scope.

(** A part of a schedule without new calls in which every thread that was busy in [c] gets at least one turn. *)
Definition round (c : conf) (l : list action) : Prop := ticks l /\ forall tid, thr c tid <> None -> In (Tick tid) l.

(** At most [n] actions are left, whatever the memory contains. *)
Inductive bounded : nat -> prog -> Prop :=
| bd_done n r : bounded (S n) (Done r)
| bd_fail n : bounded (S n) Fail
| bd_lock n t k : (forall s, bounded n (k s)) -> bounded (S n) (LockSink t k)
| bd_unlock n t s k : bounded n k -> bounded (S n) (UnlockSink t s k)
| bd_shared n k : bounded n k -> bounded (S n) (LockShared k)
| bd_write n bs k : bounded n k -> bounded (S n) (WriteAll bs k)
| bd_unshared n k : bounded n k -> bounded (S n) (UnlockShared k).
Lemma bounded_le n p : bounded n p -> forall n', (n <= n')%nat -> bounded n' p.
Proof.
  induction 1; intros n' Hle; (destruct n' as [|n']; [lia|]); constructor; auto; try (intros; apply H0; lia); try (apply IHbounded; lia).
Qed.
Lemma bounded_page t bs k n : bounded n k -> bounded (6 + n) (write_page t bs k).
Proof.
  intros H. unfold write_page. destruct (_ <? _); [|eapply bounded_le; eauto; lia]. destruct (_ <=? _); [|constructor].
  apply (bounded_le (5 + n)); [|lia]. cbn. repeat constructor. exact H.
Qed.
Lemma bounded_chunks t k n : (forall b, bounded n (k b)) -> forall chs b, bounded (6 * length chs + n + 1) (write_chunks t chs b k).
Proof.
  intros H. induction chs as [|c chs IH]; intros b; cbn [write_chunks length]; [eapply bounded_le; [apply H|lia]|].
  assert (HP : bounded (6 * S (length chs) + n + 1) (write_page t c (write_chunks t chs b k))).
  { eapply bounded_le; [apply bounded_page, IH|lia]. }
  destruct (_ =? _); [exact HP|]. destruct (_ <=? _); [exact HP|]. destruct (_ =? _); [eapply bounded_le; [apply IH|lia]|].
  apply (bounded_le 1); [constructor|lia].
Qed.
Lemma chunks_length {A} n : forall fuel (l : list A), (length (chunks_fuel fuel n l) <= fuel)%nat.
Proof. induction fuel as [|f IH]; intros l; cbn [chunks_fuel length]; [lia|]. destruct l; cbn [length]; [lia|]. specialize (IH (zdrop n (a :: l))). lia. Qed.
Lemma bounded_large t bs k n : (forall r, bounded n (k r)) -> exists N, bounded N (write_bytes_large t bs k).
Proof.
  intros H. exists (S (6 + (6 * length bs + (S n) + 1))). unfold write_bytes_large. constructor. intros s. cbv zeta.
  set (m := if _ <? _ then _ else _).
  assert (U : forall b a, bounded (S n) (UnlockSink t (mkSink b a) (k (saddr s)))) by (intros; constructor; auto).
  destruct (_ =? _); [eapply bounded_le; [apply U|lia]|]. unfold flush. apply bounded_page.
  eapply bounded_le; [apply bounded_chunks; intros b; apply U|]. pose proof (chunks_length MAX_PAGE_SIZE (length (zdrop m bs)) (zdrop m bs)) as Hc.
  unfold chunks. assert (length (zdrop m bs) <= length bs)%nat by (unfold zdrop; rewrite skipn_length; lia). unfold bytes in *. lia.
Qed.
Lemma bounded_atomic t num cb k n : (forall r, bounded n (k r)) -> exists N, bounded N (write_atomic t num cb k).
Proof.
  intros H. unfold write_atomic. destruct (MAX_PAGE_SIZE <? num).
  - destruct (cb (zeros num)) as [bs []]; [exists 1%nat; constructor|]. eapply bounded_large; eauto.
  - exists (S (6 + (2 + n))). constructor. intros s.
    assert (HB : forall b, bounded (2 + n) (let curr_addr := saddr s in let '(bs, panicked) := cb (zeros num) in
       if panicked then UnlockSink t (mkSink (b ++ bs) (saddr s)) Fail else UnlockSink t (mkSink (b ++ bs) (saddr s + num)) (k curr_addr))).
    { intros b. cbv zeta. destruct (cb (zeros num)) as [bs []]; constructor; [constructor|]. eapply bounded_le; [apply H|lia]. }
    cbv beta zeta in *. destruct (_ <? _); [unfold flush; apply bounded_page, HB|]. eapply bounded_le; [apply HB|lia].
Qed.
Lemma bounded_bytes t bs k n : (forall r, bounded n (k r)) -> exists N, bounded N (write_bytes_atomic t bs k).
Proof. intros H. unfold write_bytes_atomic. destruct (_ <=? _); [eapply bounded_atomic|eapply bounded_large]; eauto. Qed.
Lemma bounded_op o : exists N, bounded N (op_prog o).
Proof.
  destruct o as [t n cb|t bs|t bs|t|t]; cbn [op_prog].
  - apply (bounded_atomic t n cb Done 1). constructor.
  - apply (bounded_bytes t bs Done 1). constructor.
  - apply (bounded_bytes t bs _ 1). constructor.
  - exists (S (6 + 4)). constructor. intros s. apply bounded_page. repeat constructor.
  - exists (S (6 + 2)). constructor. intros s. apply bounded_page. repeat constructor.
Qed.

(** Whether it is any thread's turn that has an effect. *)
Definition effective (c : conf) (tid : Z) : bool :=
  match thr c tid with
  | None => false
  | Some (Done _) | Some Fail => true
  | Some p => match prog_step tid (cmem c) p with Some _ => true | None => false end
  end.
Lemma ineffective c tid : effective c tid = false -> cstep c (Tick tid) = c.
Proof. unfold effective. cbn [cstep]. destruct (thr c tid) as [p|]; auto. destruct p; try discriminate; destruct (prog_step _ _ _) as [[]|]; auto; discriminate. Qed.
Lemma some_effective c l : ticks l -> all_idle (exec l c) -> all_idle c \/ exists tid, effective c tid = true.
Proof.
  intros T. induction T as [|a l (tid & ->) T IH]; intros H; [left; exact H|]. destruct (effective c tid) eqn:E; [right; eauto|].
  cbn [exec fold_left] in H. rewrite (ineffective _ _ E) in H. apply IH, H.
Qed.

(** [f] bounds what is left of every call in progress. *)
Definition measured (c : conf) (f : Z -> nat) : Prop := forall tid p, thr c tid = Some p -> bounded (f tid) p.
Definition total (tids : list Z) (f : Z -> nat) : nat := list_sum (map f tids).
Definition dec (f : Z -> nat) (tid : Z) : Z -> nat := fun x => if x =? tid then pred (f x) else f x.
Lemma total_dec tids f tid : NoDup tids -> In tid tids -> (0 < f tid)%nat -> (total tids (dec f tid) < total tids f)%nat.
Proof.
  unfold total. induction tids as [|x tids IH]; [intros _ []|]. intros ND Hin H. inversion ND; subst. cbn [map list_sum fold_right].
  destruct (Z.eq_dec x tid) as [->|N].
  - unfold dec at 1. rewrite Z.eqb_refl. assert (E : map (dec f tid) tids = map f tids).
    { apply map_ext_in. intros a Ha. unfold dec. destruct (Z.eqb_spec a tid); [subst; contradiction|reflexivity]. }
    unfold list_sum. cbn [fold_right]. rewrite E. lia.
  - destruct Hin as [Hx|Hin]; [contradiction|]. unfold dec at 1. destruct (Z.eqb_spec x tid); [contradiction|]. specialize (IH H3 Hin H). unfold list_sum in *. cbn [fold_right]. lia.
Qed.
Lemma tick_measured c f tid : measured c f -> effective c tid = true -> (0 < f tid)%nat /\ measured (cstep c (Tick tid)) (dec f tid).
Proof.
  intros HM E. unfold effective in E. destruct (thr c tid) as [p|] eqn:Ep; [|discriminate]. pose proof (HM tid p Ep) as HB.
  assert (Hpos : (0 < f tid)%nat) by (inversion HB; lia). split; [exact Hpos|].
  assert (G : forall m o h, (forall p', o = Some p' -> bounded (pred (f tid)) p') -> measured (mkConf m (set_thr (thr c) tid o) h) (dec f tid)).
  { intros m o h Ho x q. cbn [thr]. unfold set_thr, dec. destruct (Z.eqb_spec x tid) as [->|]; auto. }
  cbn [cstep]. rewrite Ep. destruct p; try (apply G; discriminate); inversion HB as [| | ? ? ? Hk|? ? ? ? Hk|? ? Hk|? ? ? Hk|? ? Hk]; subst; cbn [prog_step] in *.
  - destruct (tget t (slk (cmem c))); [discriminate|]. apply G. intros p' [= <-]. match goal with E : S _ = f tid |- _ => rewrite <- E end. apply Hk.
  - apply G. intros p' [= <-]. match goal with E : S _ = f tid |- _ => rewrite <- E end. exact Hk.
  - destruct (shl (cmem c)); [discriminate|]. apply G. intros p' [= <-]. match goal with E : S _ = f tid |- _ => rewrite <- E end. exact Hk.
  - apply G. intros p' [= <-]. match goal with E : S _ = f tid |- _ => rewrite <- E end. exact Hk.
  - apply G. intros p' [= <-]. match goal with E : S _ = f tid |- _ => rewrite <- E end. exact Hk.
Qed.
Lemma tick_busy c tid x : thr (cstep c (Tick tid)) x <> None -> thr c x <> None.
Proof.
  cbn [cstep]. destruct (thr c tid) as [p|] eqn:E; auto. intros H. destruct (Z.eq_dec x tid) as [->|N]; [congruence|].
  destruct p; cbn [thr] in H; unfold set_thr in H; try (destruct (Z.eqb_spec x tid); [contradiction|exact H]);
  destruct (prog_step _ _ _) as [[]|]; auto; cbn [thr] in H; destruct (Z.eqb_spec x tid); auto; contradiction.
Qed.
Lemma exec_busy l : ticks l -> forall c x, thr (exec l c) x <> None -> thr c x <> None.
Proof. intros T. induction T as [|a l (tid & ->) T IH]; intros c x H; auto. cbn [exec fold_left] in H. eapply tick_busy, IH, H. Qed.

Lemma ticks_measured l tids : NoDup tids -> ticks l -> forall c f, (forall x, thr c x <> None -> In x tids) -> measured c f ->
  exists f', measured (exec l c) f' /\ (total tids f' <= total tids f)%nat /\
    ((exists tid, effective c tid = true /\ In (Tick tid) l) -> (total tids f' < total tids f)%nat).
Proof.
  intros ND T. induction T as [|a l (tid & ->) T IH]; intros c f HB HM.
  - exists f. split; [exact HM|]. split; [lia|]. intros (x & _ & []).
  - destruct (effective c tid) eqn:E.
    + destruct (tick_measured c f tid HM E) as (Hp & HM').
      assert (Hin : In tid tids) by (apply HB; unfold effective in E; destruct (thr c tid); congruence).
      pose proof (total_dec tids f tid ND Hin Hp). destruct (IH (cstep c (Tick tid)) (dec f tid)) as (f' & F1 & F2 & _); auto.
      { intros x Hx. apply HB. eapply tick_busy; eauto. }
      exists f'. split; [exact F1|]. split; [lia|]. intros _. lia.
    + cbn [exec fold_left]. rewrite (ineffective _ _ E). destruct (IH c f HB HM) as (f' & F1 & F2 & F3). exists f'. split; [exact F1|]. split; [exact F2|].
      intros (x & Ex & [Hx|Hx]); [inversion Hx; subst; congruence|]. apply F3. eauto.
Qed.

Lemma busy_list acts : exists tids, NoDup tids /\ forall x, thr (exec acts conf0) x <> None -> In x tids.
Proof.
  destruct (busy_tids acts) as (tids & H). exists (nodup Z.eq_dec tids). split; [apply NoDup_nodup|]. intros x Hx. apply nodup_In, H, Hx.
Qed.
Lemma measured_exists acts : forall c f, measured c f -> exists f', measured (exec acts c) f'.
Proof.
  induction acts as [|a acts IH]; intros c f HM; [exists f; exact HM|]. cbn [exec fold_left].
  assert (exists f1, measured (cstep c a) f1) as (f1 & H1); [|eapply IH; eauto].
  destruct a as [tid o|tid].
  - cbn [cstep]. destruct (thr c tid) eqn:E; [eauto|]. destruct (bounded_op o) as (N & HN). exists (fun x => if x =? tid then N else f x).
    intros x p. cbn [thr]. unfold set_thr. destruct (Z.eqb_spec x tid) as [->|]; [intros [= <-]; exact HN|apply HM].
  - destruct (effective c tid) eqn:E; [|rewrite (ineffective _ _ E); eauto]. destruct (tick_measured c f tid HM E). eauto.
Qed.

(** From every reachable state there is a number of rounds after which, in every schedule, all calls have returned. *)
Theorem C04_progress : forall acts, acts_ok acts ->
  exists n, forall rounds, (n <= length rounds)%nat -> Forall (round (exec acts conf0)) rounds ->
    all_idle (exec (acts ++ concat rounds) conf0).
Proof.
  intros acts Hok. destruct (busy_list acts) as (tids & ND & HB). set (c := exec acts conf0) in *.
  destruct (measured_exists acts conf0 (fun _ => O)) as (f & HM); [intros x p; discriminate|]. fold c in HM.
  exists (S (total tids f)). intros rs Hlen HR. rewrite exec_app. fold c.
  assert (G : forall rs pre f, ticks pre -> measured (exec pre c) f -> (total tids f < length rs)%nat -> Forall (round c) rs -> all_idle (exec (concat rs) (exec pre c))).
  { clear rs Hlen HR f HM. induction rs as [|r rs IH]; intros pre f Tp HM Hl HR; [cbn in Hl; lia|]. inversion HR as [|? ? (Tr & Br) HR']; subst.
    assert (Tc : ticks (concat rs)). { clear -HR'. induction HR' as [|x l (T & _) H IH]; [constructor|]. cbn [concat]. apply Forall_app. auto. }
    cbn [concat]. rewrite exec_app, <- (exec_app pre r).
    assert (Hok' : acts_ok (acts ++ pre)).
    { intros tid o Hin. apply in_app_iff in Hin. destruct Hin as [Hin|Hin]; [eapply Hok; eauto|]. unfold ticks in Tp. rewrite Forall_forall in Tp. destruct (Tp _ Hin) as (x & Hx). discriminate. }
    destruct (completion (acts ++ pre) Hok') as (l & Tl & Il). rewrite exec_app, (exec_app acts pre) in Il. fold c in Il.
    destruct (some_effective _ _ Tl Il) as [Hi|(tid & Et)].
    - intros x. destruct (thr (exec (concat rs) (exec (pre ++ r) c)) x) eqn:E; [|reflexivity]. exfalso. rewrite exec_app in E.
      apply (exec_busy r Tr (exec pre c) x); [|apply Hi]. apply (exec_busy (concat rs) Tc). congruence.
    - destruct (ticks_measured r tids ND Tr (exec pre c) f) as (f' & F1 & F2 & F3); [|exact HM|].
      { intros x Hx. apply HB. exact (exec_busy pre Tp c x Hx). }
      apply (IH (pre ++ r) f'); [apply Forall_app; auto|rewrite exec_app; exact F1| |exact HR'].
      assert (In (Tick tid) r). { apply Br. apply (exec_busy pre Tp). unfold effective in Et. destruct (thr (exec pre c) tid); congruence. }
      cbn [length] in Hl. assert (total tids f' < total tids f)%nat by (apply F3; eauto). lia. }
  apply (G rs [] f); [constructor|exact HM|lia|exact HR].
Qed.
Print Assumptions C04_progress.

(** A concrete case: two threads write to the same stream; the second waits for the first. *)
Definition two_writers : list action := [Invoke 1 (OWriteBytes TEvents [1; 2]); Tick 1; Invoke 2 (OWriteBytes TEvents [3]); Tick 2].
Example ex_C04_progress : acts_ok two_writers /\
  (forall tid, thr (exec two_writers conf0) tid <> None <-> tid = 1 \/ tid = 2) /\
  round (exec two_writers conf0) [Tick 2; Tick 1] /\
  cstep (exec two_writers conf0) (Tick 2) = exec two_writers conf0.
Proof.
  split. { intros tid o [H|[H|[H|[H|[]]]]]; inversion H; subst; exact I. }
  assert (B : forall tid, thr (exec two_writers conf0) tid <> None <-> tid = 1 \/ tid = 2).
  { intros tid. destruct (Z.eq_dec tid 1) as [->|N1]; [split; [auto|intros _ E; discriminate E]|].
    destruct (Z.eq_dec tid 2) as [->|N2]; [split; [auto|intros _ E; discriminate E]|].
    split; [|intros [|]; contradiction]. intros H. exfalso. apply H. apply idle_others; [|reflexivity].
    intros x o [E|[E|[E|[E|[]]]]]; inversion E; subst; auto. }
  split; [exact B|]. split; [|reflexivity]. split; [repeat constructor; eauto|]. intros tid H. apply B in H. destruct H as [->| ->]; cbn; auto.
Qed.
