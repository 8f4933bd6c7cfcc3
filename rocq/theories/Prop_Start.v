(** C80: starting a profiler.  Model M_Start.v, specification S_Start.v. *)
From Coq Require Import String ZArith List Lia Bool.
From Verif Require Import M_Base F_Base M_Map M_Path Prop_Path M_Programs M_Sink S_Sink F_Sink F_SinkSeq M_Conc S_Conc M_Header M_V8 M_Strings M_StrTable F_Strings M_Session M_Run M_Counters M_Metadata S_Metadata Prop_Metadata S_Run M_Output S_Output Prop_Output M_Start S_Start.
Import ListNotations.
Open Scope Z_scope.

(** * The file system *)
Lemma put_same w p n : put w p n p = Some n.
Proof. unfold put. destruct (path_eq_dec p p); congruence. Qed.
Lemma put_other w p n q : q <> p -> put w p n q = w q.
Proof. unfold put. destruct (path_eq_dec q p); congruence. Qed.
Lemma above_app q r c rest : q <> [] -> r = q ++ c :: rest -> above q r.
Proof. intros H E. split; eauto. Qed.
Lemma above_snoc q p c : above q (p ++ [c]) <-> q <> [] /\ (q = p \/ above q p).
Proof.
  split.
  - intros (N & c' & rest & E). split; auto. destruct (exists_last (l := c' :: rest)) as (r1 & x & Er); [discriminate|].
    rewrite Er, app_assoc in E. apply app_inj_tail in E. destruct E as (-> & ->). destruct r1 as [|y r1]; [left; rewrite app_nil_r; reflexivity|]. right. split; eauto.
  - intros (N & [->|(_ & c' & rest & ->)]); (split; [exact N|]); [exists c, []; reflexivity|]. exists c', (rest ++ [c]). rewrite <- app_assoc. reflexivity.
Qed.
Lemma above_not q p : above q p -> q <> p.
Proof. intros (_ & c & rest & ->) E. apply (f_equal (@List.length _)) in E. rewrite app_length in E. cbn in E. lia. Qed.
Lemma above_trans a b c : above a b -> above b c -> above a c.
Proof. intros (N & x & r & ->) (_ & y & r' & ->). split; auto. exists x, (r ++ y :: r'). rewrite <- app_assoc. reflexivity. Qed.
Lemma fs_above w : fs_ok w -> forall p, w p <> None -> forall q, above q p -> w q = Some IsDir.
Proof.
  intros F p. induction p as [|c p IH] using rev_ind; intros H q A; [destruct A as (_ & c & r & E); destruct q; discriminate|].
  apply above_snoc in A. destruct A as (N & [->|A]); [apply (F _ _ N H)|].
  assert (P : p <> []) by (intros ->; destruct A as (_ & x & r & E); destruct q; discriminate). apply IH; auto. rewrite (F _ _ P H). discriminate.
Qed.

Lemma walk_cons w done c c' rest : walk w done (c :: c' :: rest) =
  match w (done ++ [c]) with Some IsDir => walk w (done ++ [c]) (c' :: rest) | Some (IsFile _) => Blocked | None => Missing end.
Proof. reflexivity. Qed.
Lemma walk_spec w : forall rest done,
  match walk w done rest with
  | Reached => forall q, above q rest -> w (done ++ q) = Some IsDir
  | Missing => exists q, above q rest /\ w (done ++ q) = None
  | Blocked => exists q b, above q rest /\ w (done ++ q) = Some (IsFile b)
  end.
Proof.
  induction rest as [|c rest IH]; intros done; [intros q (_ & c & r & E); destruct q; discriminate|].
  destruct rest as [|c' rest].
  { cbn [walk]. intros q (N & x & r & E). destruct q as [|y q]; [congruence|]. destruct q; discriminate. }
  rewrite walk_cons. destruct (w (done ++ [c])) as [[|b]|] eqn:W.
  - specialize (IH (done ++ [c])). destruct (walk w (done ++ [c]) (c' :: rest)).
    + intros q (N & x & r & E). destruct q as [|y q]; [congruence|]. cbn in E. injection E as <- E. destruct q as [|z q]; [exact W|].
      replace (done ++ c :: z :: q) with ((done ++ [c]) ++ z :: q) by (rewrite <- app_assoc; reflexivity). apply IH. split; [discriminate|eauto].
    + destruct IH as (q & (N & x & r & E) & H). exists (c :: q). split; [split; [discriminate|exists x, r; cbn; congruence]|]. rewrite <- H, <- app_assoc. reflexivity.
    + destruct IH as (q & b & (N & x & r & E) & H). exists (c :: q), b. split; [split; [discriminate|exists x, r; cbn; congruence]|]. rewrite <- H, <- app_assoc. reflexivity.
  - exists [c], b. split; [split; [discriminate|exists c', rest; reflexivity]|exact W].
  - exists [c]. split; [split; [discriminate|exists c', rest; reflexivity]|exact W].
Qed.
Lemma walk_reached w p : (forall q, above q p -> w q = Some IsDir) -> walk w [] p = Reached.
Proof.
  intros H. pose proof (walk_spec w p []) as S. cbn [app] in S. destruct (walk w [] p); auto.
  - destruct S as (q & A & E). rewrite H in E by auto. discriminate.
  - destruct S as (q & b & A & E). rewrite H in E by auto. discriminate.
Qed.
Lemma parent_snoc p c : c <> RootDir -> parent (p ++ [c]) = Some p.
Proof. unfold parent. rewrite rev_app_distr. cbn. destruct c; try congruence; rewrite rev_involutive; reflexivity. Qed.

Definition can_dir (h : host) (w : fsys) (p : path) : Prop :=
  forall q, q = p \/ above q p -> q <> [] -> w q = Some IsDir \/ w q = None /\ cannot_make h q = false.
Lemma fs_ok_put w p n : fs_ok w -> w p = None -> (forall q, above q p -> w q = Some IsDir) -> fs_ok (put w p n).
Proof.
  intros F N A q c Hq H. destruct (path_eq_dec (q ++ [c]) p) as [E|E].
  - assert (D : w q = Some IsDir). { apply A. rewrite <- E. split; [exact Hq|exists c, []; reflexivity]. }
    rewrite put_other; auto. intros ->. congruence.
  - rewrite put_other in H by auto. pose proof (F _ _ Hq H) as D. rewrite put_other; auto. intros ->. congruence.
Qed.
Lemma create_nil h fuel w : create_dir_all h fuel w [] = (w, true).
Proof. destruct fuel; reflexivity. Qed.
Lemma above_nil q : ~ above q [].
Proof. intros (_ & c & r & E). destruct q; discriminate. Qed.
Lemma snoc_cons (d : path) c : exists x r, d ++ [c] = x :: r.
Proof. destruct d; cbn; eauto. Qed.
Lemma create_snoc h fuel w d c : c <> RootDir -> create_dir_all h (S fuel) w (d ++ [c]) =
  match mkdir h w (d ++ [c]) with
  | (w', None) => (w', true)
  | (_, Some false) => (w, is_dir w (d ++ [c]))
  | (_, Some true) =>
      match create_dir_all h fuel w d with
      | (w1, true) => match mkdir h w1 (d ++ [c]) with (w2, None) => (w2, true) | (_, Some _) => (w1, is_dir w1 (d ++ [c])) end
      | (w1, false) => (w1, false)
      end
  end.
Proof.
  intros N. pose proof (parent_snoc d c N) as P. destruct (snoc_cons d c) as (x & r & E). rewrite E in *. cbn [create_dir_all]. rewrite P. reflexivity.
Qed.
(** a special component at the end: the directory exists *)
Lemma create_root h fuel w d : fs_ok w -> w (d ++ [RootDir]) = Some IsDir -> create_dir_all h fuel w (d ++ [RootDir]) = (w, true).
Proof.
  intros F W. assert (R : walk w [] (d ++ [RootDir]) = Reached). { apply walk_reached. apply (fs_above w F). rewrite W. discriminate. }
  assert (M : mkdir h w (d ++ [RootDir]) = (w, Some false)) by (unfold mkdir; rewrite R, W; reflexivity).
  assert (I : is_dir w (d ++ [RootDir]) = true) by (unfold is_dir; rewrite R, W; reflexivity).
  destruct (snoc_cons d RootDir) as (x & r & E). rewrite E in *. destruct fuel; cbn [create_dir_all]; rewrite M, I; reflexivity.
Qed.
Lemma tidy_app w d c : tidy w (d ++ [c]) -> tidy w d.
Proof. intros T q x r E. apply (T q x (r ++ [c])). rewrite E, <- app_assoc. reflexivity. Qed.
Lemma create_dir_all_spec h : forall fuel w p w' b, fs_ok w -> tidy w p -> (List.length p <= fuel)%nat -> create_dir_all h fuel w p = (w', b) ->
  fs_ok w' /\ (b = true <-> can_dir h w p) /\ (forall q, w' q = w q \/ (q <> [] /\ (q = p \/ above q p)) /\ w q = None /\ w' q = Some IsDir) /\
  (b = true -> forall q, q = p \/ above q p -> q <> [] -> w' q = Some IsDir).
Proof.
  induction fuel as [|fuel IH]; intros w p w' b F T L E; (destruct p as [|c p _] using rev_ind).
  1, 3: rewrite create_nil in E; injection E as <- <-; split; [exact F|]; split; [split; auto; intros _ q [->|A] N; [congruence|apply above_nil in A; destruct A]|];
    split; [auto|]; intros _ q [->|A] N; [congruence|apply above_nil in A; destruct A].
  { rewrite app_length in L. cbn in L. lia. }
  set (f := p ++ [c]) in *.
  assert (EX : w f = Some IsDir -> fs_ok w /\ (true = true <-> can_dir h w f) /\ (forall q, w q = w q \/ (q <> [] /\ (q = f \/ above q f)) /\ w q = None /\ w q = Some IsDir) /\
    (true = true -> forall q, q = f \/ above q f -> q <> [] -> w q = Some IsDir)).
  { intros W. assert (D : forall q, q = f \/ above q f -> w q = Some IsDir). { intros q [->|A]; auto. apply (fs_above w F f); [rewrite W; discriminate|auto]. }
    split; auto. split; [split; auto; intros _ q Q N; left; auto|]. split; auto. }
  destruct (T p c [] eq_refl) as [(n & ->)|W].
  2:{ destruct c; try (fold f in W).
      { unfold f in E. rewrite (create_root h (S fuel) w p F W) in E. injection E as <- <-. auto. }
      all: rename f into f0; pose (f := f0); fold f in E; pose proof (fs_above w F f0 ltac:(rewrite W; discriminate)) as AB;
        assert (R : walk w [] f0 = Reached) by (apply walk_reached; auto);
        assert (M : mkdir h w f0 = (w, Some false)) by (unfold mkdir; rewrite R, W; reflexivity);
        assert (I : is_dir w f0 = true) by (unfold is_dir; rewrite R, W; reflexivity);
        unfold f, f0 in E; rewrite create_snoc in E by discriminate; fold f0 in E; rewrite M, I in E; injection E as <- <-; auto. }
  unfold f in E. rewrite create_snoc in E by discriminate. fold f in E.
  assert (FN : f <> []) by (unfold f; destruct p; discriminate).
  assert (NF : p = [] \/ above p f) by (destruct p as [|x p]; [auto|right; split; [discriminate|exists (Normal n), []; reflexivity]]).
  unfold mkdir at 1 in E. pose proof (walk_spec w f []) as S. cbn [app] in S. destruct (walk w [] f) eqn:R.
  - destruct (w f) as [[|ct]|] eqn:W.
    + unfold is_dir in E. rewrite R, W in E. injection E as <- <-. auto.
    + unfold is_dir in E. rewrite R, W in E. injection E as <- <-. split; auto. split; [split; [discriminate|]|split; [auto|discriminate]].
      intros C. destruct (C f) as [X|(X & _)]; [auto|unfold f; destruct p; discriminate| |]; congruence.
    + destruct (cannot_make h f) eqn:CM.
      * unfold is_dir in E. rewrite R, W in E. injection E as <- <-. split; auto. split; [split; [discriminate|]|split; [auto|discriminate]].
        intros C. destruct (C f) as [X|(_ & X)]; [auto|unfold f; destruct p; discriminate| |]; congruence.
      * injection E as <- <-. split; [apply fs_ok_put; auto|]. split; [split; auto|].
        { intros _ q [->|A] N; [right; auto|left; auto]. }
        split. { intros q. destruct (path_eq_dec q f) as [->|Nq]; [right; rewrite put_same; auto|left; apply put_other; auto]. }
        intros _ q [->|A] N; [apply put_same|]. rewrite put_other by (apply above_not; auto). auto.
  - destruct S as (q0 & A0 & W0).
    assert (W : w f = None). { destruct (w f) eqn:W; auto. rewrite (fs_above w F f) in W0; [discriminate|congruence|auto]. }
    destruct (create_dir_all h fuel w p) as (w1 & b1) eqn:C. apply IH in C; [|auto|apply (tidy_app w p (Normal n)); exact T|unfold f in L; rewrite app_length in L; cbn in L; lia].
    destruct C as (F1 & B1 & O1 & D1).
    assert (W1 : w1 f = None). { destruct (O1 f) as [X|((_ & X) & _)]; [congruence|]. destruct X as [X|X]; [apply (f_equal (@List.length _)) in X; unfold f in X; rewrite app_length in X; cbn in X; lia|].
      destruct NF as [->|NF]; [apply above_nil in X; destruct X|]. destruct (above_not _ _ (above_trans _ _ _ X NF) eq_refl). }
    assert (SUB : forall q, q = p \/ above q p -> q <> [] -> above q f) by (intros q Q N; apply above_snoc; auto).
    destruct b1.
    + assert (AB : forall q, above q f -> w1 q = Some IsDir). { intros q A. apply above_snoc in A. destruct A as (N & A). apply D1; auto. }
      assert (R1 : walk w1 [] f = Reached) by (apply walk_reached; auto).
      unfold mkdir, is_dir in E. rewrite R1, W1 in E. destruct (cannot_make h f) eqn:CM; injection E as <- <-.
      * split; auto. split; [split; [discriminate|]|split; [|discriminate]].
        { intros X. destruct (X f) as [Y|(_ & Y)]; [auto|unfold f; destruct p; discriminate| |]; congruence. }
        intros q. destruct (O1 q) as [X|((N & X) & Y & Z)]; auto. right; split; [split; auto|auto].
      * split; [apply fs_ok_put; auto|]. split; [split; auto|].
        { intros _ q [->|A] N; [auto|]. apply above_snoc in A. destruct A as (N' & A). apply B1; auto. }
        split.
        { intros q. destruct (path_eq_dec q f) as [->|Nq]; [right; rewrite put_same; auto|]. rewrite put_other by auto. destruct (O1 q) as [X|((N & X) & Y & Z)]; auto. right; split; [split; auto|auto]. }
        intros _ q [->|A] N; [apply put_same|]. rewrite put_other by (apply above_not; auto). auto.
    + injection E as <- <-. split; auto. split; [split; [discriminate|]|split; [|discriminate]].
      { intros X. assert (false = true); [|discriminate]. apply B1. intros q Q N. apply X; auto. }
      intros q. destruct (O1 q) as [X|((N & X) & Y & Z)]; auto. right; split; [split; auto|auto].
  - destruct S as (q0 & b0 & A0 & W0). unfold is_dir in E. rewrite R in E. injection E as <- <-. split; auto. split; [split; [discriminate|]|split; [auto|discriminate]].
    intros C. destruct (C q0) as [X|(X & _)]; [auto|apply A0| |]; congruence.
Qed.

(** * Writing *)
Lemma write_files_spec : forall pieces d t fine d', write_files d pieces = (t, fine, d') ->
  exists lost, concat pieces = t ++ lost /\ (fine = true -> lost = []) /\ (fine = false -> lost <> [] /\ may_fail d) /\ later d d'.
Proof.
  induction pieces as [|b pieces IH]; intros d t fine d' E; cbn [write_files] in E.
  - injection E as <- <- <-. exists []. split; auto. split; auto. split; [discriminate|apply later_refl].
  - destruct (M_Output.write_loop (script d) (broken d) b) as ((tk & l) & rest) eqn:W. apply write_loop_spec in W. destruct W as (W1 & W2 & W3).
    destruct l as [|x l].
    + destruct (write_files _ pieces) as ((t1 & f1) & d1) eqn:R. injection E as <- <- <-. apply IH in R. destruct R as (lost & R1 & R2 & R3 & R4).
      exists lost. cbn [concat]. rewrite app_nil_r in W1. subst b. rewrite R1, app_assoc. split; auto. split; auto.
      assert (L : later d (mkDev rest (broken d))) by (split; auto). split; [|apply (later_trans _ _ _ L R4)]. intros X. destruct (R3 X) as (N & MF). split; auto. apply (later_fails _ _ L MF).
    + injection E as <- <- <-. exists ((x :: l) ++ concat pieces). cbn [concat]. rewrite W1 at 1. rewrite <- app_assoc. split; auto. split; [discriminate|]. split; [|split; auto].
      intros _. split; [discriminate|]. apply W2. discriminate.
Qed.
Lemma run_writes : forall p m r m', M_Sink.run p m = (Ok r, m') -> disk m' = disk m ++ concat (writes p m).
Proof.
  induction p as [z| |t k IH|t s k IH|k IH|bs k IH|k IH]; intros m r m' E; cbn [M_Sink.run writes] in *.
  - injection E as <- <-. rewrite app_nil_r. reflexivity.
  - discriminate.
  - destruct (tget t (slk m)); [discriminate|]. apply IH in E. exact E.
  - apply IH in E. exact E.
  - destruct (shl m); [discriminate|]. apply IH in E. exact E.
  - apply IH in E. cbn [disk] in E. cbn [concat]. rewrite E, app_assoc. reflexivity.
  - apply IH in E. exact E.
Qed.

(** * One thread runs alone *)
Lemma set_thr_eq f tid v : set_thr f tid v tid = v.
Proof. unfold set_thr. rewrite Z.eqb_refl. reflexivity. Qed.
Lemma set_thr_ne f tid v x : x <> tid -> set_thr f tid v x = f x.
Proof. unfold set_thr. intros N. apply Z.eqb_neq in N. rewrite N. reflexivity. Qed.
Lemma exec_app a b c : exec (a ++ b) c = exec b (exec a c).
Proof. apply fold_left_app. Qed.
Lemma run_exec : forall p m r m', M_Sink.run p m = (Ok r, m') -> forall c, cmem c = m -> thr c 0 = Some p ->
  exists n, cmem (exec (repeat (Tick 0) n) c) = m' /\ thr (exec (repeat (Tick 0) n) c) 0 = None /\ hist (exec (repeat (Tick 0) n) c) = hist c ++ [HRet 0 r] /\
    forall x, x <> 0 -> thr (exec (repeat (Tick 0) n) c) x = thr c x.
Proof.
  assert (STEP : forall c c1 m' r, cstep c (Tick 0) = c1 -> hist c1 = hist c -> (forall x, x <> 0 -> thr c1 x = thr c x) ->
    (exists n, cmem (exec (repeat (Tick 0) n) c1) = m' /\ thr (exec (repeat (Tick 0) n) c1) 0 = None /\ hist (exec (repeat (Tick 0) n) c1) = hist c1 ++ [HRet 0 r] /\
       forall x, x <> 0 -> thr (exec (repeat (Tick 0) n) c1) x = thr c1 x) ->
    exists n, cmem (exec (repeat (Tick 0) n) c) = m' /\ thr (exec (repeat (Tick 0) n) c) 0 = None /\ hist (exec (repeat (Tick 0) n) c) = hist c ++ [HRet 0 r] /\
       forall x, x <> 0 -> thr (exec (repeat (Tick 0) n) c) x = thr c x).
  { intros c c1 m' r E H T (n & A & B & C & D). exists (S n). cbn [repeat]. unfold exec in *. cbn [fold_left]. rewrite E. split; auto. split; auto. split; [congruence|]. intros x N. rewrite D, T; auto. }
  induction p as [z| |t k IH|t s k IH|k IH|bs k IH|k IH]; intros m r m' E c M T; cbn [M_Sink.run] in E.
  - injection E as <- <-. exists 1%nat. cbn [repeat]. unfold exec. cbn [fold_left cstep]. rewrite T. cbn [cmem thr hist]. rewrite set_thr_eq. split; auto. split; auto. split; auto. intros x N. apply set_thr_ne; auto.
  - discriminate.
  - destruct (tget t (slk m)) eqn:LK; [discriminate|]. eapply STEP; [cbn [cstep]; rewrite T; cbn [prog_step]; rewrite M, LK; reflexivity|reflexivity| |].
    + intros x N. cbn [thr]. apply set_thr_ne; auto.
    + apply (IH _ _ _ _ E); cbn [cmem thr]; [reflexivity|apply set_thr_eq].
  - eapply STEP; [cbn [cstep]; rewrite T; cbn [prog_step]; rewrite M; reflexivity|reflexivity| |].
    + intros x N. cbn [thr]. apply set_thr_ne; auto.
    + apply (IH _ _ _ E); cbn [cmem thr]; [reflexivity|apply set_thr_eq].
  - destruct (shl m) eqn:LK; [discriminate|]. eapply STEP; [cbn [cstep]; rewrite T; cbn [prog_step]; rewrite M, LK; reflexivity|reflexivity| |].
    + intros x N. cbn [thr]. apply set_thr_ne; auto.
    + apply (IH _ _ _ E); cbn [cmem thr]; [reflexivity|apply set_thr_eq].
  - eapply STEP; [cbn [cstep]; rewrite T; cbn [prog_step]; rewrite M; reflexivity|reflexivity| |].
    + intros x N. cbn [thr]. apply set_thr_ne; auto.
    + apply (IH _ _ _ E); cbn [cmem thr]; [reflexivity|apply set_thr_eq].
  - eapply STEP; [cbn [cstep]; rewrite T; cbn [prog_step]; rewrite M; reflexivity|reflexivity| |].
    + intros x N. cbn [thr]. apply set_thr_ne; auto.
    + apply (IH _ _ _ E); cbn [cmem thr]; [reflexivity|apply set_thr_eq].
Qed.
Lemma op_exec o c r m' : all_idle c -> M_Sink.run (op_prog o) (cmem c) = (Ok r, m') ->
  exists acts, all_idle (exec acts c) /\ cmem (exec acts c) = m' /\ hist (exec acts c) = hist c ++ [HInv 0 o; HRet 0 r].
Proof.
  intros I R. set (c1 := mkConf (cmem c) (set_thr (thr c) 0 (Some (op_prog o))) (hist c ++ [HInv 0 o])).
  destruct (run_exec _ _ _ _ R c1 eq_refl (set_thr_eq _ _ _)) as (n & A & B & C & D).
  exists (Invoke 0 o :: repeat (Tick 0) n).
  assert (E : exec (Invoke 0 o :: repeat (Tick 0) n) c = exec (repeat (Tick 0) n) c1). { unfold exec. cbn [fold_left cstep]. rewrite (I 0). reflexivity. }
  rewrite E. split; [|split; auto].
  - intros x. destruct (Z.eq_dec x 0) as [->|N]; auto. rewrite D by auto. unfold c1. cbn [thr]. rewrite set_thr_ne by auto. apply I.
  - rewrite C. unfold c1. cbn [hist]. rewrite <- app_assoc. reflexivity.
Qed.
Lemma ops_exec : forall ops c rs m', all_idle c -> run_ops ops (cmem c) = (map Ok rs, m') ->
  exists acts, all_idle (exec acts c) /\ cmem (exec acts c) = m' /\ hist (exec acts c) = hist c ++ calls_hist 0 (combine ops rs).
Proof.
  induction ops as [|o ops IH]; intros c rs m' I R; cbn [run_ops] in R.
  - injection R as R <-. destruct rs; [|discriminate]. exists []. cbn. rewrite app_nil_r. auto.
  - destruct (M_Sink.run (op_prog o) (cmem c)) as (r & m1) eqn:E. destruct (run_ops ops m1) as (rs1 & m2) eqn:E2. injection R as R <-. destruct rs as [|r0 rs]; [discriminate|]. cbn [map] in R. injection R as -> ->.
    destruct (op_exec o c r0 m1 I E) as (a1 & I1 & M1 & H1). destruct (IH (exec a1 c) rs m2 I1) as (a2 & I2 & M2 & H2); [rewrite M1; exact E2|].
    exists (a1 ++ a2). rewrite exec_app. split; auto. split; auto. rewrite H2, H1, <- app_assoc. reflexivity.
Qed.

(** The sinks of a new profiler *)
Lemma init_ok : Forall op_ok init_headers.
Proof. unfold init_headers, header_ops, header_writes. cbn [map app]. repeat (constructor; [exact I|]). constructor. Qed.
Lemma fresh_run : exists rs, run_ops init_headers mem0 = (map Ok rs, fresh_sinks) /\ List.length rs = List.length init_headers.
Proof.
  exists [4; 4; 4; 4; 4; 4]. split; [|reflexivity]. unfold fresh_sinks. destruct (run_ops_seq init_headers [] mem0 init_ok seq_inv0) as (m' & news & R & _). rewrite R. cbn [snd]. f_equal.
Qed.
Lemma fresh_inv : seq_inv init_headers fresh_sinks.
Proof. unfold fresh_sinks. destruct (run_ops_seq init_headers [] mem0 init_ok seq_inv0) as (m' & news & R & H & _). rewrite R. exact H. Qed.
Lemma fresh_disk : disk fresh_sinks = [].
Proof. vm_compute. reflexivity. Qed.
Definition index_of_metadata : op := index_op METADATA_STRING_ID 8.
Lemma init_op2_8 : init_op2 8 = Ok index_of_metadata.
Proof. vm_compute. reflexivity. Qed.
Lemma alloc_result_8 md : op_result (init_alloc md) (zlen (written (op_tag (init_alloc md)) init_headers)) = 8.
Proof. unfold init_alloc, alloc_op. cbn [op_result op_tag]. vm_compute. reflexivity. Qed.
Lemma index_result_8 md : op_result index_of_metadata (zlen (written (op_tag index_of_metadata) (init_headers ++ [init_alloc md]))) = 8.
Proof.
  rewrite written_snoc. assert (T : tag_eqb (op_tag (init_alloc md)) (op_tag index_of_metadata) = false) by reflexivity. rewrite T, app_nil_r.
  unfold index_of_metadata, index_op. cbn [op_result op_tag]. vm_compute. reflexivity.
Qed.
Lemma map_fst_combine' (A B : Type) : forall (l : list A) (l' : list B), List.length l' = List.length l -> map fst (combine l l') = l.
Proof. induction l as [|x l IHl]; intros [|y l'] EL; try discriminate; auto. cbn. f_equal. apply IHl. injection EL as EL. exact EL. Qed.
Lemma first_run md : exists m1 m2, M_Sink.run (op_prog (init_alloc md)) fresh_sinks = (Ok 8, m1) /\ M_Sink.run (op_prog index_of_metadata) m1 = (Ok 8, m2) /\
  exists c0, started md 8 c0 /\ cmem c0 = m2.
Proof.
  destruct (run_op_seq init_headers (init_alloc md) fresh_sinks (alloc_op_ok _) fresh_inv) as (m1 & n1 & R1 & I1 & _).
  destruct (run_op_seq _ index_of_metadata m1 (index_op_ok _ _) I1) as (m2 & n2 & R2 & I2 & _).
  rewrite alloc_result_8 in R1. rewrite index_result_8 in R2.
  exists m1, m2. split; [exact R1|]. split; [exact R2|].
  destruct fresh_run as (rs & FR & FL). destruct (ops_exec init_headers conf0 rs fresh_sinks) as (a1 & J1 & M1 & H1); [intros x; reflexivity|exact FR|].
  destruct (op_exec (init_alloc md) (exec a1 conf0) 8 m1 J1) as (a2 & J2 & M2 & H2); [rewrite M1; exact R1|].
  destruct (op_exec index_of_metadata (exec a2 (exec a1 conf0)) 8 m2 J2) as (a3 & J3 & M3 & H3); [rewrite M2; exact R2|].
  exists (exec a3 (exec a2 (exec a1 conf0))). split; [|exact M3].
  exists (a1 ++ a2 ++ a3), 0, (combine init_headers rs), index_of_metadata, 8. rewrite !exec_app. split; auto. split; auto. split; [|split; [apply init_op2_8|]].
  - apply map_fst_combine'. exact FL.
  - rewrite H3, H2, H1. unfold calls_hist. rewrite flat_map_app. cbn [hist conf0 app flat_map fst snd]. rewrite <- !app_assoc. reflexivity.
Qed.

(** * The outcome *)
Lemma place stem : has_place stem -> exists dir c, stem = dir ++ [c] /\ c <> RootDir /\
  exists c', with_extension stem FILE_EXTENSION = dir ++ [c'] /\ c' <> RootDir /\ (forall w, tidy w stem -> tidy w dir).
Proof.
  intros (N & R). destruct (exists_last N) as (dir & c & ->). exists dir, c. split; auto.
  assert (C : c <> RootDir) by (intros ->; apply (R dir); reflexivity). split; auto.
  assert (T : forall w, tidy w (dir ++ [c]) -> tidy w dir) by (intros w; apply tidy_app).
  destruct c as [| | |n]; [congruence| | |].
  1, 2: eexists; split; [apply with_extension_None; clear; induction dir as [|x dir IH]; auto; destruct dir; destruct x; solve [reflexivity|exact IH]|]; split; [discriminate|exact T].
  exists (Normal (name_stem n ++ [DOT] ++ FILE_EXTENSION)). split; [apply with_extension_in_dir|]. split; [discriminate|exact T].
Qed.
Lemma put_put w p a b : forall q, put (put w p a) p b q = put w p b q.
Proof. intros q. unfold put. destruct (path_eq_dec q p); auto. Qed.
Lemma fill_new w p b : fill (put w p (IsFile [])) p b = put (put w p (IsFile [])) p (IsFile b).
Proof. unfold fill. rewrite put_same. replace (zdrop (zlen b) (@nil Z)) with (@nil Z); [rewrite app_nil_r; reflexivity|]. unfold zdrop. destruct (Z.to_nat (zlen b)); reflexivity. Qed.
Lemma fs_ok_file w w' f b : fs_ok w -> (forall q, above q f -> w q = Some IsDir) -> w f <> Some IsDir -> (forall q, w' q = put w f (IsFile b) q) -> fs_ok w'.
Proof.
  intros F A N E q c Q H. rewrite E in *. destruct (path_eq_dec q f) as [->|Nq].
  - exfalso. rewrite put_other in H by (intros X; apply (f_equal (@List.length _)) in X; rewrite app_length in X; cbn in X; lia). apply F in H; auto.
  - rewrite put_other by auto. destruct (path_eq_dec (q ++ [c]) f) as [<-|Nf]; [|rewrite put_other in H by auto; apply F in H; auto]. apply A. split; [exact Q|exists c, []; reflexivity].
Qed.
Lemma unicode_spec args : match unicode args with Some l => args = map Some l | None => forall l, args <> map Some l end.
Proof.
  induction args as [|[a|] args IH]; cbn [unicode]; [reflexivity| |intros [|x l]; discriminate].
  destruct (unicode args) as [l|]; [cbn; congruence|]. intros [|x l]; [discriminate|]. cbn. intros E. injection E as -> E. apply (IH l E).
Qed.
Lemma top_header_is : concat (header_writes FILE_MAGIC_TOP_LEVEL) = top_header.
Proof. vm_compute. reflexivity. Qed.

Theorem C80_outcome : forall h w stem k w' r, fs_ok w -> tidy w stem -> has_place stem -> with_counter h w stem k = (w', r) ->
  let f := with_extension stem (str "mm_profdata") in
  fs_ok w' /\ only_made w w' f /\
  match r with
  | Started m => creatable h w f /\ (forall q, above q f -> w' q = Some IsDir) /\ w' f = Some (IsFile (file_of (disk m))) /\
      exists args c0, all_unicode h args /\ 0 <= h_clock h /\ started (metadata_text (h_clock h) (h_pid h) args k) 8 c0 /\ cmem c0 = m
  | Refused => ~ creatable h w f /\ w' f = w f \/
      creatable h w f /\ may_fail (h_device h) /\ exists b, w' f = Some (IsFile b) /\ prefix b top_header /\ b <> top_header
  | Panicked => creatable h w f /\ (ordinary h -> may_fail (h_device h)) /\ exists b, w' f = Some (IsFile (top_header ++ b))
  end.
Proof.
  intros h w stem k w' r F T P E f. destruct (place stem P) as (dir & c & Es & Nc & c' & Ef & Nc' & T'). specialize (T' w T).
  unfold with_counter in E. cbv zeta in E. change FILE_EXTENSION with (str "mm_profdata") in *. fold f in E, Ef. rewrite Ef in E at 1. rewrite parent_snoc in E by auto.
  destruct (create_dir_all h (List.length dir) w dir) as (w1 & b1) eqn:C. apply create_dir_all_spec in C; auto. destruct C as (F1 & B1 & O1 & D1).
  assert (AF : forall q, above q f <-> q <> [] /\ (q = dir \/ above q dir)) by (intros q; rewrite Ef; apply above_snoc).
  assert (Wf : w1 f = w f). { destruct (O1 f) as [X|((_ & X) & _)]; auto. exfalso. destruct X as [X|X].
    - rewrite Ef in X. apply (f_equal (@List.length _)) in X. rewrite app_length in X. cbn in X. lia.
    - destruct X as (_ & y & r0 & X). rewrite Ef in X. apply (f_equal (@List.length _)) in X. rewrite !app_length in X. cbn in X. lia. }
  assert (OM : only_made w w1 f).
  { intros q Nq. destruct (O1 q) as [X|((N & X) & Y & Z)]; auto. right. split; auto. apply AF. auto. }
  assert (CD : can_dir h w dir <-> forall q, above q f -> w q = Some IsDir \/ w q = None /\ cannot_make h q = false).
  { split; [intros X q A; apply AF in A; destruct A; apply X; auto|intros X q Q N; apply X, AF; auto]. }
  destruct b1.
  2:{ injection E as <- <-. split; auto. split; auto. left. split; auto. intros (X & _). apply CD, B1 in X. discriminate. }
  assert (D : forall q, above q f -> w1 q = Some IsDir) by (intros q A; apply AF in A; destruct A; apply D1; auto).
  assert (RE : walk w1 [] f = Reached) by (apply walk_reached; auto).
  assert (CA : forall q, above q f -> w q = Some IsDir \/ w q = None /\ cannot_make h q = false) by (apply CD, B1; reflexivity).
  destruct (file_create h w1 f) as (w2 & made) eqn:FC. unfold file_create in FC. rewrite RE, Wf in FC.
  assert (CASE : made = false /\ ~ creatable h w f \/ made = true /\ creatable h w f /\ w2 = put w1 f (IsFile [])).
  { destruct (w f) as [[|b]|] eqn:W; [left|destruct (cannot_create h f) eqn:CC; [left|right]|destruct (cannot_create h f) eqn:CC; [left|right]]; injection FC as <- <-.
    - split; auto. intros (_ & X & _). congruence.
    - split; auto. intros (_ & _ & X). congruence.
    - split; auto. split; auto. split; [exact CA|]. split; [congruence|exact CC].
    - split; auto. intros (_ & _ & X). congruence.
    - split; auto. split; auto. split; [exact CA|]. split; [congruence|exact CC]. }
  clear FC. destruct CASE as [(-> & NC)|(-> & CR & ->)].
  { injection E as <- <-. split; auto. }
  assert (ND : w1 f <> Some IsDir) by (rewrite Wf; apply CR).
  assert (DONE : forall b, let w3 := put (put w1 f (IsFile [])) f (IsFile b) in fs_ok w3 /\ only_made w w3 f /\ w3 f = Some (IsFile b) /\ forall q, above q f -> w3 q = Some IsDir).
  { intros b w3. split; [apply (fs_ok_file w1 w3 f b); auto; apply put_put|]. split; [intros q Nq; unfold w3; rewrite put_put, put_other by auto; apply OM; auto|].
    split; [unfold w3; rewrite put_put; apply put_same|]. intros q A. unfold w3. rewrite put_put, put_other by (apply above_not; auto). auto. }
  destruct (write_files (h_device h) (header_writes FILE_MAGIC_TOP_LEVEL)) as ((head & fine) & d) eqn:WF. apply write_files_spec in WF. destruct WF as (lost & W1 & W2 & W3 & W4). rewrite top_header_is in W1.
  rewrite ?fill_new in E. destruct fine; cbn [negb] in E.
  2:{ rewrite ?fill_new in E; injection E as <- <-. destruct (DONE head) as (X1 & X2 & X3 & X4). split; auto. split; auto. right. split; auto. destruct (W3 eq_refl) as (NL & MF). split; auto.
      exists head. split; auto. split; [exists lost; auto|]. intros EQ. rewrite EQ in W1. rewrite <- (app_nil_r top_header) in W1 at 1. apply app_inv_head in W1. congruence. }
  rewrite (W2 eq_refl), app_nil_r in W1. subst head.
  pose proof (unicode_spec (h_args h)) as U. destruct (unicode (h_args h)) as [args|].
  2:{ destruct (write_files d (ops_writes drop_all fresh_sinks)) as ((pages & fine) & d'). rewrite ?fill_new in E; injection E as <- <-. destruct (DONE (top_header ++ pages)) as (X1 & X2 & X3 & X4). split; auto. split; auto. split; auto.
      split; [intros ((args & X) & _); destruct (U args X)|]. eexists. exact X3. }
  destruct (Z.leb_spec 0 (h_clock h)) as [CL|CL].
  2:{ destruct (write_files d (ops_writes drop_all fresh_sinks)) as ((pages & fine) & d'). rewrite ?fill_new in E; injection E as <- <-. destruct (DONE (top_header ++ pages)) as (X1 & X2 & X3 & X4). split; auto. split; auto. split; auto.
      split; [intros (_ & X); lia|]. eexists. exact X3. }
  set (md := metadata_text (h_clock h) (h_pid h) args k) in *. destruct (first_run md) as (m1 & m2 & R1 & R2 & c0 & ST & CM).
  rewrite R1 in E. cbn [bind] in E. rewrite init_op2_8 in E. rewrite R2 in E.
  pose proof (run_writes _ _ _ _ R1) as K1. pose proof (run_writes _ _ _ _ R2) as K2. rewrite fresh_disk in K1.
  destruct (write_files d (writes (op_prog (init_alloc md)) fresh_sinks ++ writes (op_prog index_of_metadata) m1)) as ((pages & fine) & d') eqn:WP.
  apply write_files_spec in WP. destruct WP as (lost' & V1 & V2 & V3 & V4). rewrite concat_app in V1.
  destruct fine; rewrite ?fill_new in E; injection E as <- <-.
  - destruct (DONE (top_header ++ pages)) as (X1 & X2 & X3 & X4). split; auto. split; auto. split; auto. split; auto. split.
    + etransitivity; [exact X3|]. unfold file_of. rewrite top_header_is, K2, K1. do 3 f_equal. cbn [app]. rewrite (V2 eq_refl), app_nil_r in V1. symmetry. exact V1.
    + exists args, c0. split; auto.
  - destruct (DONE (top_header ++ pages ++ h_unwinding h)) as (X1 & X2 & X3 & X4). split; auto. split; auto. split; auto. split; [|eexists; exact X3].
    intros _. destruct (V3 eq_refl) as (_ & MF). apply (later_fails _ _ W4 MF).
Qed.
Print Assumptions C80_outcome.
(** When every write to the file works. *)
Theorem C80_starts : forall h w stem k, fs_ok w -> tidy w stem -> has_place stem -> ~ may_fail (h_device h) ->
  ((exists w' m, with_counter h w stem k = (w', Started m)) <-> creatable h w (with_extension stem (str "mm_profdata")) /\ ordinary h) /\
  ((exists w', with_counter h w stem k = (w', Refused)) <-> ~ creatable h w (with_extension stem (str "mm_profdata"))).
Proof.
  intros h w stem k F T P MF. destruct (with_counter h w stem k) as (w' & r) eqn:E. pose proof (C80_outcome h w stem k w' r F T P E) as O. cbv zeta in O. destruct O as (_ & _ & O).
  destruct r as [m| |].
  - destruct O as (C & _ & _ & args & c0 & U & CL & _). split; [split; [intros _; split; [auto|split; [eauto|auto]]|eauto]|]. split; [intros (w'' & X); discriminate|contradiction].
  - destruct O as [(NC & _)|(_ & X & _)]; [|contradiction]. split; [split; [intros (? & ? & X); discriminate|intros (X & _); contradiction]|]. split; [auto|eauto].
  - destruct O as (C & X & _). split; [split; [intros (? & ? & Y); discriminate|intros (_ & Y); destruct (MF (X Y))]|]. split; [intros (? & Y); discriminate|contradiction].
Qed.
Print Assumptions C80_starts.
(** A relative or absolute path without a file name: it panics. *)
Theorem C80_no_name_refuted : forall h w stem k, stem = [] \/ stem = [RootDir] -> with_counter h w stem k = (w, Panicked).
Proof. intros h w stem k [->| ->]; reflexivity. Qed.
Print Assumptions C80_no_name_refuted.
Lemma reach h w stem : fs_ok w -> tidy w stem -> has_place stem -> creatable h w (with_extension stem FILE_EXTENSION) ->
  exists dir w1, parent (with_extension stem FILE_EXTENSION) = Some dir /\ create_dir_all h (List.length dir) w dir = (w1, true) /\
    file_create h w1 (with_extension stem FILE_EXTENSION) = (put w1 (with_extension stem FILE_EXTENSION) (IsFile []), true).
Proof.
  intros F T P C. destruct (place stem P) as (dir & c & Es & Nc & c' & Ef & Nc' & T'). specialize (T' w T). set (f := with_extension stem FILE_EXTENSION) in *.
  exists dir. destruct (create_dir_all h (List.length dir) w dir) as (w1 & b1) eqn:E. exists w1. apply create_dir_all_spec in E; auto. destruct E as (F1 & B1 & O1 & D1).
  assert (AF : forall q, above q f <-> q <> [] /\ (q = dir \/ above q dir)) by (intros q; rewrite Ef; apply above_snoc).
  destruct C as (C1 & C2 & C3).
  assert (B : b1 = true). { apply B1. intros q Q N. apply C1, AF. auto. } subst b1. split; [rewrite Ef; apply parent_snoc; auto|]. split; auto.
  assert (Wf : w1 f = w f). { destruct (O1 f) as [X|((_ & X) & _)]; auto. exfalso. destruct X as [X|X].
    - rewrite Ef in X. apply (f_equal (@List.length _)) in X. rewrite app_length in X. cbn in X. lia.
    - destruct X as (_ & y & r0 & X). rewrite Ef in X. apply (f_equal (@List.length _)) in X. rewrite !app_length in X. cbn in X. lia. }
  unfold file_create. rewrite walk_reached by (intros q A; apply AF in A; destruct A; apply D1; auto). rewrite Wf, C3. destruct (w f) as [[|]|]; congruence.
Qed.
(** A profiler that cannot be started destroys the profile with this name. *)
Theorem C80_lost_refuted : forall h w stem k b, fs_ok w -> tidy w stem -> has_place stem -> h_device h = full_disk ->
  let f := with_extension stem (str "mm_profdata") in creatable h w f -> w f = Some (IsFile b) ->
  exists w', with_counter h w stem k = (w', Refused) /\ w' f = Some (IsFile []).
Proof.
  intros h w stem k b F T P FD f C W. destruct (reach h w stem F T P C) as (dir & w1 & R1 & R2 & R3).
  unfold with_counter. cbv zeta. rewrite R1, R2, R3, FD. eexists. split; [reflexivity|]. rewrite fill_new. apply put_same.
Qed.
Print Assumptions C80_lost_refuted.
Definition ev_head : bytes := str "MMES" ++ [9; 0; 0; 0].
Definition sd_head : bytes := str "MMSD" ++ [9; 0; 0; 0].
Definition ix_head : bytes := str "MMSI" ++ [9; 0; 0; 0].
Definition orphan_file : bytes := top_header ++ concat (ops_writes drop_all fresh_sinks).
Lemma never_fails d pieces t fine d' : ~ may_fail d -> write_files d pieces = (t, fine, d') -> t = concat pieces /\ fine = true /\ ~ may_fail d'.
Proof.
  intros N E. apply write_files_spec in E. destruct E as (lost & E1 & E2 & E3 & E4). destruct fine; [|destruct (E3 eq_refl); contradiction]. rewrite (E2 eq_refl), app_nil_r in E1. split; auto. split; auto.
  intros X. apply N. apply (later_fails _ _ E4 X).
Qed.
(** An argument that is not Unicode, or a clock before 1970: it panics and leaves a file that no reader can open. *)
Theorem C80_orphan_refuted : forall h w stem k, fs_ok w -> tidy w stem -> has_place stem -> ~ may_fail (h_device h) ->
  let f := with_extension stem (str "mm_profdata") in creatable h w f -> ~ ordinary h ->
  exists w' b, with_counter h w stem k = (w', Panicked) /\ w' f = Some (IsFile b) /\
    zlen b = 47 /\ forall fuel, (0 < fuel)%nat -> decoder_new M_Metadata.parse_metadata fuel b = Err.
Proof.
  intros h w stem k F T P MF f C NO. destruct (reach h w stem F T P C) as (dir & w1 & R1 & R2 & R3).
  unfold with_counter. cbv zeta. rewrite R1, R2, R3.
  destruct (write_files (h_device h) _) as ((head & fine) & d) eqn:W. apply never_fails in W; auto. destruct W as (-> & -> & MF'). rewrite top_header_is. cbn [negb].
  assert (E : exists w', (let '(pages, _, _) := write_files d (ops_writes drop_all fresh_sinks) in (fill (put w1 f (IsFile [])) f (top_header ++ pages), Panicked)) = (w', Panicked) /\ w' f = Some (IsFile orphan_file)).
  { destruct (write_files d _) as ((pages & fine) & d') eqn:W. apply never_fails in W; auto. destruct W as (-> & -> & _). eexists. split; [reflexivity|]. rewrite fill_new. apply put_same. }
  destruct E as (w' & E1 & E2). exists w', orphan_file. split.
  - pose proof (unicode_spec (h_args h)) as U. destruct (unicode (h_args h)) as [args|]; [|exact E1]. destruct (Z.leb_spec 0 (h_clock h)); [|exact E1]. destruct NO. split; [exists args; exact U|auto].
  - split; auto. split; [vm_compute; reflexivity|]. intros fuel Hf. unfold decoder_new.
    assert (V : verify_file_header orphan_file FILE_MAGIC_TOP_LEVEL = Ok tt) by (vm_compute; reflexivity). rewrite V. cbn [bind].
    assert (SP : split_streams (zdrop FILE_HEADER_SIZE orphan_file) = Ok (TM (Some ev_head) (Some sd_head) (Some ix_head))) by (vm_compute; reflexivity).
    rewrite SP. cbn [bind tget tm_ev tm_sd tm_si ok_or_err]. unfold from_separate_buffers. destruct fuel as [|fuel]; [lia|].
    assert (V2 : verify_file_header ev_head FILE_MAGIC_EVENT_STREAM = Ok tt) by (vm_compute; reflexivity). rewrite V2. cbn [bind].
    assert (N : string_table_new sd_head ix_head = Ok (M_StrTable.mkTable sd_head [])) by (vm_compute; reflexivity). rewrite N. cbn [bind].
    assert (M : M_StrTable.metadata_string (S fuel) (M_StrTable.mkTable sd_head []) = Ok (str "<unknown>")) by reflexivity. rewrite M. cbn [bind].
    assert (J : M_Metadata.parse_metadata (str "<unknown>") = Err) by (vm_compute; reflexivity). rewrite J. reflexivity.
Qed.
Print Assumptions C80_orphan_refuted.
(** What is recorded from there on ends up in a file that the readers open, and that tells about this process. *)
Theorem C80_opens : forall h w stem k w' m args, fs_ok w -> tidy w stem -> has_place stem -> with_counter h w stem k = (w', Started m) ->
  all_unicode h args -> plain_args args -> h_clock h < 2 ^ 64 -> 0 <= h_pid h < 2 ^ 32 ->
  exists c0, cmem c0 = m /\ all_idle c0 /\
  forall en acts drops, ucalls_ok acts -> let c := urun en acts (mkU c0 []) in
    all_idle (uc c) -> Forall is_drop drops -> (forall t, In (ODrop t) drops) ->
    exists n, forall fuel, (n <= fuel)%nat ->
      exists d, decoder_new M_Metadata.parse_metadata fuel (file_of (disk (snd (run_ops drops (cmem (uc c)))))) = Ok d /\
        md_start_time (d_metadata d) = h_clock h /\ md_process_id (d_metadata d) = h_pid h /\ md_cmd (d_metadata d) = command_line args.
Proof.
  intros h w stem k w' m args F T P E U PA HC HP. pose proof (C80_outcome h w stem k w' _ F T P E) as O. cbv zeta in O. destruct O as (_ & _ & _ & _ & _ & args' & c0 & U' & CL & ST & CM).
  assert (EA : args' = args). { unfold all_unicode in *. rewrite U in U'. clear -U'. revert args' U'. induction args as [|a args IH]; intros [|a' args'] X; try discriminate; auto. cbn in X. injection X as -> X. f_equal. apply IH. exact X. }
  subst args'. exists c0. split; auto. split; [destruct ST as (? & ? & ? & ? & ? & _ & I & _); exact I|].
  intros en acts drops Hok c Hi Hd Ha. apply (C41_profile_opens en (h_clock h) (h_pid h) args k 8 c0 acts drops); auto.
Qed.
Print Assumptions C80_opens.
(** Not vacuous: [/tmp] exists, [/tmp/out/prof] is asked for; a second time with a full disk the profile is lost. *)
Definition ex_fs : fsys := fun p => if path_eq_dec p [RootDir] then Some IsDir else if path_eq_dec p [RootDir; Normal (str "tmp")] then Some IsDir else None.
Definition ex_host (d : device) (arg : option (list Z)) (clock : Z) : host := mkHost (fun _ => false) (fun _ => false) d [Some (str "rustc"); arg] clock 77 [].
Definition ex_stem : path := [RootDir; Normal (str "tmp"); Normal (str "out"); Normal (str "prof")].
Definition ex_file : path := [RootDir; Normal (str "tmp"); Normal (str "out"); Normal (str "prof.mm_profdata")].
Lemma ex_fs_cases p : ex_fs p <> None -> p = [RootDir] \/ p = [RootDir; Normal (str "tmp")].
Proof. unfold ex_fs. destruct (path_eq_dec p [RootDir]); auto. destruct (path_eq_dec p [RootDir; Normal (str "tmp")]); auto. congruence. Qed.
Lemma ex_fs_ok : fs_ok ex_fs.
Proof.
  intros q c Q H. apply ex_fs_cases in H. destruct H as [H|H].
  - destruct q as [|x [|y q]]; [congruence| |]; discriminate.
  - destruct q as [|x [|y [|z q]]]; [congruence| | |]; try discriminate. injection H as -> _. reflexivity.
Qed.
Lemma ex_tidy : tidy ex_fs ex_stem.
Proof.
  intros q c rest E. unfold ex_stem in E. destruct q as [|x q]; [injection E as <- _; right; reflexivity|]. injection E as <- E. left.
  destruct q as [|x q]; [injection E as <- _; eauto|]. injection E as <- E. destruct q as [|x q]; [injection E as <- _; eauto|]. injection E as <- E. destruct q as [|x q]; [injection E as <- _; eauto|]. injection E as <- E. destruct q; discriminate.
Qed.
Lemma ex_place : has_place ex_stem.
Proof. split; [discriminate|]. intros q E. apply (f_equal (@rev _)) in E. rewrite rev_app_distr in E. discriminate. Qed.
Lemma ex_above q : above q ex_file -> q = [RootDir] \/ q = [RootDir; Normal (str "tmp")] \/ q = [RootDir; Normal (str "tmp"); Normal (str "out")].
Proof.
  intros (N & c & r & E). unfold ex_file in E. destruct q as [|x q]; [congruence|]. injection E as <- E. destruct q as [|x q]; [auto|]. injection E as <- E. destruct q as [|x q]; [auto|]. injection E as <- E.
  destruct q as [|x q]; [auto|]. injection E as <- E. destruct q; discriminate.
Qed.
Lemma ex_creatable d arg clock : creatable (ex_host d arg clock) ex_fs ex_file.
Proof.
  split; [|split; [discriminate|reflexivity]]. intros q A. apply ex_above in A. destruct A as [->|[->| ->]]; [left; reflexivity|left; reflexivity|right; split; reflexivity].
Qed.
Theorem ex_C80 :
  (exists w' m, with_counter (ex_host (mkDev [Took 3; Interrupted] false) (Some (str "-v")) 1) ex_fs ex_stem CWallTime = (w', Started m) /\
     w' [RootDir; Normal (str "tmp"); Normal (str "out")] = Some IsDir /\ w' ex_file = Some (IsFile top_header)) /\
  (exists w', with_counter (ex_host full_disk (Some (str "-v")) 1) ex_fs ex_stem CWallTime = (w', Refused) /\ w' ex_file = Some (IsFile [])) /\
  (exists w', with_counter (ex_host (mkDev [] false) None 1) ex_fs ex_stem CWallTime = (w', Panicked)) /\
  (exists w', with_counter (ex_host (mkDev [] false) (Some []) (-1)) ex_fs ex_stem CWallTime = (w', Panicked)).
Proof.
  split; [|split; [|split]].
  - destruct (C80_starts (ex_host (mkDev [Took 3; Interrupted] false) (Some (str "-v")) 1) ex_fs ex_stem CWallTime ex_fs_ok ex_tidy ex_place) as ((_ & H) & _).
    { intros [H|H]; [discriminate|]. cbn in H. destruct H as [H|[H|[]]]; discriminate. }
    destruct H as (w' & m & E). { split; [apply (ex_creatable _ _ _)|]. split; [exists [str "rustc"; str "-v"]; reflexivity|cbn; lia]. }
    exists w', m. split; auto. pose proof (C80_outcome _ _ _ _ _ _ ex_fs_ok ex_tidy ex_place E) as O. cbv zeta in O. destruct O as (_ & _ & _ & O & O2 & _).
    change (with_extension ex_stem (str "mm_profdata")) with ex_file in *. split.
    + apply O. split; [discriminate|]. exists (Normal (str "prof.mm_profdata")), []. reflexivity.
    + rewrite O2. f_equal. f_equal. assert (D : disk m = []); [|rewrite D; vm_compute; reflexivity].
      assert (V : match with_counter (ex_host (mkDev [Took 3; Interrupted] false) (Some (str "-v")) 1) ex_fs ex_stem CWallTime with (_, Started m) => disk m = [] | _ => True end) by (vm_compute; reflexivity).
      rewrite E in V. exact V.
  - eexists. split; [reflexivity|]. reflexivity.
  - eexists. reflexivity.
  - eexists. reflexivity.
Qed.
Print Assumptions ex_C80.
