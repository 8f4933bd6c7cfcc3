(** C75: output files when a write fails.  Model M_Output.v, specification S_Output.v. *)
From Coq Require Import String ZArith List Lia Bool.
From Verif Require Import M_Base F_Base M_Map M_Path Prop_Path M_Crox M_Programs S_Programs Prop_Programs Prop_Needed M_Output S_Output.
Import ListNotations.
Open Scope Z_scope.

Lemma write_loop_spec : forall calls bad b taken left_ rest, write_loop calls bad b = (taken, left_, rest) ->
  b = taken ++ left_ /\ (left_ <> [] -> bad = true \/ In Failed calls) /\ (forall x, In x rest -> In x calls).
Proof.
  induction calls as [|c calls IH]; intros bad b taken left_ rest E; cbn [write_loop] in E; (destruct b as [|x b]; [injection E as <- <- <-; split; [reflexivity|split; [congruence|auto]]|]).
  - destruct bad; injection E as <- <- <-; (split; [rewrite ?app_nil_r; reflexivity|]); split; auto; try congruence.
  - set (bb := x :: b) in *. destruct c as [n| |].
    + destruct (write_loop calls bad _) as ((t & l) & r) eqn:W. injection E as <- <- <-. apply IH in W. destruct W as (W1 & W2 & W3).
      split; [rewrite <- app_assoc, <- W1; symmetry; apply ztake_zdrop|]. split; [intros H; apply W2 in H; destruct H; [auto|right; right; auto]|]. intros y Hy. right; auto.
    + apply IH in E. destruct E as (W1 & W2 & W3). split; auto. split; [intros H; apply W2 in H; destruct H; [auto|right; right; auto]|]. intros y Hy. right; auto.
    + injection E as <- <- <-. split; [reflexivity|]. split; [intros _; right; left; reflexivity|]. intros y Hy. right; auto.
Qed.
Definition later (d d' : device) : Prop := broken d' = broken d /\ forall x, In x (script d') -> In x (script d).
Lemma later_refl d : later d d. Proof. split; auto. Qed.
Lemma later_trans a b c : later a b -> later b c -> later a c.
Proof. intros (H1 & H2) (H3 & H4). split; [congruence|auto]. Qed.
Lemma later_fails a b : later a b -> may_fail b -> may_fail a.
Proof. intros (H1 & H2) [H|H]; [left; congruence|right; auto]. Qed.
Lemma is_nil (l : bytes) : (match l with [] => true | _ => false end) = true <-> l = [].
Proof. destruct l; split; congruence. Qed.
Lemma flush_spec w w' fine : flush_buf w = (w', fine) ->
  in_file w ++ buffer w = in_file w' ++ buffer w' /\ later (dev w) (dev w') /\ (fine = true <-> buffer w' = []) /\ (buffer w' <> [] -> may_fail (dev w)) /\ zlen (buffer w') <= zlen (buffer w).
Proof.
  unfold flush_buf. destruct (write_loop _ _ _) as ((t & l) & r) eqn:W. intros E. injection E as <- <-. cbn [in_file buffer dev]. apply write_loop_spec in W. destruct W as (W1 & W2 & W3).
  split; [rewrite <- app_assoc; f_equal; exact W1|]. split; [split; auto|]. split; [apply is_nil|]. split; [exact W2|]. rewrite W1, zlen_app. pose proof (zlen_nonneg t). lia.
Qed.
Lemma bw_write_spec cap w b w' fine : 0 <= cap -> zlen (buffer w) <= cap -> bw_write_all cap w b = (w', fine) ->
  exists lost, in_file w ++ buffer w ++ b = in_file w' ++ buffer w' ++ lost /\ later (dev w) (dev w') /\ (fine = true -> lost = []) /\ (fine = false -> may_fail (dev w)) /\ zlen (buffer w') <= cap.
Proof.
  intros PC C E. unfold bw_write_all in E. destruct (zlen b <? cap - zlen (buffer w)) eqn:T.
  - injection E as <- <-. exists []. cbn [in_file buffer dev]. rewrite app_nil_r. split; auto. split; [apply later_refl|]. split; auto. split; [discriminate|]. rewrite zlen_app. apply Z.ltb_lt in T. lia.
  - apply Z.ltb_ge in T. set (spare := cap - zlen (buffer w)) in *.
    destruct (if spare <? zlen b then flush_buf w else (w, true)) as (w1 & f1) eqn:F.
    assert (K : in_file w ++ buffer w = in_file w1 ++ buffer w1 /\ later (dev w) (dev w1) /\ (f1 = false -> may_fail (dev w)) /\ zlen (buffer w1) <= zlen (buffer w) /\
      (f1 = true -> zlen (buffer w1) + zlen b <= cap \/ buffer w1 = [])).
    { destruct (spare <? zlen b) eqn:S.
      - apply flush_spec in F. destruct F as (F1 & F2 & F3 & F4 & F5). split; auto. split; auto. split; [intros ->; apply F4; intros H; apply F3 in H; discriminate|]. split; auto. intros H. right. apply F3, H.
      - injection F as <- <-. split; auto. split; [apply later_refl|]. split; [discriminate|]. split; [lia|]. intros _. left. apply Z.ltb_ge in S. subst spare. lia. }
    destruct K as (K1 & K2 & K3 & K4 & K5). destruct f1; cbn [negb] in E.
    + specialize (K5 eq_refl). destruct (cap <=? zlen b) eqn:B.
      * apply Z.leb_le in B. assert (N : buffer w1 = []).
        { destruct K5 as [K5|K5]; auto. destruct (buffer w1) as [|y l1]; auto. rewrite zlen_cons in K5. pose proof (zlen_nonneg l1). lia. }
        destruct (write_loop _ _ b) as ((t & l) & r) eqn:W. injection E as <- <-. apply write_loop_spec in W. destruct W as (W1 & W2 & W3). exists l. cbn [in_file buffer dev].
        split; [rewrite app_assoc, K1, N, W1, app_nil_r, <- app_assoc; reflexivity|]. split; [eapply later_trans; [exact K2|split; auto]|].
        split; [intros H; apply is_nil, H|]. split; [|rewrite N, zlen_nil; lia]. intros H. eapply later_fails; [exact K2|]. apply W2. intros ->. discriminate.
      * apply Z.leb_gt in B. injection E as <- <-. exists []. cbn [in_file buffer dev]. rewrite app_nil_r. split; [rewrite app_assoc, K1, <- app_assoc; reflexivity|]. split; auto. split; auto. split; [discriminate|].
        rewrite zlen_app. destruct K5 as [K5| ->]; [lia|]. rewrite zlen_nil. lia.
    + injection E as <- <-. exists b. split; [rewrite app_assoc, K1, <- app_assoc; reflexivity|]. split; auto. split; [discriminate|]. split; auto. lia.
Qed.
Lemma write_pieces_spec : forall pieces w w' fine, zlen (buffer w) <= CAPACITY -> write_pieces w pieces = (w', fine) ->
  exists lost, in_file w ++ buffer w ++ concat pieces = in_file w' ++ buffer w' ++ lost /\ later (dev w) (dev w') /\ (fine = true -> lost = []) /\ (fine = false -> may_fail (dev w)) /\ zlen (buffer w') <= CAPACITY.
Proof.
  induction pieces as [|b pieces IH]; intros w w' fine C E; cbn [write_pieces concat] in *.
  - injection E as <- <-. exists []. split; auto. split; [apply later_refl|]. split; auto. split; [discriminate|auto].
  - destruct (bw_write_all CAPACITY w b) as (w1 & f1) eqn:B. apply (bw_write_spec CAPACITY _ _ _ _ ltac:(discriminate) C) in B. destruct B as (l1 & B1 & B2 & B3 & B4 & B5). destruct f1.
    + rewrite (B3 eq_refl), app_nil_r in B1. destruct (IH _ _ _ B5 E) as (l2 & I1 & I2 & I3 & I4 & I5). exists l2. split; [|split; [eapply later_trans; eauto|split; auto]].
      * rewrite <- I1. transitivity ((in_file w ++ buffer w ++ b) ++ concat pieces); [rewrite <- !app_assoc; reflexivity|]. rewrite B1, <- app_assoc. reflexivity.
      * split; auto. intros H. eapply later_fails; eauto.
    + injection E as <- <-. exists (l1 ++ concat pieces). split; [|split; auto; split; [discriminate|split; auto]].
      transitivity ((in_file w ++ buffer w ++ b) ++ concat pieces); [rewrite <- !app_assoc; reflexivity|]. rewrite B1, <- !app_assoc. reflexivity.
Qed.
Lemma save_buffered_spec d pieces : exists lost, concat pieces = fst (save_buffered d pieces) ++ lost /\
  (snd (save_buffered d pieces) = false -> may_fail d) /\ (lost <> [] -> may_fail d) /\ (snd (save_buffered d pieces) = true -> zlen lost <= CAPACITY).
Proof.
  unfold save_buffered. destruct (write_pieces _ pieces) as (w & fine) eqn:W. apply write_pieces_spec in W; [|cbn; unfold CAPACITY; rewrite ?zlen_nil; lia].
  destruct W as (l & W1 & W2 & W3 & W4 & W5). cbn [in_file buffer dev app] in *. cbn [fst snd]. unfold bw_drop. destruct (flush_buf w) as (w' & f) eqn:F. apply flush_spec in F. destruct F as (F1 & F2 & F3 & F4 & F5).
  exists (buffer w' ++ l). cbn [fst]. split; [rewrite W1, app_assoc, F1, <- app_assoc; reflexivity|]. split; auto. split.
  - intros H. destruct fine; [|auto]. rewrite (W3 eq_refl), app_nil_r in H. eapply later_fails; [exact W2|auto].
  - intros ->. rewrite (W3 eq_refl), app_nil_r. lia.
Qed.
Lemma save_direct_spec d b : exists lost, b = fst (save_direct d b) ++ lost /\ (lost <> [] -> may_fail d) /\ (snd (save_direct d b) = true <-> lost = []).
Proof.
  unfold save_direct. destruct (write_loop _ _ b) as ((t & l) & r) eqn:W. apply write_loop_spec in W. destruct W as (W1 & W2 & W3). exists l. cbn [fst snd]. split; auto. split; auto. apply is_nil.
Qed.
Lemma output_named c p b : output_of c = Some (p, b) -> named c -> may_write c p.
Proof.
  destruct c as [f [|] x|bs ch x [|]|fs|f|f|f t|f|ps es cl m]; cbn [output_of]; try discriminate; intros E; injection E as <- <-; cbn [named]; intros N; try constructor.
  - destruct N as (dir & n & _ & ->). unfold json_path. rewrite with_extension_in_dir. constructor.
  - destruct N as (dir & n & _ & ->). unfold json_path. rewrite with_extension_in_dir. constructor.
  - destruct N as (dir & n & _ & ->). unfold truncated_path. rewrite with_extension_in_dir. constructor.
Qed.

(** Whatever fails, the output file holds a first part of what would have been written, no other file changes, and:
    nothing is missing if no write failed; no error is reported without a failure; if success is reported, at most the last 8192 bytes are
    missing, and for mmedit nothing is. *)
Theorem C75_output : forall d s inferno w c w' e, ran_on d s inferno w c w' e -> named c ->
  exists w1 p text file lost, ran s inferno w c w1 Success /\ may_write c p /\ w1 p = Some text /\ w' p = Some file /\ text = file ++ lost /\
    (forall q, q <> p -> w' q = w q) /\
    (lost <> [] \/ e <> Success -> may_fail d) /\
    (e = Success -> zlen lost <= 8192 /\ ((exists f, c = Truncate f) -> lost = [])) /\
    ((exists f, c = Truncate f) -> lost <> [] -> e <> Success).
Proof.
  intros d s inferno w c w' e R N. destruct R as [c w1 p text pieces t R O T P out|c w1 p text t R O T out].
  - destruct (save_buffered_spec d pieces) as (lost & S1 & S2 & S3 & S4). exists w1, p, text, (fst out), lost. split; auto. split; [eapply output_named; eauto|]. split; auto. split; [apply create_same|].
    split; [rewrite <- P; exact S1|]. split; [intros q Q; apply create_other; auto|]. fold out in S2, S4. assert (NT : ~ exists f, c = Truncate f) by (intros (f & ->); cbn in O; discriminate).
    split; [|split]; [intros [H|H]; [auto|apply S2; destruct (snd out); congruence]| |tauto]. intros H. split; [|tauto]. apply S4. destruct (snd out); congruence.
  - destruct (save_direct_spec d text) as (lost & S1 & S3 & S4). exists w1, p, text, (fst out), lost. split; auto. split; [eapply output_named; eauto|]. split; auto. split; [apply create_same|].
    split; [exact S1|]. split; [intros q Q; apply create_other; auto|]. fold out in S4. split.
    + intros [H|H]; [auto|]. apply S3. intros L. apply S4 in L. rewrite L in H. congruence.
    + split; [intros H; assert (L : lost = []) by (apply S4; destruct (snd out); congruence); rewrite L, zlen_nil; split; [lia|auto]|].
      intros _ H E. apply H, S4. destruct (snd out); congruence.
Qed.
(** Every run that succeeds has its counterpart on every device, in whichever pieces the output is handed over. *)
Theorem C75_runs : forall d s inferno w c w1 p text, named c -> ran s inferno w c w1 Success -> may_write c p -> w1 p = Some text ->
  buffers_output c \/ (exists f, c = Truncate f) -> exists w' e, ran_on d s inferno w c w' e.
Proof.
  intros d s inferno w c w1 p text N R M T K.
  assert (OP : forall q b, output_of c = Some (q, b) -> q = p).
  { intros q b O. destruct M; cbn [output_of] in O; try (injection O as <- <-); try reflexivity; try discriminate; unfold json_path, truncated_path; rewrite with_extension_in_dir; reflexivity. }
  destruct K as [B|(f & ->)].
  - assert (OO : output_of c = Some (p, true)).
    { destruct c as [f [|] x|bs ch x [|]|fs|f|f|f t|f|ps es cl m]; cbn [buffers_output] in B; try contradiction; cbn [output_of] in *; f_equal; f_equal; eapply OP; reflexivity. }
    do 2 eexists. exact (ran_buffered d s inferno w c w1 p text [text] [] R OO T (app_nil_r text)).
  - assert (OO : output_of (Truncate f) = Some (p, false)) by (cbn [output_of] in *; f_equal; f_equal; eapply OP; reflexivity).
    do 2 eexists. exact (ran_direct d s inferno w (Truncate f) w1 p text [] R OO T).
Qed.
(** With a device that works, it is the run of C72. *)
Theorem C75_working : forall d s inferno w c w' e, ran_on d s inferno w c w' e -> named c -> ~ may_fail d ->
  e = Success /\ exists w1 p, ran s inferno w c w1 Success /\ may_write c p /\ w' p = w1 p.
Proof.
  intros d s inferno w c w' e R N NF. destruct (C75_output _ _ _ _ _ _ _ R N) as (w1 & p & text & file & lost & R1 & M & T & F & E & _ & B & _).
  assert (lost = []) by (destruct lost; auto; exfalso; apply NF, B; left; discriminate). subst lost. rewrite app_nil_r in E.
  split; [destruct e; auto; exfalso; apply NF, B; right; discriminate|]. exists w1, p. split; auto. split; auto. congruence.
Qed.

Lemma small_pieces : forall pieces f buf, zlen buf + zlen (concat pieces) < CAPACITY ->
  write_pieces (mkBw f buf full_disk) pieces = (mkBw f (buf ++ concat pieces) full_disk, true).
Proof.
  induction pieces as [|b pieces IH]; intros f buf H; cbn [write_pieces concat] in *; [rewrite app_nil_r; reflexivity|]. rewrite zlen_app in H. pose proof (zlen_nonneg (concat pieces)).
  unfold bw_write_all. cbn [buffer in_file dev]. replace (zlen b <? CAPACITY - zlen buf) with true by (symmetry; apply Z.ltb_lt; lia).
  rewrite IH by (rewrite zlen_app; lia). rewrite <- app_assoc. reflexivity.
Qed.
(** But success is no promise (a defect: the buffer is only written out when the writer is dropped, and then errors are ignored): if the
    whole output has less than 8192 bytes, crox, stack_collapse and summarize --json report success on a full disk, in whichever pieces they write,
    and leave an empty file; mmedit fails. *)
Theorem C75_success_refuted : forall s inferno w c w1 p text, named c -> ran s inferno w c w1 Success -> may_write c p -> w1 p = Some text ->
  (buffers_output c -> zlen text < 8192 ->
     (exists w', ran_on full_disk s inferno w c w' Success) /\
     (forall pieces, concat pieces = text -> save_buffered full_disk pieces = ([], true))) /\
  (forall w' e, (exists f, c = Truncate f) -> text <> [] -> ran_on full_disk s inferno w c w' e -> e <> Success).
Proof.
  intros s inferno w c w1 p text N R M T.
  assert (OP : forall q b, output_of c = Some (q, b) -> q = p).
  { intros q b O. destruct M; cbn [output_of] in O; try (injection O as <- <-); try reflexivity; try discriminate; unfold json_path, truncated_path; rewrite with_extension_in_dir; reflexivity. }
  split.
  - intros B L.
    assert (SV : forall pieces, concat pieces = text -> save_buffered full_disk pieces = ([], true)).
    { intros pieces P. unfold save_buffered. rewrite small_pieces by (rewrite P, zlen_nil; unfold CAPACITY; lia). unfold bw_drop, flush_buf. cbn [buffer in_file dev script broken full_disk]. rewrite P.
      destruct text as [|x text]; reflexivity. }
    split; [|exact SV].
    assert (OO : output_of c = Some (p, true)).
    { destruct c as [f [|] x|bs ch x [|]|fs|f|f|f t|f|ps es cl m]; cbn [buffers_output] in B; try contradiction; cbn [output_of] in *; f_equal; f_equal; eapply OP; reflexivity. }
    exists (create w p []). pose proof (ran_buffered full_disk s inferno w c w1 p text [text] [] R OO T (app_nil_r text)) as Q. cbv zeta in Q. rewrite (SV [text]) in Q by apply app_nil_r. exact Q.
  - intros w' e (f & ->) NE RO. inversion RO as [c0 w2 q txt pieces t R2 O T2 P out E1 E2 E3|c0 w2 q txt t R2 O T2 out E1 E2 E3]; subst; [cbn in O; discriminate|].
    assert (TX : txt = text).
    { pose proof (OP q _ O); subst q. clear - R R2 T T2. assert (D : forall v, ran s inferno w (Truncate f) v Success -> v = after (mmedit_cmd s w f)) by (intros v V; inversion V; reflexivity).
      apply D in R. apply D in R2. congruence. }
    subst txt out. unfold save_direct, full_disk. cbn [script broken]. destruct text as [|x text]; [congruence|]. cbn. discriminate.
Qed.

(** A concrete case: a profile whose folded stacks have 18 bytes.  A device that takes three bytes, is interrupted and then works gets all of
    them; one that fails after three bytes gets three, one that is full none, and stack_collapse reports success each time. *)
Definition ex_folded : bytes := str "rustc;a 4" ++ [10] ++ str "rustc 0" ++ [10].
Definition ex_out : path := [Normal (str "out.stacks_folded")].
Example ex_C75 : forall inferno,
  let w := ex_world ex_damaged in
  (exists w1, ran ex_setup inferno w (StackCollapse ex_file) w1 Success /\ w1 ex_out = Some ex_folded) /\
  (exists w1, ran_on (mkDev [Took 3; Interrupted] false) ex_setup inferno w (StackCollapse ex_file) w1 Success /\ w1 ex_out = Some ex_folded) /\
  (exists w1, ran_on (mkDev [Took 3; Failed] true) ex_setup inferno w (StackCollapse ex_file) w1 Success /\ w1 ex_out = Some (str "rus")) /\
  (exists w1, ran_on full_disk ex_setup inferno w (StackCollapse ex_file) w1 Success /\ w1 ex_out = Some []).
Proof.
  intros inferno w.
  assert (R : ran ex_setup inferno w (StackCollapse ex_file) (after (stack_collapse_cmd ex_setup w ex_file)) Success).
  { replace Success with (ends (stack_collapse_cmd ex_setup w ex_file)) by (vm_compute; reflexivity). apply (ran_stacks ex_setup inferno w ex_file). }
  assert (T : after (stack_collapse_cmd ex_setup w ex_file) ex_out = Some ex_folded) by (apply (proj2 (proj2 (proj2 (proj2 (proj2 (proj2 ex_C73))))))).
  split; [eauto|].
  assert (Q : forall d f, save_buffered d [ex_folded] = (f, true) -> exists w1, ran_on d ex_setup inferno w (StackCollapse ex_file) w1 Success /\ w1 ex_out = Some f).
  { intros d f S. pose proof (ran_buffered d ex_setup inferno w (StackCollapse ex_file) _ ex_out ex_folded [ex_folded] [] R eq_refl T (app_nil_r _)) as H. cbv zeta in H. rewrite S in H.
    eexists. split; [exact H|]. apply create_same. }
  split; [apply Q; vm_compute; reflexivity|]. split; apply Q; vm_compute; reflexivity.
Qed.
Print Assumptions C75_output.
Print Assumptions C75_working.
Print Assumptions C75_success_refuted.
