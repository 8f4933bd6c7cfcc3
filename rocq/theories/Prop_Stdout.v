(** C85: printing to a standard output that fails.  Model M_Stdout.v, specification S_Stdout.v, S_Output.v ([may_fail], [full_disk]). *)
From Coq Require Import String ZArith List Lia Bool.
From Verif Require Import M_Base F_Base M_Map M_Path M_Crox M_Raw M_V8 M_AggText M_Tools M_Programs S_Programs Prop_Programs M_Output S_Output Prop_Output M_Stdout S_Stdout.
Import ListNotations.
Open Scope Z_scope.

Lemma split_lines_spec b l t : split_lines b = (l, t) -> b = l ++ t /\ ~ In 10 t /\ (l = [] \/ exists l', l = l' ++ [10]).
Proof.
  revert l t. induction b as [|c b IH]; intros l t E; cbn [split_lines] in E; [injection E as <- <-; split; [reflexivity|]; split; [intros []|left; reflexivity]|].
  destruct (split_lines b) as (l0 & t0) eqn:S. destruct (IH _ _ eq_refl) as (-> & N & H). destruct l0 as [|c0 l0].
  - destruct (Z.eqb_spec c 10) as [->|NC]; injection E as <- <-; (split; [reflexivity|]).
    + split; [exact N|]. right. exists []. reflexivity.
    + split; [intros [K|K]; [congruence|exact (N K)]|left; reflexivity].
  - injection E as <- <-. split; [reflexivity|]. split; [exact N|]. right. destruct H as [H|(l' & H)]; [discriminate|]. exists (c :: l'). cbn [app]. f_equal. exact H.
Qed.
Definition good (w : bufwriter) : Prop := zlen (buffer w) <= LINE_CAPACITY /\ ~ In 10 (buffer w).
Lemma bw_write_buffer cap w b w' : bw_write_all cap w b = (w', true) -> forall x, In x (buffer w') -> In x (buffer w ++ b).
Proof.
  unfold bw_write_all. destruct (_ <? _) eqn:T; [intros E; injection E as <-; auto|]. destruct (if _ <? zlen b then flush_buf w else (w, true)) as (w1 & f1) eqn:F.
  assert (K : f1 = true -> forall x, In x (buffer w1) -> In x (buffer w)).
  { intros ->. destruct (_ <? zlen b); [|injection F as <-; auto]. apply flush_spec in F. destruct F as (_ & _ & F & _). rewrite (proj1 F eq_refl). intros x []. }
  destruct f1; cbn [negb]; [|discriminate]. specialize (K eq_refl). destruct (cap <=? zlen b).
  - destruct (write_loop _ _ b) as ((t & l) & r). intros E. injection E as <- _. cbn [buffer]. intros x H. apply in_or_app. left. apply K, H.
  - intros E. injection E as <-. cbn [buffer]. intros x H. apply in_app_or in H. apply in_or_app. destruct H; auto.
Qed.
Lemma bw_write_empty w w' fine : zlen (buffer w) < LINE_CAPACITY -> bw_write_all LINE_CAPACITY w [] = (w', fine) -> w' = w /\ fine = true.
Proof.
  intros C E. unfold bw_write_all in E. change (zlen (@nil Z)) with 0 in E. replace (0 <? LINE_CAPACITY - zlen (buffer w)) with true in E by (symmetry; apply Z.ltb_lt; lia). rewrite app_nil_r in E. injection E as <- <-. destruct w; auto.
Qed.
Lemma cap_pos : 0 <= LINE_CAPACITY. Proof. discriminate. Qed.
(** One write: nothing is lost or repeated, what is lost is lost after an error *)
Lemma line_write_spec w b w' fine : good w -> line_write_all w b = (w', fine) ->
  exists lost, in_file w ++ buffer w ++ b = in_file w' ++ buffer w' ++ lost /\ later (dev w) (dev w') /\ (fine = true -> lost = [] /\ good w') /\ (fine = false -> may_fail (dev w)).
Proof.
  intros (C & N) E. unfold line_write_all in E. destruct (split_lines b) as (l & t) eqn:S. apply split_lines_spec in S. destruct S as (-> & NT & HL). destruct l as [|c l].
  - cbn [app] in *. assert (NF : match rev (buffer w) with 10 :: _ => flush_buf w | _ => (w, true) end = (w, true)).
    { destruct (rev (buffer w)) as [|x r] eqn:R; [reflexivity|]. assert (In x (buffer w)) by (apply in_rev; rewrite R; left; reflexivity). destruct (Z.eq_dec x 10) as [->|NX]; [contradiction|].
      destruct x as [|p|p]; try reflexivity. repeat (destruct p as [p|p|]; try reflexivity). congruence. }
    rewrite NF in E. pose proof E as E0. apply (bw_write_spec _ _ _ _ _ cap_pos C) in E. destruct E as (lost & E1 & E2 & E3 & E4 & E5). exists lost. split; [exact E1|]. split; [exact E2|]. split; [|exact E4]. intros ->. split; [auto|]. split; [exact E5|].
    intros K. apply (bw_write_buffer _ _ _ _ E0) in K. apply in_app_or in K. destruct K; contradiction.
  - set (lines := c :: l) in *.
    destruct (match buffer w with [] => _ | _ => _ end) as (w1 & f1) eqn:F.
    assert (K : exists lost, in_file w ++ buffer w ++ lines = in_file w1 ++ buffer w1 ++ lost /\ later (dev w) (dev w1) /\ (f1 = true -> lost = [] /\ buffer w1 = []) /\ (f1 = false -> may_fail (dev w))).
    { destruct (buffer w) as [|x bf] eqn:B.
      - destruct (write_loop _ _ lines) as ((tk & lf) & r) eqn:W. injection F as <- <-. apply write_loop_spec in W. destruct W as (W1 & W2 & W3). exists lf. cbn [in_file buffer dev app]. split; [rewrite W1, <- app_assoc; reflexivity|]. split; [split; auto|]. split; [intros H; apply is_nil in H; auto|]. intros H. apply W2. intros ->. discriminate.
      - rewrite <- B in *. destruct (bw_write_all LINE_CAPACITY w lines) as (w2 & f2) eqn:W. apply (bw_write_spec _ _ _ _ _ cap_pos C) in W. destruct W as (lost & W1 & W2 & W3 & W4 & W5). destruct f2.
        + rewrite (W3 eq_refl), app_nil_r in W1. apply flush_spec in F. destruct F as (F1 & F2 & F3 & F4 & F5). exists []. rewrite app_nil_r. split; [rewrite W1; exact F1|]. split; [eapply later_trans; eauto|]. split; [intros H; split; [reflexivity|apply F3, H]|].
          intros ->. eapply later_fails; [exact W2|]. apply F4. intros H. apply F3 in H. discriminate.
        + injection F as <- <-. exists lost. split; [exact W1|]. split; [exact W2|]. split; [discriminate|exact W4]. }
    clear F. destruct K as (lost & K1 & K2 & K3 & K4). destruct f1.
    + destruct (K3 eq_refl) as (-> & B1). rewrite B1 in K1. cbn [app] in K1. assert (C1 : zlen (buffer w1) <= LINE_CAPACITY) by (rewrite B1; discriminate). pose proof E as E0. apply (bw_write_spec _ _ _ _ _ cap_pos C1) in E. destruct E as (lost & E1 & E2 & E3 & E4 & E5). rewrite B1 in E1. cbn [app] in E1. exists lost.
      split; [rewrite <- E1; transitivity ((in_file w ++ buffer w ++ lines) ++ t); [rewrite <- !app_assoc; reflexivity|rewrite K1, app_nil_r; reflexivity]|]. split; [eapply later_trans; eauto|]. split; [|intros H; eapply later_fails; [exact K2|auto]]. intros ->. split; [auto|]. split; [exact E5|].
      intros K. apply (bw_write_buffer _ _ _ _ E0) in K. rewrite B1 in K. contradiction.
    + injection E as <- <-. exists (lost ++ t). split; [|split; [exact K2|]; split; [discriminate|auto]]. transitivity ((in_file w ++ buffer w ++ lines) ++ t); [rewrite <- !app_assoc; reflexivity|]. rewrite K1, <- !app_assoc. reflexivity.
Qed.
Lemma print_pieces_spec pieces : forall w w' fine, good w -> print_pieces w pieces = (w', fine) ->
  exists lost, in_file w ++ buffer w ++ concat pieces = in_file w' ++ buffer w' ++ lost /\ later (dev w) (dev w') /\ (fine = true -> lost = [] /\ good w') /\ (fine = false -> may_fail (dev w)).
Proof.
  induction pieces as [|b pieces IH]; intros w w' fine G E; cbn [print_pieces concat] in *.
  - injection E as <- <-. exists []. split; [reflexivity|]. split; [apply later_refl|]. split; [auto|discriminate].
  - destruct (line_write_all w b) as (w1 & f1) eqn:L. apply (line_write_spec _ _ _ _ G) in L. destruct L as (l1 & L1 & L2 & L3 & L4). destruct f1.
    + destruct (L3 eq_refl) as (-> & G1). rewrite app_nil_r in L1. destruct (IH _ _ _ G1 E) as (l2 & I1 & I2 & I3 & I4). exists l2. split; [|split; [eapply later_trans; eauto|]; split; [exact I3|intros H; eapply later_fails; eauto]].
      rewrite <- I1. transitivity ((in_file w ++ buffer w ++ b) ++ concat pieces); [rewrite <- !app_assoc; reflexivity|]. rewrite L1, <- app_assoc. reflexivity.
    + injection E as <- <-. exists (l1 ++ concat pieces). split; [|split; [exact L2|]; split; [discriminate|exact L4]]. transitivity ((in_file w ++ buffer w ++ b) ++ concat pieces); [rewrite <- !app_assoc; reflexivity|]. rewrite L1, <- !app_assoc. reflexivity.
Qed.
Definition line (l : list bytes) : Prop := exists t, concat l = t ++ [10].
(** After every complete line the buffer is empty. *)
Lemma print_lines_spec calls : forall w w' fine, Forall line calls -> buffer w = [] -> print_lines w calls = (w', fine) ->
  exists lost, in_file w ++ concat (map (@concat Z) calls) = in_file w' ++ buffer w' ++ lost /\ later (dev w) (dev w') /\ (fine = true -> lost = [] /\ buffer w' = []) /\ (fine = false -> may_fail (dev w)).
Proof.
  induction calls as [|l calls IH]; intros w w' fine F B E; cbn [print_lines map concat] in *.
  - injection E as <- <-. exists []. rewrite B. split; [reflexivity|]. split; [apply later_refl|]. split; [auto|discriminate].
  - inversion F as [|? ? (t & HT) F']; subst. destruct (print_pieces w l) as (w1 & f1) eqn:L. assert (G : good w) by (split; rewrite B; [discriminate|intros []]). apply (print_pieces_spec _ _ _ _ G) in L. destruct L as (l1 & L1 & L2 & L3 & L4). rewrite B in L1. cbn [app] in L1. destruct f1.
    + destruct (L3 eq_refl) as (-> & (_ & G1)). rewrite app_nil_r in L1. assert (B1 : buffer w1 = []).
      { destruct (buffer w1) as [|x bf] eqn:B1; [reflexivity|]. exfalso. assert (NE : x :: bf <> []) by discriminate. destruct (exists_last NE) as (bf' & y & EB). rewrite EB in L1, G1. rewrite HT, !app_assoc in L1. apply app_inj_tail in L1. destruct L1 as (_ & <-). apply G1. apply in_or_app. right. left. reflexivity. }
      rewrite B1, app_nil_r in L1. destruct (IH _ _ _ F' B1 E) as (l2 & I1 & I2 & I3 & I4). exists l2. split; [rewrite app_assoc, L1; exact I1|]. split; [eapply later_trans; eauto|]. split; [exact I3|intros H; eapply later_fails; eauto].
    + injection E as <- <-. exists (l1 ++ concat (map (@concat Z) calls)). split; [rewrite app_assoc, L1, <- !app_assoc; reflexivity|]. split; [exact L2|]. split; [discriminate|exact L4].
Qed.
Lemma print_run_spec d calls e arrived e' : Forall line calls -> print_run d calls e = (arrived, e') ->
  exists lost, concat (map (@concat Z) calls) = arrived ++ lost /\ (e' = e /\ lost = [] \/ e' = Crash /\ may_fail d).
Proof.
  intros F E. unfold print_run in E. destruct (print_lines (mkBw [] [] d) calls) as (w & fine) eqn:P. apply (print_lines_spec calls (mkBw [] [] d) w fine F eq_refl) in P. cbn [in_file app dev] in P. destruct P as (lost & P1 & P2 & P3 & P4). injection E as <- <-. destruct fine.
  - destruct (P3 eq_refl) as (-> & B). rewrite B in P1. cbn [app] in P1. rewrite app_nil_r in P1. exists []. split; [|left; auto]. rewrite app_nil_r, P1. unfold at_exit, bw_drop, flush_buf. rewrite B. destruct e; cbn [write_loop]; try reflexivity; destruct (script (dev w)); cbn [write_loop fst in_file]; rewrite app_nil_r; reflexivity.
  - unfold at_exit, bw_drop. destruct (flush_buf w) as (w2 & f2) eqn:F2. apply flush_spec in F2. destruct F2 as (F1 & _). exists (buffer w2 ++ lost). cbn [fst]. split; [rewrite P1, app_assoc, F1, <- app_assoc; reflexivity|]. right. auto.
Qed.

(** Whatever the standard output does, and in whichever pieces the text is written, what arrives is a first part of the text that is printed when
    nothing fails; no file is changed; and unless all of it arrives, the program ends with a panic. *)
Theorem C85_output : forall d s w c w' arrived e, printed_on d s w c w' arrived e ->
  exists text e0 lost, prints s w c text e0 /\ w' = w /\ text = arrived ++ lost /\ (e = e0 /\ lost = [] \/ e = Crash /\ may_fail d).
Proof.
  intros d s w c w' arrived e R. destruct R as [f t text calls SH (PA & PL) out|files r text calls A SH (PA & PL) out].
  - destruct (print_run_spec d calls (ends (mmview_cmd s w f t)) (fst out) (snd out) PL (surjective_pairing _)) as (lost & P1 & P2). exists text, (ends (mmview_cmd s w f t)), lost. split; [constructor; exact SH|]. split; [|split; [rewrite <- PA; exact P1|exact P2]].
    clear. unfold mmview_cmd, try. destruct (open_profile s w f); cbn; try reflexivity. destruct (sure (pf_iter a)); cbn; try reflexivity. destruct (iter_min _); [|reflexivity]. destruct (view_events _ _ _ _). reflexivity.
  - destruct (print_run_spec d calls (ends r) (fst out) (snd out) PL (surjective_pairing _)) as (lost & P1 & P2). exists text, (ends r), lost. split; [apply (pr_aggregate s w files r text A SH)|]. split; [|split; [rewrite <- PA; exact P1|exact P2]].
    clear - A. destruct A; try reflexivity. unfold try. destruct (sure out); reflexivity.
Qed.
(** So success is a promise: everything has arrived.  (For files it is not: C75_success_refuted.) *)
Theorem C85_success : forall d s w c w' arrived, printed_on d s w c w' arrived Success -> prints s w c arrived Success.
Proof.
  intros d s w c w' arrived R. destruct (C85_output _ _ _ _ _ _ _ R) as (text & e0 & lost & P & _ & T & [(<- & ->)|(Q & _)]); [|discriminate]. rewrite app_nil_r in T. subst. exact P.
Qed.
(** A standard output that works gets the whole text, and the program ends as if nothing could fail. *)
Theorem C85_working : forall d s w c w' arrived e, printed_on d s w c w' arrived e -> ~ may_fail d -> prints s w c arrived e.
Proof.
  intros d s w c w' arrived e R NF. destruct (C85_output _ _ _ _ _ _ _ R) as (text & e0 & lost & P & _ & T & [(<- & ->)|(_ & Q)]); [|contradiction]. rewrite app_nil_r in T. subst. exact P.
Qed.
(** Every run on every standard output has an outcome: the text can be written as lines. *)
Definition whole (t : bytes) : Prop := t = [] \/ exists u, t = u ++ [10].
Lemma whole_app a b : whole a -> whole b -> whole (a ++ b).
Proof. intros HA [->|(u & ->)]; [rewrite app_nil_r; exact HA|]. right. exists (a ++ u). rewrite app_assoc. reflexivity. Qed.
Lemma whole_cons a b : whole b -> b <> [] -> whole (a ++ b).
Proof. intros [->|(u & ->)] N; [congruence|]. right. exists (a ++ u). rewrite app_assoc. reflexivity. Qed.
Lemma whole_lines (ls : list bytes) : Forall whole ls -> whole (concat ls).
Proof. induction 1 as [|l ls H _ IH]; [left; reflexivity|]. cbn [concat]. apply whole_app; assumption. Qed.
Lemma whole_event e g : whole (print_event e g).
Proof. unfold print_event, LF. right. eexists. rewrite !app_assoc. reflexivity. Qed.
Lemma whole_view full t g lws text x : view_events full t g lws = (text, x) -> whole text.
Proof.
  revert text x. induction lws as [|l lws IH]; intros text x E; cbn [view_events] in E; [injection E as <- <-; left; reflexivity|]. destruct (match t with Some _ => _ | None => false end); [exact (IH _ _ E)|].
  destruct (full (lw_index l)) as [e| | |]; try (injection E as <- <-; left; reflexivity). destruct (view_events full t g lws) as (text' & x') eqn:V. apply (f_equal fst) in E. cbn [fst] in E. rewrite <- E. apply whole_app; [apply whole_event|exact (IH _ _ eq_refl)].
Qed.
Lemma whole_table {A} (f : A -> bytes) head t : (forall x, whole (f x)) -> whole (head ++ [10] ++ concat (map f t)).
Proof.
  intros H. rewrite app_assoc. apply whole_app; [right; eauto|]. apply whole_lines. apply Forall_forall. intros l Hl. apply in_map_iff in Hl. destruct Hl as (x & <- & _). apply H.
Qed.
Lemma whole_report ties display r : whole (report_text ties display r).
Proof.
  assert (LF1 : whole [10]) by (right; exists []; reflexivity). assert (D : forall which t, whole (duration_lines ties which t)).
  { intros which t. unfold duration_lines. rewrite !(app_assoc which), !(app_assoc (which ++ _)), !(app_assoc ((which ++ _) ++ _)). apply whole_table. intros x. right. eexists. rewrite !app_assoc. reflexivity. }
  assert (V : forall which t, whole (variance_lines ties display which t)).
  { intros which t. unfold variance_lines. rewrite !(app_assoc which), !(app_assoc (which ++ _)), !(app_assoc ((which ++ _) ++ _)). apply whole_table. intros x. right. eexists. rewrite !app_assoc. reflexivity. }
  unfold report_text. repeat (apply whole_app; [first [apply D|apply V|exact LF1]|]). apply V.
Qed.
Lemma whole_printed t : whole t -> exists calls, printed_as t calls.
Proof. intros [->|(u & ->)]; [exists []; split; [reflexivity|constructor]|]. exists [[u ++ [10]]]. split; [cbn; rewrite !app_nil_r; reflexivity|]. constructor; [|constructor]. exists u. cbn. rewrite app_nil_r. reflexivity. Qed.
Lemma whole_prints s w c text e : prints s w c text e -> whole text.
Proof.
  intros [f t text' H|files r text' A H].
  - unfold mmview_cmd, try in H. destruct (open_profile s w f); cbn in H; try discriminate. destruct (sure (pf_iter a)); cbn in H; try discriminate. destruct (iter_min _); [|discriminate]. destruct (view_events _ _ _ _) as (tx & x) eqn:V. cbn in H. injection H as <-. exact (whole_view _ _ _ _ _ _ V).
  - destruct A as [t H0|H0|H0|ps es out H0 H1 (r & _ & ->)|ps H0 H1]; try discriminate H. destruct r; cbn in H; try discriminate. injection H as <-. apply whole_report.
Qed.
Theorem C85_runs : forall d s w c text e, prints s w c text e -> exists arrived e', printed_on d s w c w arrived e'.
Proof.
  intros d s w c text e P. destruct (whole_printed text (whole_prints _ _ _ _ _ P)) as (calls & PA). assert (Q : exists w' arrived e', printed_on d s w c w' arrived e').
  { destruct P as [f t text H|files r text A H]; eexists _, _, _; [exact (po_view d s w f t text calls H PA)|exact (po_aggregate d s w files r text calls A H PA)]. }
  destruct Q as (w' & arrived & e' & Q). destruct (C85_output _ _ _ _ _ _ _ Q) as (_ & _ & _ & _ & -> & _). eauto.
Qed.
(** ** A reader that goes away *)
Lemma room_app a b : room (a ++ b) = room a + room b.
Proof. induction a as [|[n| |] a IH]; cbn [room app]; lia. Qed.
Lemma write_loop_room : forall calls b taken left_ rest, write_loop calls true b = (taken, left_, rest) -> zlen taken + room rest <= room calls.
Proof.
  induction calls as [|c calls IH]; intros b taken left_ rest E; cbn [write_loop] in E; (destruct b as [|x b]; [injection E as <- <- <-; change (zlen (@nil Z)) with 0; lia|]).
  - injection E as <- <- <-. change (zlen (@nil Z)) with 0. lia.
  - set (bb := x :: b) in *. assert (LB : 1 <= zlen bb) by (unfold bb; rewrite zlen_cons; pose proof (zlen_nonneg b); lia). destruct c as [n| |].
    + set (k := Z.max 1 (Z.min n (zlen bb))) in *. destruct (write_loop calls true (zdrop k bb)) as ((t & l) & r) eqn:W. injection E as <- <- <-. apply IH in W. rewrite zlen_app, zlen_ztake by lia. cbn [room]. lia.
    + apply IH in E. cbn [room]. lia.
    + injection E as <- <- <-. change (zlen (@nil Z)) with 0. cbn [room]. lia.
Qed.
Definition within (w w' : bufwriter) : Prop := broken (dev w) = true -> broken (dev w') = true /\ zlen (in_file w') + room (script (dev w')) <= zlen (in_file w) + room (script (dev w)).
Lemma within_refl w : within w w.
Proof. intros H. split; [exact H|lia]. Qed.
Lemma within_trans a b c : within a b -> within b c -> within a c.
Proof. intros H1 H2 B. destruct (H1 B) as (B1 & L1). destruct (H2 B1) as (B2 & L2). split; [exact B2|lia]. Qed.
Lemma loop_within w b taken left_ rest bf : write_loop (script (dev w)) (broken (dev w)) b = (taken, left_, rest) -> within w (mkBw (in_file w ++ taken) bf (mkDev rest (broken (dev w)))).
Proof. intros W B. rewrite B in W. apply write_loop_room in W. cbn [dev in_file script broken]. split; [exact B|]. rewrite zlen_app. lia. Qed.
Lemma flush_within w : within w (fst (flush_buf w)).
Proof. unfold flush_buf. destruct (write_loop _ _ _) as ((t & l) & r) eqn:W. cbn [fst]. eapply loop_within, W. Qed.
Lemma bw_within cap w b : within w (fst (bw_write_all cap w b)).
Proof.
  unfold bw_write_all. destruct (_ <? _); [intros B; cbn; split; [exact B|lia]|]. destruct (if _ <? zlen b then flush_buf w else (w, true)) as (w1 & f1) eqn:F.
  assert (K : within w w1). { destruct (_ <? zlen b); [|injection F as <- <-; apply within_refl]. pose proof (flush_within w) as Q. rewrite F in Q. exact Q. }
  destruct f1; cbn [negb]; [|exact K]. destruct (cap <=? zlen b).
  - destruct (write_loop _ _ b) as ((t & l) & r) eqn:W. cbn [fst]. eapply within_trans; [exact K|]. eapply loop_within, W.
  - cbn [fst]. eapply within_trans; [exact K|]. intros B. cbn. split; [exact B|lia].
Qed.
Lemma line_within w b : within w (fst (line_write_all w b)).
Proof.
  unfold line_write_all. destruct (split_lines b) as (l & t). destruct l as [|c l].
  - destruct (match rev (buffer w) with 10 :: _ => flush_buf w | _ => (w, true) end) as (w1 & f1) eqn:F. assert (K : within w w1).
    { pose proof (flush_within w) as Q. assert (C : (w1, f1) = flush_buf w \/ (w1, f1) = (w, true)). { rewrite <- F. destruct (rev (buffer w)) as [|x r]; [auto|]. destruct x as [|p|p]; auto. repeat (destruct p as [p|p|]; auto). }
      destruct C as [C|C]; [rewrite <- C in Q; exact Q|injection C as -> ->; apply within_refl]. }
    destruct f1; [|exact K]. eapply within_trans; [exact K|apply bw_within].
  - destruct (match buffer w with [] => _ | _ => _ end) as (w1 & f1) eqn:F. assert (K : within w w1).
    { destruct (buffer w) as [|x bf] eqn:B.
      - destruct (write_loop _ _ (c :: l)) as ((tk & lf) & r) eqn:W. injection F as <- <-. eapply loop_within, W.
      - destruct (bw_write_all LINE_CAPACITY w (c :: l)) as (w2 & f2) eqn:W. pose proof (bw_within LINE_CAPACITY w (c :: l)) as Q. rewrite W in Q. cbn [fst] in Q. destruct f2; [|injection F as <- <-; exact Q]. eapply within_trans; [exact Q|]. pose proof (flush_within w2) as Q2. rewrite F in Q2. exact Q2. }
    destruct f1; [|exact K]. eapply within_trans; [exact K|apply bw_within].
Qed.
Lemma pieces_within pieces : forall w, within w (fst (print_pieces w pieces)).
Proof.
  induction pieces as [|b pieces IH]; intros w; cbn [print_pieces]; [apply within_refl|]. pose proof (line_within w b) as Q. destruct (line_write_all w b) as (w1 & f1). cbn [fst] in Q. destruct f1; [eapply within_trans; [exact Q|apply IH]|exact Q].
Qed.
Lemma lines_within calls : forall w, within w (fst (print_lines w calls)).
Proof.
  induction calls as [|l calls IH]; intros w; cbn [print_lines]; [apply within_refl|]. pose proof (pieces_within l w) as Q. destruct (print_pieces w l) as (w1 & f1). cbn [fst] in Q. destruct f1; [eapply within_trans; [exact Q|apply IH]|exact Q].
Qed.
Lemma run_within d calls e : broken d = true -> zlen (fst (print_run d calls e)) <= room (script d).
Proof.
  intros B. unfold print_run. pose proof (lines_within calls (mkBw [] [] d)) as Q. destruct (print_lines (mkBw [] [] d) calls) as (w & fine). cbn [fst dev in_file] in *. destruct (Q B) as (B1 & L). change (zlen (in_file (mkBw [] [] d))) with 0 in L. cbn [dev] in L.
  pose proof (flush_within w B1) as (_ & L2). assert (R0 : forall l, 0 <= room l) by (induction l as [|[n| |] l IH]; cbn [room]; lia). pose proof (R0 (script (dev w))). pose proof (R0 (script (dev (fst (flush_buf w))))). unfold at_exit, bw_drop. destruct (if fine then e else Crash); lia.
Qed.
Lemma aggregate_once s w fs r r' : aggregate_cmd s w fs r -> aggregate_cmd s w fs r' -> r = r'.
Proof.
  intros R R'. destruct R as [t R|R|R|ps es out R I P|ps R I]; destruct R' as [t' R'|R'|R'|ps' es' out' R' I' P'|ps' R' I']; try congruence.
  assert (ps' = ps) by congruence. subst ps'. assert (es' = es) by congruence. subst es'. destruct (Prop_Aggregate2.C35_total (oc s) es) as (r0 & _ & _ & U). destruct P as (r1 & P & ->). destruct P' as (r2 & P' & ->). rewrite (U r1 P), (U r2 P'). reflexivity.
Qed.
(** When the reader goes away before the text is complete (mmview ... | head), at most what it took has arrived and the program panics. *)
Theorem C85_reader_gone : forall d s w c w' arrived e, printed_on d s w c w' arrived e -> broken d = true ->
  zlen arrived <= room (script d) /\
  (forall text e0, prints s w c text e0 -> room (script d) < zlen text -> e = Crash).
Proof.
  intros d s w c w' arrived e R B. assert (L : zlen arrived <= room (script d)) by (destruct R; apply run_within, B). split; [exact L|].
  intros text e0 P LT. destruct (C85_output _ _ _ _ _ _ _ R) as (text' & e1 & lost & P' & _ & T & [(-> & ->)|(Q & _)]); [|exact Q]. exfalso. rewrite app_nil_r in T. subst text'.
  assert (text = arrived); [|subst; lia]. clear - P P'. destruct P as [f t text H|files r text A H].
  - inversion P' as [f' t' text' H'|]; subst. congruence.
  - inversion P' as [|files' r' text' A' H']; subst. pose proof (aggregate_once _ _ _ _ _ A A'). congruence.
Qed.

(** A concrete case, mmview of the damaged profile of ex_C73: the text of thread 1 has 102 bytes.  All arrive when the other side takes three bytes, is
    interrupted and then takes the rest; when it takes three bytes and is gone, three arrive and mmview panics. *)
Example ex_C85 : let w := Prop_Needed.ex_world Prop_Needed.ex_damaged in let c := View Prop_Needed.ex_file (Some 1) in
  prints Prop_Needed.ex_setup w c Prop_Needed.ex_shown Success /\
  printed_on (mkDev [Took 3; Interrupted] false) Prop_Needed.ex_setup w c w Prop_Needed.ex_shown Success /\
  printed_on (mkDev [Took 3; Failed] true) Prop_Needed.ex_setup w c w (str "{" ++ [10] ++ str " ") Crash /\
  printed_on full_disk Prop_Needed.ex_setup w c w [] Crash.
Proof.
  intros w c. destruct Prop_Needed.ex_C73 as (_ & SH & EN & _). assert (P : prints Prop_Needed.ex_setup w c Prop_Needed.ex_shown Success) by (rewrite <- EN; apply pr_view, SH). split; [exact P|].
  assert (AF : after (mmview_cmd Prop_Needed.ex_setup w Prop_Needed.ex_file (Some 1)) = w).
  { unfold mmview_cmd, try. destruct (open_profile _ w _); try reflexivity. destruct (sure (pf_iter a)); cbn [after]; try reflexivity. destruct (iter_min _); [|reflexivity]. destruct (view_events _ _ _ _). reflexivity. }
  assert (PA : printed_as Prop_Needed.ex_shown [[Prop_Needed.ex_shown]]).
  { split; [cbn [map concat]; rewrite !app_nil_r; reflexivity|]. constructor; [|constructor]. exists (ztake (zlen Prop_Needed.ex_shown - 1) Prop_Needed.ex_shown). vm_compute. reflexivity. }
  assert (Q : forall d a e, print_run d [[Prop_Needed.ex_shown]] Success = (a, e) -> printed_on d Prop_Needed.ex_setup w c w a e).
  { intros d a e E. pose proof (po_view d Prop_Needed.ex_setup w Prop_Needed.ex_file (Some 1) Prop_Needed.ex_shown [[Prop_Needed.ex_shown]] SH PA) as R. cbv zeta in R. fold w in EN. rewrite AF, EN, E in R. exact R. }
  split; [apply Q; vm_compute; reflexivity|]. split; apply Q; vm_compute; reflexivity.
Qed.
