(** C81: the command lines of the tools. *)
From Coq Require Import String ZArith List Lia Bool Arith.
From Flocq Require Import BinarySingleNaN.
From Verif Require Import M_Base F_Base M_Map M_Utf8 M_Path M_Float M_Programs M_Cli S_Cli.
Import ListNotations.
Open Scope Z_scope.

(** ** Shapes *)
Lemma shape_plain a : ~ option_like a <-> shape_of a = Plain.
Proof.
  unfold option_like, shape_of. destruct a as [|d [|c r]].
  - split; [reflexivity|intros _ (c & r & E); discriminate].
  - split; [reflexivity|intros _ (c & r & E); discriminate].
  - destruct (d =? 45) eqn:E.
    + apply Z.eqb_eq in E. subst d. split.
      * intros H. exfalso. apply H. eauto.
      * destruct (c =? 45); [destruct r|]; discriminate.
    + split; [reflexivity|]. intros _ (c' & r' & E'). injection E' as -> _ _. discriminate.
Qed.
Lemma shape_long n : n <> [] -> shape_of (str "--" ++ n) = Long n.
Proof. destruct n; [congruence|reflexivity]. Qed.
Lemma shape_short c r : c <> 45 -> shape_of (45 :: c :: r) = Short c r.
Proof. intros H. cbn. apply Z.eqb_neq in H. rewrite H. reflexivity. Qed.
Lemma shape_inv a : match shape_of a with
  | Plain => True | Dashes => a = str "--" | Long n => n <> [] /\ a = str "--" ++ n | Short c r => c <> 45 /\ a = 45 :: c :: r end.
Proof.
  unfold shape_of. destruct a as [|d [|c r]]; try exact I. destruct (d =? 45) eqn:E; [|exact I]. apply Z.eqb_eq in E. subst d.
  destruct (c =? 45) eqn:E2.
  - apply Z.eqb_eq in E2. subst c. destruct r; [reflexivity|]. split; [discriminate|reflexivity].
  - apply Z.eqb_neq in E2. split; [exact E2|reflexivity].
Qed.
Lemma split_none n : ~ In 61 n -> split_equals n = (n, None).
Proof.
  induction n as [|c n IH]; intros H; [reflexivity|]. cbn. destruct (c =? 61) eqn:E.
  - apply Z.eqb_eq in E. subst. exfalso. apply H. left. reflexivity.
  - rewrite IH by (intros X; apply H; right; exact X). reflexivity.
Qed.
Lemma split_some n v : ~ In 61 n -> split_equals (n ++ str "=" ++ v) = (n, Some v).
Proof.
  induction n as [|c n IH]; intros H; [reflexivity|]. cbn [app split_equals]. destruct (c =? 61) eqn:E.
  - apply Z.eqb_eq in E. subst. exfalso. apply H. left. reflexivity.
  - rewrite IH by (intros X; apply H; right; exact X). reflexivity.
Qed.
Lemma split_inv b : match split_equals b with (n, None) => b = n | (n, Some v) => b = n ++ str "=" ++ v end.
Proof.
  induction b as [|c b IH]; [reflexivity|]. cbn [split_equals]. destruct (c =? 61) eqn:E.
  - apply Z.eqb_eq in E. subst. reflexivity.
  - destruct (split_equals b) as [n [v|]]; cbn [app]; rewrite IH; reflexivity.
Qed.
Lemma find_long_in g o : wf_grammar g -> In o (g_options g) -> find_long g (o_long o) = Some o.
Proof.
  intros W H. unfold find_long. destruct (find _ _) as [o'|] eqn:E.
  - apply find_some in E. destruct E as [I E]. apply beq_true in E. f_equal. apply (wf_long g W); assumption.
  - apply find_none with (x := o) in E; [|exact H]. rewrite beq_refl in E. discriminate.
Qed.
Lemma find_short_in g o c : wf_grammar g -> In o (g_options g) -> o_short o = Some c -> find_short g c = Some o.
Proof.
  intros W H Hc. unfold find_short. destruct (find _ _) as [o'|] eqn:E.
  - apply find_some in E. destruct E as [I E]. destruct (o_short o') as [c'|] eqn:E'; [|discriminate]. apply Z.eqb_eq in E. subst c'.
    f_equal. apply (wf_short g W) with (c := c); assumption.
  - apply find_none with (x := o) in E; [|exact H]. cbn in E. rewrite Hc, Z.eqb_refl in E. discriminate.
Qed.
Lemma find_long_inv g n o : find_long g n = Some o -> In o (g_options g) /\ o_long o = n.
Proof. intros E. apply find_some in E. destruct E as [I E]. apply beq_true in E. auto. Qed.
Lemma find_short_inv g c o : find_short g c = Some o -> In o (g_options g) /\ o_short o = Some c.
Proof.
  intros E. apply find_some in E. destruct E as [I E]. destruct (o_short o) as [c'|]; [|discriminate]. apply Z.eqb_eq in E. subst. auto.
Qed.

(** ** Steps of the scan *)
Definition add (g : grammar) (before : list piece) (p : piece) (r : scanned) : scanned :=
  if acceptable g before p then match r with Pieces l => Pieces (p :: l) | x => x end else Bad.
Lemma add_pieces g before p r ps : add g before p r = Pieces ps <->
  exists ps', ps = p :: ps' /\ acceptable g before p = true /\ r = Pieces ps'.
Proof.
  unfold add. destruct (acceptable g before p).
  - destruct r as [| |l]; split; try discriminate; try (intros (ps' & _ & _ & E); discriminate).
    + intros E. injection E as <-. exists l. auto.
    + intros (ps' & -> & _ & E). injection E as ->. reflexivity.
  - split; [discriminate|]. intros (ps' & _ & E & _). discriminate.
Qed.
Lemma scan_spelled g before p a args : wf_grammar g -> spelled g p a ->
  scan g before false (a ++ args) = add g before p (scan g (before ++ [p]) false args).
Proof.
  intros W H. destruct H as [w Hw|o Ho Hf|o v Ho Hf|o v Ho Hf Hv|o c v Ho Hc Hv|o c v Ho Hc|o c x v Ho Hc Hx]; cbn [app].
  - apply shape_plain in Hw. cbn [scan]. rewrite Hw. reflexivity.
  - destruct (wf_name g W o Ho) as (N1 & N2 & N3). cbn [scan]. rewrite (shape_long _ N2), (split_none _ N1).
    rewrite (proj2 (beq_false (o_long o) HELP) N3), (find_long_in g o W Ho), Hf. reflexivity.
  - destruct (wf_name g W o Ho) as (N1 & N2 & N3). cbn [scan]. rewrite shape_long by (destruct (o_long o); [congruence|discriminate]).
    rewrite (split_some _ _ N1), (proj2 (beq_false (o_long o) HELP) N3), (find_long_in g o W Ho).
    destruct (o_arity o); [congruence|reflexivity|reflexivity].
  - destruct (wf_name g W o Ho) as (N1 & N2 & N3). cbn [scan]. rewrite (shape_long _ N2), (split_none _ N1).
    rewrite (proj2 (beq_false (o_long o) HELP) N3), (find_long_in g o W Ho). apply shape_plain in Hv. rewrite Hv.
    destruct (o_arity o); [congruence|reflexivity|reflexivity].
  - destruct (wf_letter g W o c Ho Hc) as (N1 & N2 & N3). apply shape_plain in Hv. cbn [scan]. rewrite (shape_short c [] N2).
    rewrite (proj2 (Z.eqb_neq _ _) N1), (find_short_in g o c W Ho Hc), Hv. reflexivity.
  - destruct (wf_letter g W o c Ho Hc) as (N1 & N2 & N3). cbn [scan]. rewrite (shape_short c _ N2).
    rewrite (proj2 (Z.eqb_neq _ _) N1), (find_short_in g o c W Ho Hc). reflexivity.
  - destruct (wf_letter g W o c Ho Hc) as (N1 & N2 & N3). cbn [scan]. rewrite (shape_short c _ N2).
    rewrite (proj2 (Z.eqb_neq _ _) N1), (find_short_in g o c W Ho Hc). cbn [after_equals].
    rewrite (proj2 (Z.eqb_neq _ _) Hx). reflexivity.
Qed.
Lemma scan_cases g before a args : wf_grammar g ->
  scan g before false (a :: args) = Bad \/
  (a = str "--" /\ scan g before false (a :: args) = scan g before true args) \/
  (asks_help a /\ scan g before false (a :: args) = ShowHelp) \/
  exists p args' rest, a :: args = args' ++ rest /\ args' <> [] /\ spelled g p args' /\
    scan g before false (a :: args) = add g before p (scan g (before ++ [p]) false rest).
Proof.
  intros W.
  assert (K : forall p args' rest, a :: args = args' ++ rest -> args' <> [] -> spelled g p args' ->
    exists p args' rest, a :: args = args' ++ rest /\ args' <> [] /\ spelled g p args' /\
    scan g before false (a :: args) = add g before p (scan g (before ++ [p]) false rest)).
  { intros p args' rest E N Sp. exists p, args', rest. split; [exact E|]. split; [exact N|]. split; [exact Sp|].
    rewrite E. apply scan_spelled; assumption. }
  pose proof (shape_inv a) as SH. destruct (shape_of a) as [| |nv|c att] eqn:SA.
  - right; right; right. apply (K (Word a) [a] args); [reflexivity|discriminate|]. apply sp_word, shape_plain. exact SA.
  - right; left. split; [exact SH|]. rewrite SH. reflexivity.
  - destruct SH as [SN SE]. pose proof (split_inv nv) as SI. destruct (split_equals nv) as [n v] eqn:SQ.
    pose proof (eq_refl (scan g before false (a :: args))) as HS. set (r := scan g before false (a :: args)) in HS at 1. cbn [scan] in HS. rewrite SA, SQ in HS. destruct (beq n HELP) eqn:BH.
    { destruct v as [v|]; [left; exact HS|]. right; right; left. split; [|exact HS]. left. apply beq_true in BH. subst. reflexivity. }
    destruct (find_long g n) as [o|] eqn:FL; [|left; exact HS].
    apply find_long_inv in FL. destruct FL as [Io <-]. destruct v as [v|].
    + destruct (o_arity o) eqn:AR.
      * left. exact HS.
      * right; right; right. apply (K (Valued (o_long o) v) [a] args); [reflexivity|discriminate|].
        rewrite SE, SI. apply sp_equals; [exact Io|congruence].
      * right; right; right. apply (K (Valued (o_long o) v) [a] args); [reflexivity|discriminate|].
        rewrite SE, SI. apply sp_equals; [exact Io|congruence].
    + subst nv. destruct (o_arity o) eqn:AR.
      * right; right; right. apply (K (Flagged (o_long o)) [a] args); [reflexivity|discriminate|]. rewrite SE. apply sp_flag; assumption.
      * destruct args as [|v args]; [left; exact HS|]. destruct (shape_of v) eqn:SV; try (left; exact HS).
        right; right; right. apply (K (Valued (o_long o) v) [a; v] args); [reflexivity|discriminate|]. rewrite SE.
        apply sp_next; [exact Io|rewrite AR; discriminate|apply shape_plain; exact SV].
      * destruct args as [|v args]; [left; exact HS|]. destruct (shape_of v) eqn:SV; try (left; exact HS).
        right; right; right. apply (K (Valued (o_long o) v) [a; v] args); [reflexivity|discriminate|]. rewrite SE.
        apply sp_next; [exact Io|rewrite AR; discriminate|apply shape_plain; exact SV].
  - destruct SH as [NC SE].
    pose proof (eq_refl (scan g before false (a :: args))) as HS. set (r := scan g before false (a :: args)) in HS at 1. cbn [scan] in HS. rewrite SA in HS. destruct (c =? 104) eqn:EC.
    { right; right; left. split; [|exact HS]. right. exists att. apply Z.eqb_eq in EC. subst. reflexivity. }
    destruct (find_short g c) as [o|] eqn:FS; [|left; exact HS].
    apply find_short_inv in FS. destruct FS as [Io Ic]. destruct att as [|x att].
    + destruct args as [|v args]; [left; exact HS|]. destruct (shape_of v) eqn:SV; try (left; exact HS).
      right; right; right. apply (K (Valued (o_long o) v) [a; v] args); [reflexivity|discriminate|]. rewrite SE.
      apply sp_short_next; [exact Io|exact Ic|apply shape_plain; exact SV].
    + right; right; right. rewrite SE in K |- *. destruct (x =? 61) eqn:EX.
      * apply Z.eqb_eq in EX. subst x. apply (K (Valued (o_long o) att) [45 :: c :: 61 :: att] args); [reflexivity|discriminate|].
        apply sp_short_equals; assumption.
      * apply Z.eqb_neq in EX. apply (K (Valued (o_long o) (x :: att)) [45 :: c :: x :: att] args); [reflexivity|discriminate|].
        apply sp_short; assumption.
Qed.
Lemma scan_step g before a args ps : wf_grammar g -> scan g before false (a :: args) = Pieces ps ->
  (a = str "--" /\ scan g before true args = Pieces ps) \/
  exists p args' rest ps', a :: args = args' ++ rest /\ args' <> [] /\ spelled g p args' /\ ps = p :: ps' /\ acceptable g before p = true /\
    scan g (before ++ [p]) false rest = Pieces ps'.
Proof.
  intros W H. destruct (scan_cases g before a args W) as [E|[[E E']|[[E E']|(p & a' & rest & E1 & E2 & Sp & E')]]].
  - congruence.
  - left. split; [exact E|]. congruence.
  - congruence.
  - right. rewrite E' in H. apply add_pieces in H. destruct H as (ps' & -> & A & H). exists p, a', rest, ps'. auto 10.
Qed.
Fixpoint all_ok (g : grammar) (before ps : list piece) : Prop :=
  match ps with [] => True | p :: ps' => acceptable g before p = true /\ all_ok g (before ++ [p]) ps' end.
Lemma scan_words g : forall args before ps, scan g before true args = Pieces ps <-> ps = map Word args /\ all_ok g before (map Word args).
Proof.
  induction args as [|a args IH]; intros before ps.
  - cbn. split; [intros E; injection E as <-; auto|intros [-> _]; reflexivity].
  - cbn [scan map all_ok]. change (add g before (Word a) (scan g (before ++ [Word a]) true args) = Pieces ps <->
      ps = Word a :: map Word args /\ acceptable g before (Word a) = true /\ all_ok g (before ++ [Word a]) (map Word args)).
    rewrite add_pieces. split.
    + intros (ps' & -> & A & H). apply IH in H. destruct H as [-> H]. auto.
    + intros (-> & A & H). exists (map Word args). split; [reflexivity|]. split; [exact A|]. apply IH. auto.
Qed.
Lemma scan_spec g : wf_grammar g -> forall k args, (List.length args <= k)%nat -> forall before ps,
  scan g before false args = Pieces ps <-> typed g ps args /\ all_ok g before ps.
Proof.
  intros W. induction k as [|k IH]; intros args L before ps.
  { destruct args; [|cbn in L; lia]. cbn. split.
    - intros E. injection E as <-. split; [constructor|exact I].
    - intros [T _]. inversion T as [|ws|p a ps0 args0 Sp T' E1 E2]; [reflexivity|]. destruct Sp; discriminate. }
  split.
  - intros H. destruct args as [|a args]. { cbn in H. injection H as <-. split; [constructor|exact I]. }
    apply (scan_step g before a args ps W) in H. destruct H as [(-> & H)|(p & a' & rest & ps' & E & N & Sp & -> & A & H)].
    + apply scan_words in H. destruct H as [-> H]. split; [constructor|exact H].
    + assert (List.length rest <= k)%nat.
      { destruct a' as [|x a']; [congruence|]. apply (f_equal (@List.length _)) in E. cbn in E, L. rewrite app_length in E. unfold bytes in *. lia. }
      apply (IH rest H0) in H. destruct H as [T O]. split; [rewrite E; constructor; assumption|]. cbn. auto.
  - intros [T O]. inversion T as [|ws E1 E2|p a ps0 args0 Sp T' E1 E2]; subst; [reflexivity| |].
    + change (scan g before true ws = Pieces (map Word ws)). apply scan_words. auto.
    + rewrite (scan_spelled g before p a args0 W Sp). apply add_pieces. destruct O as [A O]. exists ps0. split; [reflexivity|].
      split; [exact A|]. apply IH; [|auto]. destruct Sp; cbn in L; unfold bytes in *; lia.
Qed.

(** ** The checks *)
Definition known (g : grammar) (ps : list piece) : Prop :=
  (forall n v, In (Valued n v) ps -> exists o, In o (g_options g) /\ o_long o = n /\ o_arity o <> Flag) /\
  (forall n, In (Flagged n) ps -> exists o, In o (g_options g) /\ o_long o = n /\ o_arity o = Flag).
Lemma typed_known g ps args : wf_grammar g -> typed g ps args -> known g ps.
Proof.
  intros W T. induction T as [|ws|p a ps args Sp T [K1 K2]].
  - split; [intros n v []|intros n []].
  - split; [intros n v H|intros n H]; apply in_map_iff in H; destruct H as (w & E & _); discriminate.
  - split; [intros n v [E|H]|intros n [E|H]]; [|exact (K1 n v H)| |exact (K2 n H)].
    + destruct Sp; try discriminate; injection E as <- _; exists o; (split; [assumption|]); (split; [reflexivity|]); try assumption;
        match goal with H : o_short _ = Some _ |- _ => apply (wf_letter g W o c) in H; tauto end.
    + destruct Sp; try discriminate. injection E as <-. exists o. auto.
Qed.
Lemma all_ok_snoc g p : forall ps before, all_ok g before (ps ++ [p]) <-> all_ok g before ps /\ acceptable g (before ++ ps) p = true.
Proof.
  induction ps as [|q ps IH]; intros before; cbn [app all_ok].
  - rewrite app_nil_r. tauto.
  - rewrite IH, <- app_assoc. cbn [app]. tauto.
Qed.
Lemma words_app a b : words (a ++ b) = words a ++ words b.
Proof. apply flat_map_app. Qed.
Lemma values_app n a b : values n (a ++ b) = values n a ++ values n b.
Proof. apply flat_map_app. Qed.
Lemma flags_app n a b : flags n (a ++ b) = flags n a ++ flags n b.
Proof. apply flat_map_app. Qed.
Lemma in_values n v ps : In v (values n ps) <-> In (Valued n v) ps.
Proof.
  unfold values. rewrite in_flat_map. split.
  - intros (p & I & H). destruct p as [w|n'|n' v']; try destruct H. destruct (beq n' n) eqn:E; [|destruct H]. apply beq_true in E.
    destruct H as [<-|[]]. subst. exact I.
  - intros I. exists (Valued n v). split; [exact I|]. cbn. rewrite beq_refl. left. reflexivity.
Qed.
Lemma in_flags n ps : flags n ps <> [] <-> In (Flagged n) ps.
Proof.
  unfold flags. induction ps as [|p ps IH]; [split; [intros H; exfalso; apply H; reflexivity|intros []]|]. cbn [flat_map].
  destruct p as [w|n'|n' v']; cbn [app].
  - rewrite IH. split; [intros H; right; exact H|intros [E|H]; [discriminate|exact H]].
  - destruct (beq n' n) eqn:E.
    + apply beq_true in E. subst. split; [intros _; left; reflexivity|discriminate].
    + cbn [app]. rewrite IH. split; [intros H; right; exact H|intros [E'|H]; [|exact H]].
      injection E' as ->. rewrite beq_refl in E. discriminate.
  - rewrite IH. split; [intros H; right; exact H|intros [E|H]; [discriminate|exact H]].
Qed.
Lemma in_words w ps : In w (words ps) <-> In (Word w) ps.
Proof.
  unfold words. rewrite in_flat_map. split.
  - intros (p & I & H). destruct p as [w'|n'|n' v']; try destruct H. subst. exact I. destruct H.
  - intros I. exists (Word w). split; [exact I|]. left. reflexivity.
Qed.
Lemma filter_nil n ps : filter (named n) ps = [] <-> values n ps = [] /\ flags n ps = [].
Proof.
  induction ps as [|p ps IH]; [cbn; tauto|]. destruct p as [w|n'|n' v]; cbn; try exact IH.
  - destruct (beq n' n); cbn; [split; [discriminate|intros [_ E]; discriminate]|exact IH].
  - destruct (beq n' n); cbn; [split; [discriminate|intros [E _]; discriminate]|exact IH].
Qed.
Lemma filter_len_snoc n ps p : zlen (filter (named n) (ps ++ [p])) = zlen (filter (named n) ps) + (if named n p then 1 else 0).
Proof. rewrite filter_app, zlen_app. cbn [filter]. destruct (named n p); reflexivity. Qed.
Lemma known_app g ps p : known g (ps ++ [p]) -> known g ps.
Proof. intros [K1 K2]. split; [intros n v H; apply (K1 n v)|intros n H; apply K2]; apply in_or_app; left; exact H. Qed.
Lemma filter_values g n ps o : wf_grammar g -> known g ps -> In o (g_options g) -> o_long o = n -> o_arity o <> Flag -> flags n ps = [].
Proof.
  intros W K Io E A. destruct (flags n ps) eqn:F; [reflexivity|]. exfalso. assert (X : In (Flagged n) ps) by (apply in_flags; rewrite F; discriminate).
  destruct (proj2 K _ X) as (o' & I' & E' & A'). assert (o = o') by (apply (wf_long g W); [assumption|assumption|congruence]). subst. congruence.
Qed.
Lemma filter_flags g n ps o : wf_grammar g -> known g ps -> In o (g_options g) -> o_long o = n -> o_arity o = Flag -> values n ps = [].
Proof.
  intros W K Io E A. destruct (values n ps) as [|v l] eqn:F; [reflexivity|]. exfalso.
  assert (X : In (Valued n v) ps) by (apply in_values; rewrite F; left; reflexivity).
  destruct (proj1 K _ _ X) as (o' & I' & E' & A'). assert (o = o') by (apply (wf_long g W); [assumption|assumption|congruence]). subst. congruence.
Qed.
Lemma zlen_le0 {A} (l : list A) : zlen l <= 0 <-> l = [].
Proof. destruct l; [split; [reflexivity|intros _; cbv; discriminate]|]. rewrite zlen_cons. pose proof (zlen_nonneg l). split; [lia|discriminate]. Qed.
Lemma allowed_snoc g ps p : wf_grammar g -> known g (ps ++ [p]) -> (allowed g (ps ++ [p]) <-> allowed g ps /\ acceptable g ps p = true).
Proof.
  intros W K. pose proof (known_app g ps p K) as K0. destruct p as [w|n|n v].
  - cbn [acceptable]. split.
    + intros [A1 A2 A3 A4]. rewrite words_app in A1, A2. cbn [words flat_map app] in A1, A2. split.
      * split.
        -- intros H. apply A1, in_or_app. left. exact H.
        -- intros n E. specialize (A2 n E). rewrite zlen_app in A2. change (zlen [w]) with 1 in A2. lia.
        -- intros o v Io H. apply A3; [exact Io|]. apply in_or_app. left. exact H.
        -- intros o Io M. specialize (A4 o Io M). rewrite filter_len_snoc in A4. cbn [named] in A4. lia.
      * apply andb_true_intro. split.
        -- apply negb_true_iff, beq_false. intros ->. apply A1, in_or_app. right. left. reflexivity.
        -- destruct (g_words g) as [n|]; [|reflexivity]. specialize (A2 n eq_refl). rewrite zlen_app in A2. change (zlen [w]) with 1 in A2. apply Z.ltb_lt. lia.
    + intros [[A1 A2 A3 A4] B]. apply andb_true_iff in B. destruct B as [B1 B2]. apply negb_true_iff, beq_false in B1. split.
      * rewrite words_app. intros H. apply in_app_or in H. destruct H as [H|[E|[]]]; [exact (A1 H)|congruence].
      * intros n E. rewrite words_app, zlen_app. change (zlen (words [Word w])) with 1. rewrite E in B2. apply Z.ltb_lt in B2. lia.
      * intros o v Io H. apply in_app_or in H. destruct H as [H|[E|[]]]; [exact (A3 o v Io H)|discriminate].
      * intros o Io M. rewrite filter_len_snoc. cbn [named]. specialize (A4 o Io M). lia.
  - destruct (proj2 K n) as (o & Io & En & Af). { apply in_or_app. right. left. reflexivity. }
    pose proof (filter_flags g n ps o W K0 Io En Af) as NV. cbn [acceptable]. split.
    + intros [A1 A2 A3 A4]. rewrite words_app in A1, A2. cbn [words flat_map app] in A1, A2. rewrite app_nil_r in A1, A2. split.
      * split; [exact A1|exact A2| |].
        -- intros o' v Io' H. apply A3; [exact Io'|]. apply in_or_app. left. exact H.
        -- intros o' Io' M. specialize (A4 o' Io' M). rewrite filter_len_snoc in A4. destruct (named (o_long o') (Flagged n)); lia.
      * assert (M : o_arity o <> Many) by congruence. specialize (A4 o Io M). rewrite filter_len_snoc in A4. cbn [named] in A4.
        rewrite En, beq_refl in A4. assert (Z0 : zlen (filter (named n) ps) <= 0) by lia. apply zlen_le0, filter_nil in Z0. destruct Z0 as [_ ->]. reflexivity.
    + intros [[A1 A2 A3 A4] B]. split.
      * rewrite words_app. cbn [words flat_map app]. rewrite app_nil_r. exact A1.
      * rewrite words_app. cbn [words flat_map app]. rewrite app_nil_r. exact A2.
      * intros o' v Io' H. apply in_app_or in H. destruct H as [H|[E|[]]]; [exact (A3 o' v Io' H)|discriminate].
      * intros o' Io' M. rewrite filter_len_snoc. cbn [named]. destruct (beq n (o_long o')) eqn:EB.
        -- apply beq_true in EB. rewrite <- EB. destruct (flags n ps) eqn:F; [|discriminate]. rewrite (proj2 (filter_nil n ps) (conj NV F)). cbv. discriminate.
        -- specialize (A4 o' Io' M). lia.
  - destruct (proj1 K n v) as (o & Io & En & Af). { apply in_or_app. right. left. reflexivity. }
    pose proof (filter_values g n ps o W K0 Io En Af) as NF. cbn [acceptable]. rewrite <- En at 2. rewrite (find_long_in g o W Io). split.
    + intros [A1 A2 A3 A4]. rewrite words_app in A1, A2. cbn [words flat_map app] in A1, A2. rewrite app_nil_r in A1, A2. split.
      * split; [exact A1|exact A2| |].
        -- intros o' v' Io' H. apply A3; [exact Io'|]. apply in_or_app. left. exact H.
        -- intros o' Io' M. specialize (A4 o' Io' M). rewrite filter_len_snoc in A4. destruct (named (o_long o') (Valued n v)); lia.
      * apply andb_true_intro. split.
        -- apply A3; [exact Io|]. apply in_or_app. right. left. rewrite En. reflexivity.
        -- assert (X : o_arity o <> Many -> match values n ps with [] => true | _ => false end = true).
           { intros M. specialize (A4 o Io M). rewrite filter_len_snoc in A4. cbn [named] in A4.
             rewrite En, beq_refl in A4. assert (Z0 : zlen (filter (named n) ps) <= 0) by lia. apply zlen_le0, filter_nil in Z0. destruct Z0 as [-> _]. reflexivity. }
           destruct (o_arity o); [apply X; discriminate|apply X; discriminate|reflexivity].
    + intros [[A1 A2 A3 A4] B]. apply andb_true_iff in B. destruct B as [B1 B2]. split.
      * rewrite words_app. cbn [words flat_map app]. rewrite app_nil_r. exact A1.
      * rewrite words_app. cbn [words flat_map app]. rewrite app_nil_r. exact A2.
      * intros o' v' Io' H. apply in_app_or in H. destruct H as [H|[E|[]]]; [exact (A3 o' v' Io' H)|]. injection E as E1 E2.
        assert (o = o') by (apply (wf_long g W); [assumption|assumption|congruence]). subst. exact B1.
      * intros o' Io' M. rewrite filter_len_snoc. cbn [named]. destruct (beq n (o_long o')) eqn:EB.
        -- apply beq_true in EB. assert (o = o') by (apply (wf_long g W); [assumption|assumption|congruence]). subst o'. rewrite En.
           assert (X : values n ps = []).
           { destruct (o_arity o) eqn:AR; [congruence| |congruence]. destruct (values n ps); [reflexivity|discriminate]. }
           rewrite (proj2 (filter_nil n ps) (conj X NF)). cbv. discriminate.
        -- specialize (A4 o' Io' M). lia.
Qed.
Lemma all_ok_allowed g ps : wf_grammar g -> known g ps -> (all_ok g [] ps <-> allowed g ps).
Proof.
  intros W. induction ps as [|p ps IH] using rev_ind; intros K.
  - split; [|intros _; exact I]. intros _. split.
    + intros [].
    + intros n E. change (0 <= n). exact (wf_max g W n E).
    + intros o v _ [].
    + intros o _ _. cbv. discriminate.
  - rewrite all_ok_snoc, (allowed_snoc g ps p W K), (IH (known_app g ps p K)). cbn [app]. tauto.
Qed.

Theorem C81_accepts : forall g args ps, wf_grammar g ->
  (scan g [] false args = Pieces ps <-> typed g ps args /\ allowed g ps).
Proof.
  intros g args ps W. rewrite (scan_spec g W (List.length args) args (le_n _)). split; intros [T O].
  - split; [exact T|]. apply all_ok_allowed; [exact W|exact (typed_known g ps args W T)|exact O].
  - split; [exact T|]. apply all_ok_allowed; [exact W|exact (typed_known g ps args W T)|exact O].
Qed.

Lemma scan_words_no_help g : forall args before, scan g before true args <> ShowHelp.
Proof.
  induction args as [|a args IH]; intros before; [discriminate|]. cbn [scan]. destruct (acceptable _ _ _); [|discriminate].
  specialize (IH (before ++ [Word a])). destruct (scan g (before ++ [Word a]) true args); congruence.
Qed.
Lemma spelled_length g p a : spelled g p a -> (1 <= List.length a)%nat.
Proof. intros []; cbn; lia. Qed.
Lemma entered_known g ps args : wf_grammar g -> entered g ps args -> known g ps.
Proof.
  intros W T. apply (typed_known g ps args W). induction T; [constructor|constructor; assumption].
Qed.
Lemma scan_help g : wf_grammar g -> forall k args, (List.length args <= k)%nat -> forall before,
  scan g before false args = ShowHelp <-> exists ps pre h post, args = pre ++ h :: post /\ entered g ps pre /\ all_ok g before ps /\ asks_help h.
Proof.
  intros W. induction k as [|k IH]; intros args L before.
  { destruct args; [|cbn in L; lia]. split; [discriminate|]. intros (ps & pre & h & post & E & _). destruct pre; discriminate. }
  split.
  - intros H. destruct args as [|a args]; [discriminate|].
    destruct (scan_cases g before a args W) as [E|[[E E']|[[E E']|(p & a' & rest & E1 & E2 & Sp & E')]]].
    + congruence.
    + rewrite E' in H. apply scan_words_no_help in H. destruct H.
    + exists [], [], a, args. split; [reflexivity|]. split; [constructor|]. split; [exact I|exact E].
    + rewrite E' in H. unfold add in H. destruct (acceptable g before p) eqn:A; [|discriminate].
      assert (LR : (List.length rest <= k)%nat).
      { apply (f_equal (@List.length _)) in E1. cbn in E1, L. rewrite app_length in E1. apply spelled_length in Sp. unfold bytes in *. lia. }
      destruct (scan g (before ++ [p]) false rest) eqn:HR; try discriminate.
      apply (IH rest LR) in HR. destruct HR as (ps & pre & h & post & E & En & O & Hh).
      exists (p :: ps), (a' ++ pre), h, post. split; [rewrite E1, E, app_assoc; reflexivity|]. split; [constructor; assumption|].
      split; [cbn; auto|exact Hh].
  - intros (ps & pre & h & post & E & En & O & Hh). destruct En as [|p a ps args' Sp En].
    + cbn [app] in E. subst args. destruct Hh as [->|(r & ->)]; reflexivity.
    + rewrite <- app_assoc in E. subst args. rewrite (scan_spelled g before p a _ W Sp). destruct O as [A O]. unfold add. rewrite A.
      assert (HR : scan g (before ++ [p]) false (args' ++ h :: post) = ShowHelp).
      { apply IH. - rewrite app_length in L. apply spelled_length in Sp. unfold bytes in *. lia.
        - exists ps, args', h, post. auto. }
      rewrite HR. reflexivity.
Qed.
Lemma scan_helped g args : wf_grammar g -> (scan g [] false args = ShowHelp <-> helped g args).
Proof.
  intros W. rewrite (scan_help g W (List.length args) args (le_n _)). split; intros (ps & pre & h & post & E & En & O & Hh); exists ps, pre, h, post;
    (split; [exact E|]); (split; [exact En|]); (split; [|exact Hh]); apply (all_ok_allowed g ps W (entered_known g ps pre W En)); exact O.
Qed.

(** ** Numbers *)
Lemma digits_spec : forall b acc n, digits b acc = Some n <->
  exists ds, Forall (fun d => 0 <= d <= 9) ds /\ b = map (fun d => 48 + d) ds /\ n = fold_left (fun a d => 10 * a + d) ds acc.
Proof.
  induction b as [|c b IH]; intros acc n; cbn [digits].
  - split.
    + intros E. injection E as <-. exists []. auto.
    + intros (ds & _ & E & ->). destruct ds; [reflexivity|discriminate].
  - destruct ((48 <=? c) && (c <=? 57)) eqn:B.
    + apply andb_true_iff in B. destruct B as [B1 B2]. apply Z.leb_le in B1, B2. rewrite IH. split.
      * intros (ds & F & -> & ->). exists ((c - 48) :: ds). split; [constructor; [lia|exact F]|]. split; [cbn; f_equal; lia|reflexivity].
      * intros (ds & F & E & ->). destruct ds as [|d ds]; [discriminate|]. cbn in E. injection E as -> ->.
        inversion F; subst. exists ds. split; [assumption|]. split; [reflexivity|]. cbn [fold_left]. f_equal. lia.
    + split; [discriminate|]. intros (ds & F & E & _). destruct ds as [|d ds]; [discriminate|]. cbn in E. injection E as -> _.
      inversion F; subst. exfalso. apply andb_false_iff in B. destruct B as [B|B]; apply Z.leb_gt in B; lia.
Qed.
Lemma unsigned_spec b n : unsigned b = Some n <-> exists ds, number ds n /\ b = map (fun d => 48 + d) ds.
Proof.
  unfold unsigned. destruct b as [|c b].
  - split; [discriminate|]. intros (ds & (N & _) & E). destruct ds; [congruence|discriminate].
  - rewrite digits_spec. split.
    + intros (ds & F & E & ->). exists ds. split; [|exact E]. split; [intros ->; discriminate|]. auto.
    + intros (ds & (N & F & ->) & E). exists ds. auto.
Qed.
Lemma number_nonneg ds n : number ds n -> 0 <= n.
Proof.
  intros (_ & F & ->). assert (G : forall ds acc, 0 <= acc -> Forall (fun d => 0 <= d <= 9) ds -> 0 <= fold_left (fun a d => 10 * a + d) ds acc).
  { clear. induction ds as [|d ds IH]; intros acc A F; [exact A|]. cbn. inversion F; subst. apply IH; [lia|assumption]. }
  apply G; [lia|exact F].
Qed.
Lemma digit_first ds n : number ds n -> forall c, In c (map (fun d => 48 + d) ds) -> 48 <= c <= 57.
Proof. intros (_ & F & _) c H. apply in_map_iff in H. destruct H as (d & <- & H). rewrite Forall_forall in F. specialize (F d H). lia. Qed.
Lemma sign_spec b : match sign b with
  | (Some true, r) => b = str "+" ++ r | (Some false, r) => b = str "-" ++ r | (None, r) => b = r /\ (forall x, hd_error b = Some x -> x <> 43 /\ x <> 45) end.
Proof.
  unfold sign. destruct b as [|c r]; [split; [reflexivity|discriminate]|]. destruct (c =? 43) eqn:E.
  - apply Z.eqb_eq in E. subst. reflexivity.
  - apply Z.eqb_neq in E. destruct (c =? 45) eqn:E2.
    + apply Z.eqb_eq in E2. subst. reflexivity.
    + apply Z.eqb_neq in E2. split; [reflexivity|]. intros x Ex. injection Ex as <-. auto.
Qed.
Lemma sign_digits ds n : number ds n -> sign (map (fun d => 48 + d) ds) = (None, map (fun d => 48 + d) ds).
Proof.
  intros N. pose proof (digit_first ds n N) as D. destruct ds as [|d ds]; [reflexivity|]. specialize (D (48 + d) (or_introl eq_refl)).
  unfold sign. cbn [map]. rewrite (proj2 (Z.eqb_neq (48 + d) 43)) by lia. rewrite (proj2 (Z.eqb_neq (48 + d) 45)) by lia. reflexivity.
Qed.
Lemma unsigned_number ds n : number ds n -> unsigned (map (fun d => 48 + d) ds) = Some n.
Proof. intros N. apply unsigned_spec. eauto. Qed.
Lemma read_u128_spec v n : read_u128 v = Some n <-> numeral v n /\ n < 2 ^ 128.
Proof.
  unfold read_u128, numeral. split.
  - pose proof (sign_spec v) as SS. destruct (sign v) as [[[|]|] r].
    + destruct (unsigned r) as [m|] eqn:U; [|discriminate]. destruct (m <? 2 ^ 128) eqn:L; [|discriminate]. intros E. injection E as ->.
      apply Z.ltb_lt in L. split; [|exact L]. apply unsigned_spec in U. destruct U as (ds & N & ->). exists (str "+"), ds. auto.
    + discriminate.
    + destruct (unsigned r) as [m|] eqn:U; [|discriminate]. destruct (m <? 2 ^ 128) eqn:L; [|discriminate]. intros E. injection E as ->.
      apply Z.ltb_lt in L. split; [|exact L]. apply unsigned_spec in U. destruct U as (ds & N & ->). destruct SS as [-> _]. exists [], ds. auto.
  - intros [(s & ds & Hs & N & ->) L]. apply Z.ltb_lt in L. destruct Hs as [->| ->].
    + cbn [app]. rewrite (sign_digits ds n N); cbv beta iota; rewrite (unsigned_number ds n N), L. reflexivity.
    + change (sign (str "+" ++ map (fun d => 48 + d) ds)) with (Some true, map (fun d => 48 + d) ds). cbv beta iota. rewrite (unsigned_number ds n N), L. reflexivity.
Qed.
Lemma read_u32_spec v n : read_u32 v = Some n <-> thread_numeral v n.
Proof.
  unfold read_u32, thread_numeral, numeral. split.
  - pose proof (sign_spec v) as SS. destruct (sign v) as [[[|]|] r]; (destruct (unsigned r) as [m|] eqn:U; [|discriminate]); apply unsigned_spec in U;
      destruct U as (ds & N & ->); cbv zeta.
    + destruct ((0 <=? m) && (m <? 2 ^ 32)) eqn:L; [|discriminate]. intros E. injection E as ->. apply andb_true_iff in L. destruct L as [_ L].
      apply Z.ltb_lt in L. split; [|exact L]. left. exists (str "+"), ds. auto.
    + destruct ((0 <=? - m) && (- m <? 2 ^ 32)) eqn:L; [|discriminate]. intros E. injection E as <-. apply andb_true_iff in L. destruct L as [L1 L].
      apply Z.ltb_lt in L. apply Z.leb_le in L1. pose proof (number_nonneg ds m N). assert (m = 0) by lia. subst m. split; [|exact L]. right.
      split; [reflexivity|]. exists ds. auto.
    + destruct ((0 <=? m) && (m <? 2 ^ 32)) eqn:L; [|discriminate]. intros E. injection E as ->. apply andb_true_iff in L. destruct L as [_ L].
      apply Z.ltb_lt in L. split; [|exact L]. left. destruct SS as [-> _]. exists [], ds. auto.
  - intros [[(s & ds & Hs & N & ->)|(-> & ds & N & ->)] L].
    + pose proof (number_nonneg ds n N) as P. apply Z.leb_le in P. apply Z.ltb_lt in L. destruct Hs as [->| ->].
      * cbn [app]. rewrite (sign_digits ds n N); cbv beta iota; rewrite (unsigned_number ds n N). cbv zeta. rewrite P, L. reflexivity.
      * change (sign (str "+" ++ map (fun d => 48 + d) ds)) with (Some true, map (fun d => 48 + d) ds). cbv beta iota. rewrite (unsigned_number ds n N). cbv zeta. rewrite P, L. reflexivity.
    + change (sign (str "-" ++ map (fun d => 48 + d) ds)) with (Some false, map (fun d => 48 + d) ds). cbv beta iota. rewrite (unsigned_number ds 0 N). reflexivity.
Qed.

(** ** The tools *)
Ltac wf_options :=
  repeat match goal with
  | H : In _ (g_options _) |- _ => cbn in H
  | H : _ \/ _ |- _ => destruct H
  | H : False |- _ => destruct H
  end; subst.
Lemma wf_only n : match n with Some n => 0 <= n | None => True end -> wf_grammar (only_words n).
Proof.
  intros H. split; try (intros; wf_options; fail). intros m E. cbn in E. subst n. exact H.
Qed.
Lemma not_in_name (n : bytes) : existsb (Z.eqb 61) n = false -> ~ In 61 n.
Proof. intros E H. assert (existsb (Z.eqb 61) n = true); [|congruence]. apply existsb_exists. exists 61. auto. Qed.
Ltac wf_tac :=
  split;
  [ intros o o' H H' E; wf_options; first [reflexivity|discriminate E]
  | intros o o' c H H' E E'; wf_options; first [reflexivity|cbn in E, E'; congruence]
  | intros o H; wf_options; (split; [apply not_in_name; reflexivity|]); (split; discriminate)
  | intros o c H E; wf_options; cbn in E; (discriminate E || (injection E as <-; split; [discriminate|]; split; discriminate))
  | intros n E; cbn in E; (discriminate E || (injection E as <-; lia)) ].
Lemma wf_one : wf_grammar (only_words (Some 1)). Proof. apply wf_only. lia. Qed.
Lemma wf_view : wf_grammar mmview_grammar. Proof. wf_tac. Qed.
Lemma wf_crox : wf_grammar crox_grammar. Proof. wf_tac. Qed.
Lemma wf_diff : wf_grammar diff_grammar. Proof. wf_tac. Qed.
Lemma wf_summarize f : wf_grammar (summarize_grammar f). Proof. wf_tac. Qed.
Lemma wf_syntax f p pre g : syntax f p pre g -> wf_grammar g.
Proof.
  intros []; [exact wf_view|apply wf_only; lia|apply wf_only; lia|exact wf_crox|apply wf_only; lia|apply wf_only; exact I|exact wf_diff|apply wf_summarize].
Qed.
(** What a tool does with what it has read *)
Definition does (f : bytes -> option f64) (e : path -> list path) (p : program) (pre : list bytes) (g : grammar) : Prop :=
  exists k : list piece -> request, (forall args, command_line f e p (pre ++ args) = with_pieces (scan g [] false args) k) /\
    (forall ps ps', same ps ps' -> k ps = k ps') /\ (forall ps, k ps <> Help).
Lemma same_value o ps ps' : same ps ps' -> value o ps = value o ps'.
Proof. intros (_ & V & _). unfold value. rewrite V. reflexivity. Qed.
Lemma same_flagged o ps ps' : same ps ps' -> flagged o ps = flagged o ps'.
Proof.
  intros (_ & _ & F). unfold flagged. specialize (F (o_long o)). pose proof (in_flags (o_long o) ps) as A. pose proof (in_flags (o_long o) ps') as B.
  destruct (flags (o_long o) ps) eqn:E1; destruct (flags (o_long o) ps') eqn:E2; try reflexivity; exfalso.
  - assert (X : In (Flagged (o_long o)) ps') by (apply B; discriminate). apply F, A in X. apply X. reflexivity.
  - assert (X : In (Flagged (o_long o)) ps) by (apply A; discriminate). apply F, B in X. apply X. reflexivity.
Qed.
Lemma does_all f e p pre g : syntax f p pre g -> does f e p pre g.
Proof.
  intros H. destruct H; unfold does; eexists; (split; [intros args; reflexivity|]); (split; [intros ps ps' S0|intros ps]).
  - unfold one_word. rewrite (same_value THREAD ps ps' S0). destruct S0 as (-> & _). reflexivity.
  - unfold one_word. destruct (words ps) as [|w [|w' l]]; discriminate.
  - unfold one_word. destruct S0 as (-> & _). reflexivity.
  - unfold one_word. destruct (words ps) as [|w [|w' l]]; discriminate.
  - unfold one_word. destruct S0 as (-> & _). reflexivity.
  - unfold one_word. destruct (words ps) as [|w [|w' l]]; discriminate.
  - cbv beta. rewrite (same_value DIR ps ps' S0), (same_value MINIMUM ps ps' S0), (same_flagged COLLAPSE ps ps' S0). destruct S0 as (-> & _). reflexivity.
  - cbv beta. destruct (words ps) as [|w l]; destruct (value DIR ps); discriminate.
  - unfold one_word. destruct S0 as (-> & _). reflexivity.
  - unfold one_word. destruct (words ps) as [|w [|w' l]]; discriminate.
  - cbv beta. destruct S0 as (-> & _). reflexivity.
  - discriminate.
  - cbv beta. rewrite (same_flagged JSON ps ps' S0). destruct S0 as (-> & V & _). rewrite V. reflexivity.
  - cbv beta. destruct (words ps) as [|w [|w' [|w'' l]]]; discriminate.
  - unfold one_word. rewrite (same_value _ ps ps' S0), (same_flagged JSON ps ps' S0). destruct S0 as (-> & _). reflexivity.
  - unfold one_word. destruct (words ps) as [|w [|w' l]]; try discriminate. destruct (f _); discriminate.
Qed.
Theorem C81_order : forall f e p pre g ps args ps' args', syntax f p pre g ->
  typed g ps args -> allowed g ps -> typed g ps' args' -> allowed g ps' -> same ps ps' ->
  command_line f e p (pre ++ args) = command_line f e p (pre ++ args').
Proof.
  intros f e p pre g ps args ps' args' SY T A T' A' S0. pose proof (wf_syntax f p pre g SY) as W.
  destruct (does_all f e p pre g SY) as (k & R & KS & _). rewrite !R.
  rewrite (proj2 (C81_accepts g args ps W) (conj T A)), (proj2 (C81_accepts g args' ps' W) (conj T' A')). cbn [with_pieces]. apply KS, S0.
Qed.
Theorem C81_help : forall f e p pre g args, syntax f p pre g -> (command_line f e p (pre ++ args) = Help <-> helped g args).
Proof.
  intros f e p pre g args SY. pose proof (wf_syntax f p pre g SY) as W. destruct (does_all f e p pre g SY) as (k & R & _ & KH). rewrite R, <- (scan_helped g args W).
  destruct (scan g [] false args); cbn [with_pieces]; split; try discriminate; try reflexivity. intros E. apply KH in E. destruct E.
Qed.
(** What a tool starts *)
Lemma starts g args k c : wf_grammar g -> (with_pieces (scan g [] false args) k = Start c <-> exists ps, typed g ps args /\ allowed g ps /\ k ps = Start c).
Proof.
  intros W. destruct (scan g [] false args) as [| |ps] eqn:E; cbn [with_pieces].
  - split; [discriminate|]. intros (ps & T & A & _). rewrite (proj2 (C81_accepts g args ps W) (conj T A)) in E. discriminate.
  - split; [discriminate|]. intros (ps & T & A & _). rewrite (proj2 (C81_accepts g args ps W) (conj T A)) in E. discriminate.
  - split.
    + intros H. exists ps. apply (C81_accepts g args ps W) in E. destruct E. auto.
    + intros (ps' & T & A & H). rewrite (proj2 (C81_accepts g args ps' W) (conj T A)) in E. injection E as <-. exact H.
Qed.
Lemma once_value g o ps : wf_grammar g -> allowed g ps -> In o (g_options g) -> o_arity o = Single ->
  forall v, In (Valued (o_long o) v) ps -> value o ps = Some v.
Proof.
  intros W A Io S1 v H. unfold value. assert (L : zlen (values (o_long o) ps) <= 1).
  { pose proof (al_once g ps A o Io) as O. rewrite S1 in O. specialize (O ltac:(discriminate)).
    enough (X : zlen (values (o_long o) ps) <= zlen (filter (named (o_long o)) ps)) by lia. clear. unfold values. induction ps as [|p ps IH]; [cbv; discriminate|].
    destruct p as [w|n|n v]; cbn [flat_map filter named app].
    - exact IH.
    - destruct (beq n (o_long o)); [rewrite zlen_cons; lia|exact IH].
    - destruct (beq n (o_long o)); cbn [app]; [rewrite !zlen_cons; lia|exact IH]. }
  apply in_values in H. destruct (values (o_long o) ps) as [|v1 [|v2 l]]; [destruct H| |].
  - destruct H as [<-|[]]. reflexivity.
  - rewrite !zlen_cons in L. pose proof (zlen_nonneg l). lia.
Qed.
Lemma value_given g o ps d : wf_grammar g -> allowed g ps -> In o (g_options g) -> o_arity o = Single -> (value o ps = d <-> given ps (o_long o) d).
Proof.
  intros W A Io S1. pose proof (once_value g o ps W A Io S1) as O. unfold given. destruct d as [v|].
  - split; [|exact (O v)]. unfold value. destruct (values (o_long o) ps) as [|v1 l] eqn:E; [discriminate|]. cbn. intros E'. injection E' as ->.
    apply in_values. rewrite E. left. reflexivity.
  - split.
    + intros E v H. rewrite (O v H) in E. discriminate.
    + intros H. unfold value. destruct (values (o_long o) ps) as [|v1 l] eqn:E; [reflexivity|]. exfalso. apply (H v1). apply in_values. rewrite E. left. reflexivity.
Qed.
Lemma flagged_given o ps b : flagged o ps = b <-> flag_given ps (o_long o) b.
Proof.
  unfold flag_given. rewrite <- in_flags. unfold flagged. destruct (flags (o_long o) ps) as [|x l]; destruct b; split; intros H; try reflexivity; try discriminate.
  - destruct H as [H _]. specialize (H eq_refl). congruence.
  - split; [discriminate|]. intros H'. congruence.
  - split; [discriminate|reflexivity].
  - destruct H as [_ H]. symmetry. apply H. discriminate.
Qed.
Lemma is_some_iff {A} (o : option A) : is_some o = true <-> exists x, o = Some x.
Proof. destruct o; split; try discriminate; eauto. intros (x & E). discriminate. Qed.

Theorem C81_mmview : exists thread, described thread (str "thread-id") (Some (str "t")) Single (fun v => exists n, thread_numeral v n) /\
  forall f e args c, command_line f e MmviewTool args = Start c <->
  exists ps file t, typed (mkG [thread] (Some 1)) ps args /\ allowed (mkG [thread] (Some 1)) ps /\ words ps = [file] /\ c = View (path_of file) t /\
    match t with
    | Some n => exists v, In (Valued (str "thread-id") v) ps /\ thread_numeral v n
    | None => forall v, ~ In (Valued (str "thread-id") v) ps
    end.
Proof.
  exists THREAD. split.
  { split; [reflexivity|]. split; [reflexivity|]. split; [reflexivity|]. intros v. cbn. rewrite is_some_iff. split; intros (n & H); exists n; apply read_u32_spec; exact H. }
  intros f e args c. change (mkG [THREAD] (Some 1)) with mmview_grammar. unfold command_line. rewrite (starts _ _ _ _ wf_view).
  assert (VG : forall ps d, allowed mmview_grammar ps -> value THREAD ps = d <-> given ps (str "thread-id") d).
  { intros ps d A. apply (value_given mmview_grammar THREAD ps d wf_view A); [left; reflexivity|reflexivity]. }
  split.
  - intros (ps & T & A & H). unfold one_word in H. destruct (words ps) as [|w [|w' l]] eqn:EW; try discriminate. injection H as <-.
    exists ps, w, (match value THREAD ps with Some v => read_u32 v | None => None end). split; [exact T|]. split; [exact A|]. split; [exact EW|]. split; [reflexivity|].
    destruct (value THREAD ps) as [v|] eqn:EV; apply (VG ps _ A) in EV; [|exact EV]. pose proof (al_values _ _ A THREAD v (or_introl eq_refl) EV) as OV. cbn in OV.
    apply is_some_iff in OV. destruct OV as (n & E). rewrite E. exists v. split; [exact EV|]. apply read_u32_spec. exact E.
  - intros (ps & file & t & T & A & EW & -> & Ht). exists ps. split; [exact T|]. split; [exact A|]. unfold one_word. rewrite EW. f_equal. f_equal.
    destruct t as [n|].
    + destruct Ht as (v & H & N). assert (EV : value THREAD ps = Some v) by (apply (VG ps _ A); exact H). rewrite EV. apply read_u32_spec. exact N.
    + assert (EV : value THREAD ps = None) by (apply (VG ps _ A); exact Ht). rewrite EV. reflexivity.
Qed.
Theorem C81_crox : exists dir collapse minimum,
  described dir (str "dir") None Single (fun v => v <> []) /\ described collapse (str "collapse-threads") None Flag (fun _ => True) /\
  described minimum (str "minimum-duration") None Single (fun v => exists n, numeral v n /\ n < 2 ^ 128) /\
  forall f e args c, command_line f e CroxTool args = Start c <->
  exists ps d b m, let g := mkG [dir; collapse; minimum] None in typed g ps args /\ allowed g ps /\ (words ps <> [] \/ d <> None) /\
    given ps (str "dir") d /\ flag_given ps (str "collapse-threads") b /\
    match m with
    | Some n => exists v, In (Valued (str "minimum-duration") v) ps /\ numeral v n
    | None => forall v, ~ In (Valued (str "minimum-duration") v) ps
    end /\
    c = Crox (map path_of (words ps)) (match d with Some d => e (path_of d) | None => [] end) b m.
Proof.
  exists DIR, COLLAPSE, MINIMUM. split.
  { split; [reflexivity|]. split; [reflexivity|]. split; [reflexivity|]. intros v. cbn. unfold any_path. rewrite negb_true_iff. apply beq_false. }
  split. { split; [reflexivity|]. split; [reflexivity|]. split; [reflexivity|]. intros v. cbn. tauto. }
  split.
  { split; [reflexivity|]. split; [reflexivity|]. split; [reflexivity|]. intros v. cbn. rewrite is_some_iff. split; intros (n & H); exists n; apply read_u128_spec; exact H. }
  intros f e args c. change (mkG [DIR; COLLAPSE; MINIMUM] None) with crox_grammar. unfold command_line. rewrite (starts _ _ _ _ wf_crox).
  assert (VD : forall ps d, allowed crox_grammar ps -> value DIR ps = d <-> given ps (str "dir") d).
  { intros ps d A. apply (value_given crox_grammar DIR ps d wf_crox A); [left; reflexivity|reflexivity]. }
  assert (VM : forall ps d, allowed crox_grammar ps -> value MINIMUM ps = d <-> given ps (str "minimum-duration") d).
  { intros ps d A. apply (value_given crox_grammar MINIMUM ps d wf_crox A); [right; right; left; reflexivity|reflexivity]. }
  split.
  - intros (ps & T & A & H). exists ps, (value DIR ps), (flagged COLLAPSE ps), (match value MINIMUM ps with Some v => read_u128 v | None => None end).
    cbv zeta. split; [exact T|]. split; [exact A|]. split. { destruct (words ps); [|left; discriminate]. destruct (value DIR ps); [right; discriminate|discriminate]. }
    split; [apply (VD ps _ A); reflexivity|]. split; [apply (flagged_given COLLAPSE); reflexivity|]. split.
    + destruct (value MINIMUM ps) as [v|] eqn:EV; apply (VM ps _ A) in EV; [|exact EV].
      pose proof (al_values _ _ A MINIMUM v (or_intror (or_intror (or_introl eq_refl))) EV) as OV. cbn in OV.
      apply is_some_iff in OV. destruct OV as (n & E). rewrite E. exists v. split; [exact EV|]. apply read_u128_spec in E. tauto.
    + destruct (words ps) as [|w l]; destruct (value DIR ps); try discriminate; injection H as <-; reflexivity.
  - intros (ps & d & b & m & T & A & Hw & Hd & Hb & Hm & ->). exists ps. split; [exact T|]. split; [exact A|].
    apply (VD ps _ A) in Hd. apply (flagged_given COLLAPSE) in Hb. rewrite Hd, Hb.
    assert (EM : match value MINIMUM ps with Some v => read_u128 v | None => None end = m).
    { destruct m as [n|].
      - destruct Hm as (v & H & N). assert (EV : value MINIMUM ps = Some v) by (apply (VM ps _ A); exact H). rewrite EV. apply read_u128_spec. split; [exact N|].
        pose proof (al_values _ _ A MINIMUM v (or_intror (or_intror (or_introl eq_refl))) H) as OV. cbn in OV. apply is_some_iff in OV. destruct OV as (n' & E).
        assert (n' = n); [|subst; apply read_u128_spec in E; tauto]. apply read_u128_spec in E. destruct E as [E _].
        destruct N as (s & ds & Hs & N & Es). destruct E as (s' & ds' & Hs' & N' & Es').
        assert (Q : unsigned (map (fun d => 48 + d) ds) = unsigned (map (fun d => 48 + d) ds')).
        { f_equal. pose proof (sign_digits ds n N) as Q1. pose proof (sign_digits ds' n' N') as Q2.
          assert (R1 : snd (sign v) = map (fun d => 48 + d) ds). { rewrite Es. destruct Hs as [->| ->]; [cbn [app]; rewrite Q1; reflexivity|reflexivity]. }
          assert (R2 : snd (sign v) = map (fun d => 48 + d) ds'). { rewrite Es'. destruct Hs' as [->| ->]; [cbn [app]; rewrite Q2; reflexivity|reflexivity]. }
          congruence. }
        rewrite (unsigned_number ds n N), (unsigned_number ds' n' N') in Q. congruence.
      - assert (EV : value MINIMUM ps = None) by (apply (VM ps _ A); exact Hm). rewrite EV. reflexivity. }
    rewrite EM. destruct (words ps); [|reflexivity]. destruct d; [reflexivity|]. destruct Hw; congruence.
Qed.
Lemma sub_start table args c : subcommands table args = Start c <->
  exists name rest x, args = name :: rest /\ find (fun x => beq (fst x) name) table = Some x /\ snd x rest = Start c.
Proof.
  unfold subcommands. destruct args as [|a args]; [split; [discriminate|]; intros (n & r & x & E & _); discriminate|].
  destruct (find (fun x => beq (fst x) a) table) as [x|] eqn:F.
  - split; [intros H; exists a, args, x; auto|]. intros (n & r & x' & E & F' & H). injection E as <- <-. congruence.
  - split; [|intros (n & r & x' & E & F' & H); injection E as <- <-; congruence].
    intros H. exfalso. destruct (beq a HELP).
    + destruct args as [|n [|n' l]]; try discriminate. destruct (_ || _); discriminate.
    + destruct (scan _ _ _ _); discriminate.
Qed.
Theorem C81_summarize : forall f, exists exclude json percent,
  described exclude (str "exclude") (Some (str "e")) Many (fun v => utf8_valid v = true) /\
  described json (str "json") None Flag (fun _ => True) /\
  described percent (str "percent-above") (Some (str "p")) Single (fun v => utf8_valid v = true /\ exists x, f v = Some x) /\
  forall e args c, command_line f e SummarizeTool args = Start c <->
  (exists rest ps, let g := mkG [] None in args = str "aggregate" :: rest /\ typed g ps rest /\ allowed g ps /\ c = Aggregate (map path_of (words ps))) \/
  (exists rest ps base change b, let g := mkG [exclude; json] (Some 2) in args = str "diff" :: rest /\ typed g ps rest /\ allowed g ps /\
     words ps = [base; change] /\ flag_given ps (str "json") b /\ c = Diff (path_of base) (path_of change) (values (str "exclude") ps) b) \/
  (exists rest ps file b text x, let g := mkG [json; percent] (Some 1) in args = str "summarize" :: rest /\ typed g ps rest /\ allowed g ps /\
     words ps = [file] /\ flag_given ps (str "json") b /\
     (In (Valued (str "percent-above") text) ps \/ (forall v, ~ In (Valued (str "percent-above") v) ps) /\ text = str "0.0") /\ f text = Some x /\
     c = Summarize (path_of file) b x).
Proof.
  intros f. exists EXCLUDE, JSON, (PERCENT f). split.
  { split; [reflexivity|]. split; [reflexivity|]. split; [reflexivity|]. intros v. reflexivity. }
  split. { split; [reflexivity|]. split; [reflexivity|]. split; [reflexivity|]. intros v. cbn. tauto. }
  split. { split; [reflexivity|]. split; [reflexivity|]. split; [reflexivity|]. intros v. cbn. rewrite andb_true_iff, is_some_iff. reflexivity. }
  intros e args c. unfold command_line. rewrite sub_start.
  assert (VP : forall ps d, allowed (summarize_grammar f) ps -> value (PERCENT f) ps = d <-> given ps (str "percent-above") d).
  { intros ps d A. apply (value_given (summarize_grammar f) (PERCENT f) ps d (wf_summarize f) A); [right; left; reflexivity|reflexivity]. }
  assert (AG : forall rest, aggregate_line rest = Start c <-> exists ps, typed (mkG [] None) ps rest /\ allowed (mkG [] None) ps /\ c = Aggregate (map path_of (words ps))).
  { intros rest. unfold aggregate_line. rewrite (starts _ _ _ _ (wf_only None I)). split; intros (ps & T & A & H); exists ps; (split; [exact T|]); (split; [exact A|]); congruence. }
  assert (DI : forall rest, diff_line rest = Start c <-> exists ps base change b, typed diff_grammar ps rest /\ allowed diff_grammar ps /\
     words ps = [base; change] /\ flag_given ps (str "json") b /\ c = Diff (path_of base) (path_of change) (values (str "exclude") ps) b).
  { intros rest. unfold diff_line. rewrite (starts _ _ _ _ wf_diff). split.
    - intros (ps & T & A & H). destruct (words ps) as [|b0 [|c0 [|x l]]] eqn:EW; try discriminate. injection H as <-.
      exists ps, b0, c0, (flagged JSON ps). split; [exact T|]. split; [exact A|]. split; [exact EW|]. split; [apply (flagged_given JSON); reflexivity|reflexivity].
    - intros (ps & b0 & c0 & b & T & A & EW & Hb & ->). exists ps. split; [exact T|]. split; [exact A|]. rewrite EW. apply (flagged_given JSON) in Hb. rewrite Hb. reflexivity. }
  assert (SU : forall rest, summarize_line f rest = Start c <-> exists ps file b text x, typed (summarize_grammar f) ps rest /\ allowed (summarize_grammar f) ps /\
     words ps = [file] /\ flag_given ps (str "json") b /\
     (In (Valued (str "percent-above") text) ps \/ (forall v, ~ In (Valued (str "percent-above") v) ps) /\ text = str "0.0") /\ f text = Some x /\
     c = Summarize (path_of file) b x).
  { intros rest. unfold summarize_line. rewrite (starts _ _ _ _ (wf_summarize f)). unfold one_word. split.
    - intros (ps & T & A & H). destruct (words ps) as [|w [|w' l]] eqn:EW; try discriminate.
      set (text := match value (PERCENT f) ps with Some v => v | None => str "0.0" end) in H. destruct (f text) as [x|] eqn:FX; [|discriminate]. injection H as <-.
      exists ps, w, (flagged JSON ps), text, x. split; [exact T|]. split; [exact A|]. split; [exact EW|]. split; [apply (flagged_given JSON); reflexivity|].
      split; [|auto]. subst text. destruct (value (PERCENT f) ps) as [v|] eqn:EV; apply (VP ps _ A) in EV; [left; exact EV|right; split; [exact EV|reflexivity]].
    - intros (ps & w & b & text & x & T & A & EW & Hb & Ht & FX & ->). exists ps. split; [exact T|]. split; [exact A|]. rewrite EW.
      apply (flagged_given JSON) in Hb. rewrite Hb.
      assert (ET : match value (PERCENT f) ps with Some v => v | None => str "0.0" end = text).
      { destruct Ht as [Ht|[Ht ->]].
        - assert (EV : value (PERCENT f) ps = Some text) by (apply (VP ps _ A); exact Ht). rewrite EV. reflexivity.
        - assert (EV : value (PERCENT f) ps = None) by (apply (VP ps _ A); exact Ht). rewrite EV. reflexivity. }
      rewrite ET, FX. reflexivity. }
  cbv zeta. split.
  - intros (n & rest & x & -> & F & H). apply find_some in F. destruct F as [I F]. apply beq_true in F. subst n.
    destruct I as [<-|[<-|[<-|[]]]]; cbn [fst snd] in *.
    + left. apply AG in H. destruct H as (ps & H). exists rest, ps. auto.
    + right; left. apply DI in H. destruct H as (ps & b0 & c0 & b & H). exists rest, ps, b0, c0, b. auto.
    + right; right. apply SU in H. destruct H as (ps & file & b & text & x & H). exists rest, ps, file, b, text, x. auto.
  - intros [(rest & ps & -> & H)|[(rest & ps & b0 & c0 & b & -> & H)|(rest & ps & file & b & text & x & -> & H)]].
    + exists (str "aggregate"), rest, (str "aggregate", aggregate_line). split; [reflexivity|]. split; [reflexivity|]. cbn [snd]. apply AG. exists ps. exact H.
    + exists (str "diff"), rest, (str "diff", diff_line). split; [reflexivity|]. split; [reflexivity|]. cbn [snd]. apply DI. exists ps, b0, c0, b. exact H.
    + exists (str "summarize"), rest, (str "summarize", summarize_line f). split; [reflexivity|]. split; [reflexivity|]. cbn [snd]. apply SU. exists ps, file, b, text, x. exact H.
Qed.
(** The tools without options: one file *)
Lemma no_options n ps args : typed (only_words n) ps args -> exists ws, ps = map Word ws.
Proof.
  intros T. induction T as [|ws|p a ps args Sp T (ws & ->)].
  - exists []. reflexivity.
  - exists ws. reflexivity.
  - destruct Sp; try contradiction. exists (w :: ws). reflexivity.
Qed.
Lemma words_words ws : words (map Word ws) = ws.
Proof. induction ws as [|w ws IH]; [reflexivity|]. cbn. f_equal. exact IH. Qed.
Lemma one_file args file : (exists ps, typed (only_words (Some 1)) ps args /\ allowed (only_words (Some 1)) ps /\ words ps = [file]) <-> takes_one_file args file.
Proof.
  unfold takes_one_file. split.
  - intros (ps & T & A & E). destruct (no_options _ _ _ T) as (ws & ->). rewrite words_words in E. subst ws. cbn [map] in *.
    split. { intros ->. apply (al_words _ _ A). left. reflexivity. }
    inversion T as [|ws' E1 E2|p a ps' args' Sp T' E1 E2]; subst.
    + destruct ws' as [|w [|w' l]]; try discriminate. injection E1 as ->. right. reflexivity.
    + left. inversion Sp; subst. split; [assumption|]. inversion T' as [|ws' E1 E2|p a ps'' args'' Sp' T'' E1 E2]; subst.
      * left. reflexivity.
      * destruct ws'; [|discriminate]. right. reflexivity.
  - intros [N H]. exists [Word file]. split; [|split; [|reflexivity]].
    + destruct H as [[O [->| ->]]| ->].
      * apply (ty_piece _ (Word file) [file] [] []); [apply sp_word; exact O|apply ty_end].
      * apply (ty_piece _ (Word file) [file] [] [str "--"]); [apply sp_word; exact O|apply (ty_dashes _ [])].
      * apply (ty_dashes _ [file]).
    + split.
      * intros [E|[]]. congruence.
      * intros n E. injection E as <-. cbv. discriminate.
      * intros o v [].
      * intros o [].
Qed.
Lemma file_start args k c : with_pieces (scan (only_words (Some 1)) [] false args) (fun l => one_word l (fun p => Start (k p))) = Start c <->
  exists file, takes_one_file args file /\ c = k (path_of file).
Proof.
  rewrite (starts _ _ _ _ wf_one). unfold one_word. split.
  - intros (ps & T & A & H). destruct (words ps) as [|w [|w' l]] eqn:EW; try discriminate. exists w. split; [apply one_file; eauto|congruence].
  - intros (file & H & ->). apply one_file in H. destruct H as (ps & T & A & E). exists ps. split; [exact T|]. split; [exact A|]. rewrite E. reflexivity.
Qed.
Theorem C81_one_file : forall f e args c,
  (command_line f e FlamegraphTool args = Start c <-> exists file, takes_one_file args file /\ c = Flamegraph (path_of file)) /\
  (command_line f e StackCollapseTool args = Start c <-> exists file, takes_one_file args file /\ c = StackCollapse (path_of file)) /\
  (command_line f e MmeditTool args = Start c <-> exists rest file, args = str "truncate" :: rest /\ takes_one_file rest file /\ c = Truncate (path_of file)).
Proof.
  intros f e args c. split; [apply (file_start args Flamegraph)|]. split; [apply (file_start args StackCollapse)|].
  unfold command_line. rewrite sub_start. split.
  - intros (n & rest & x & -> & F & H). apply find_some in F. destruct F as [I F]. apply beq_true in F. subst n. destruct I as [<-|[]]. cbn [fst snd] in *.
    apply (file_start rest Truncate) in H. destruct H as (file & H & ->). exists rest, file. auto.
  - intros (rest & file & -> & H & ->). exists (str "truncate"), rest, (str "truncate", truncate_line). split; [reflexivity|]. split; [reflexivity|].
    apply (file_start rest Truncate). eauto.
Qed.
(** Help of the tools with subcommands *)
Theorem C81_help_subcommands : forall f e args,
  let help names := exists a rest, args = a :: rest /\ asks_help a \/ a = str "help" /\ args = [a] \/ a = str "help" /\ exists n, In n (a :: names) /\ args = [a; n] in
  ((forall n rest, In n [str "aggregate"; str "diff"; str "summarize"] -> args <> n :: rest) ->
   (command_line f e SummarizeTool args = Help <-> help [str "aggregate"; str "diff"; str "summarize"])) /\
  ((forall rest, args <> str "truncate" :: rest) -> (command_line f e MmeditTool args = Help <-> help [str "truncate"])).
Proof.
  intros f e args help.
  assert (G : forall table, (forall x rest, In x table -> args <> fst x :: rest) -> (subcommands table args = Help <-> help (map fst table))).
  { intros table NO. unfold subcommands, help. destruct args as [|a rest].
    { split; [discriminate|]. intros (a & r & [[E _]|[[_ E]|[_ (n & _ & E)]]]); discriminate. }
    destruct (find _ table) as [x|] eqn:F.
    { apply find_some in F. destruct F as [I F]. apply beq_true in F. exfalso. apply (NO x rest I). rewrite F. reflexivity. }
    destruct (beq a HELP) eqn:EH.
    - apply beq_true in EH. subst a.
      assert (NA : ~ asks_help HELP) by (intros [E|(r & E)]; discriminate).
      destruct rest as [|n [|n' l]].
      + split; [|reflexivity]. intros _. exists HELP, []. auto.
      + destruct (beq n HELP || existsb (fun x => beq (fst x) n) table) eqn:EN.
        * split; [|reflexivity]. intros _. exists HELP, []. right; right. split; [reflexivity|]. exists n. split; [|reflexivity].
          apply orb_true_iff in EN. destruct EN as [EN|EN]; [left; symmetry; apply beq_true; exact EN|]. right.
          apply existsb_exists in EN. destruct EN as (x & I & E). apply beq_true in E. subst n. apply in_map. exact I.
        * split; [discriminate|]. intros (a & r & [[E A]|[[_ E]|[-> (m & I & E)]]]).
          -- injection E as <- <-. contradiction.
          -- discriminate.
          -- injection E as <-. exfalso. apply orb_false_iff in EN. destruct EN as [EN1 EN2]. destruct I as [E|I].
             ++ rewrite <- E in EN1. discriminate.
             ++ apply in_map_iff in I. destruct I as (x & E & I). assert (X : existsb (fun x => beq (fst x) n) table = true); [|congruence].
                apply existsb_exists. exists x. split; [exact I|]. apply beq_true. exact E.
      + split; [discriminate|]. intros (a & r & [[E A]|[[_ E]|[-> (m & I & E)]]]); [injection E as <- _; contradiction|discriminate|discriminate].
    - assert (W0 : wf_grammar (only_words (Some 0))) by (apply wf_only; lia). pose proof (scan_helped (only_words (Some 0)) [a] W0) as SH.
      assert (HA : helped (only_words (Some 0)) [a] <-> asks_help a).
      { split.
        - intros (ps & pre & h & post & E & En & A & H). destruct pre as [|x pre]; [injection E as -> _; exact H|]. destruct pre; discriminate.
        - intros H. exists [], [], a, []. split; [reflexivity|]. split; [constructor|]. split; [|exact H]. split.
          + intros [].
          + intros n E. injection E as <-. cbv. discriminate.
          + intros o v [].
          + intros o []. }
      assert (NH : a <> str "help") by (apply beq_false; exact EH).
      split.
      + intros H. exists a, rest. left. split; [reflexivity|]. apply HA, SH. destruct (scan _ _ _ _); [reflexivity|discriminate|discriminate].
      + intros (a' & r & [[E A]|[[-> E]|[-> (m & I & E)]]]).
        * injection E as <- <-. apply HA, SH in A. rewrite A. reflexivity.
        * injection E as E _. congruence.
        * injection E as E _. congruence. }
  split; intros NO.
  - apply (G [(str "aggregate", aggregate_line); (str "diff", diff_line); (str "summarize", summarize_line f)]).
    intros x rest I. apply NO. destruct I as [<-|[<-|[<-|[]]]]; cbn; auto.
  - apply (G [(str "truncate", truncate_line)]). intros x rest [<-|[]]. apply NO.
Qed.

(** ** Paths *)
Lemma split_slash_app b : forall a cur, split_slash (a ++ SLASH :: b) cur = split_slash a cur ++ split_slash b [].
Proof.
  induction a as [|c a IH]; intros cur; [reflexivity|]. cbn [app split_slash]. destruct (c =? SLASH); [cbn [app]; f_equal; apply IH|apply IH].
Qed.
Lemma split_slash_none : forall n cur, ~ In SLASH n -> split_slash n cur = [rev cur ++ n].
Proof.
  induction n as [|c n IH]; intros cur H; [cbn; rewrite app_nil_r; reflexivity|]. cbn [split_slash]. destruct (c =? SLASH) eqn:E.
  - apply Z.eqb_eq in E. subst. exfalso. apply H. left. reflexivity.
  - rewrite IH by (intros X; apply H; right; exact X). cbn [rev]. rewrite <- app_assoc. reflexivity.
Qed.
Lemma split_slash_some : forall b cur, exists x l, split_slash b cur = x :: l.
Proof. induction b as [|c b IH]; intros cur; cbn; [eauto|]. destruct (c =? SLASH); eauto. Qed.
Lemma component_means n : name_means n (component n).
Proof.
  unfold component, name_means. destruct (beq n []) eqn:E1; [apply beq_true in E1; left; auto|]. cbn [orb].
  destruct (beq n [DOT]) eqn:E2; [apply beq_true in E2; left; auto|].
  destruct (beq n [DOT; DOT]) eqn:E3; [apply beq_true in E3; right; left; auto|].
  apply beq_false in E1, E2, E3. right; right. auto.
Qed.
Lemma means_component n l : name_means n l -> l = component n.
Proof.
  pose proof (component_means n) as C. unfold name_means in *. intros H.
  destruct H as [[[->| ->] ->]|[[-> ->]|(A & B & D & ->)]]; [reflexivity|reflexivity|reflexivity|].
  destruct C as [[[E|E] _]|[[E _]|(_ & _ & _ & E)]]; congruence.
Qed.
Theorem C81_paths : path_of [] = [] /\ (forall n l, ~ In SLASH n -> name_means n l ->
    (n <> str "." -> path_of n = l) /\ path_of (str "/" ++ n) = RootDir :: l /\
    forall a, a <> [] -> path_of (a ++ str "/" ++ n) = path_of a ++ l) /\
  path_of (str ".") = [CurDir].
Proof.
  split; [reflexivity|]. split; [|reflexivity]. intros n l NS M. apply means_component in M. subst l. split; [|split].
  - intros ND. unfold path_of. rewrite (split_slash_none n [] NS). cbn [rev app flat_map]. rewrite app_nil_r. destruct n as [|c n]; [reflexivity|].
    destruct (c =? SLASH) eqn:E. { apply Z.eqb_eq in E. subst. exfalso. apply NS. left. reflexivity. }
    rewrite (proj2 (beq_false (c :: n) [DOT]) ND). reflexivity.
  - change (str "/" ++ n) with (SLASH :: n). unfold path_of. cbn [split_slash]. rewrite Z.eqb_refl. cbn [rev]. rewrite (split_slash_none n [] NS).
    cbn [rev app flat_map]. rewrite app_nil_r. reflexivity.
  - intros a NA. change (str "/" ++ n) with (SLASH :: n). unfold path_of. rewrite split_slash_app, (split_slash_none n [] NS). cbn [rev app].
    destruct (split_slash_some a []) as (x & r & ->). cbn [app]. rewrite flat_map_app. cbn [flat_map]. rewrite app_nil_r, app_assoc. f_equal. f_equal.
    destruct a as [|c a]; [congruence|reflexivity].
Qed.

(** ** Example *)
Definition ex_read (b : bytes) : option f64 := if beq b (str "0.0") || beq b (str "5") then Some (B754_zero false) else None.
Definition ex_entries (p : path) : list path := [p ++ [Normal (str "a")]].
Theorem ex_C81 :
  command_line ex_read ex_entries MmviewTool [str "-t7"; str "out/p.mm_profdata"] = Start (View [Normal (str "out"); Normal (str "p.mm_profdata")] (Some 7)) /\
  command_line ex_read ex_entries MmviewTool [str "p"; str "--thread-id"; str "+07"] = Start (View [Normal (str "p")] (Some 7)) /\
  command_line ex_read ex_entries MmviewTool [str "p"; str "-t"; str "4294967296"] = Usage /\
  command_line ex_read ex_entries MmviewTool [str "p"; str "-t1"; str "-t1"] = Usage /\
  command_line ex_read ex_entries MmviewTool [str "p"; str "-t"; str "-1"] = Usage /\
  command_line ex_read ex_entries CroxTool [] = Usage /\
  command_line ex_read ex_entries CroxTool [str "--dir"; str "/d/"; str "--collapse-threads"] = Start (Crox [] [[RootDir; Normal (str "d"); Normal (str "a")]] true None) /\
  command_line ex_read ex_entries SummarizeTool [str "diff"; str "-ea"; str "x"; str "-e=b"; str "--json"; str "./y"] =
    Start (Diff [Normal (str "x")] [CurDir; Normal (str "y")] [str "a"; str "b"] true) /\
  command_line ex_read ex_entries SummarizeTool [str "summarize"; str "p"; str "-p"; str "5"] = Start (Summarize [Normal (str "p")] false (B754_zero false)) /\
  command_line ex_read ex_entries SummarizeTool [str "summarize"; str "p"; str "-p"; str "five"] = Usage /\
  command_line ex_read ex_entries SummarizeTool [str "summarize"; str "p"; str "--help"; str "-p"; str "five"] = Help /\
  command_line ex_read ex_entries SummarizeTool [str "summarize"; str "--"; str "--help"] = Start (Summarize [Normal (str "--help")] false (B754_zero false)) /\
  command_line ex_read ex_entries SummarizeTool [str "p"] = Usage /\
  command_line ex_read ex_entries MmeditTool [str "truncate"; str "f"] = Start (Truncate [Normal (str "f")]).
Proof.
  split; [reflexivity|]. split; [reflexivity|]. split; [reflexivity|]. split; [reflexivity|]. split; [reflexivity|]. split; [reflexivity|].
  split; [reflexivity|]. split; [reflexivity|]. split; [reflexivity|]. split; [reflexivity|]. split; [reflexivity|]. split; [reflexivity|].
  split; reflexivity.
Qed.
Print Assumptions C81_accepts.
Print Assumptions C81_order.
Print Assumptions C81_help.
Print Assumptions C81_help_subcommands.
Print Assumptions C81_mmview.
Print Assumptions C81_crox.
Print Assumptions C81_summarize.
Print Assumptions C81_one_file.
Print Assumptions C81_paths.
Print Assumptions ex_C81.
