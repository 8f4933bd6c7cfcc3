(** C65, C66: the text of the summary and of the diff.  Model M_Text.v, specification S_Text.v. *)
From Coq Require Import String ZArith Reals List Lia Lra Bool Permutation Sorted.
From Flocq Require Import Core BinarySingleNaN.
From Verif Require Import M_Base F_Base M_V8 M_Map M_Crox S_Crox Prop_Crox2 M_Tools S_Tools Prop_Tools M_Analysis S_Analysis F_Analysis M_Diff S_Diff F_Diff Prop_Diff M_Summarize S_Summarize Prop_Summarize M_Float S_Float Prop_Float M_DiffJson S_DiffJson Prop_DiffJson M_Text S_Text Prop_Text.
Import ListNotations.
Open Scope Z_scope.

(** ** Floats with a fixed number of decimal places *)
Lemma fixed_digits_ok p : forall n, 0 <= n < P p -> digit_list (fixed_digits p n) /\ length (fixed_digits p n) = p /\ denotes (fixed_digits p n) = n.
Proof.
  induction p as [|p IH]; intros n H; cbn [fixed_digits].
  - rewrite P_0 in H. split; [constructor|]. split; [reflexivity|]. unfold denotes. cbn. lia.
  - rewrite P_S in H. assert (H' : 0 <= n / 10 < P p) by (split; [apply Z.div_pos; lia|apply Z.div_lt_upper_bound; lia]). destruct (IH _ H') as (A & B & C). pose proof (Z.mod_pos_bound n 10 ltac:(lia)).
    split; [apply Forall_app; split; [exact A|constructor; [lia|constructor]]|]. split; [rewrite app_length, B; cbn [length]; lia|]. rewrite denotes_app, C, denotes_cons. cbn [length]. change (denotes []) with 0. change (P 1) with 10. rewrite P_0. pose proof (Z.div_mod n 10 ltac:(lia)). lia.
Qed.
Definition scaled_text (p : nat) (n : Z) : bytes := decimal (n / P p) ++ match p with O => [] | S _ => 46 :: fixed_digits p (n mod P p) end.
Lemma scaled_ok p n : 0 <= n -> exists i f, scaled_text p n = number_text i f /\ decimal_number i f /\ zlen f = Z.of_nat p /\ denotes (i ++ f) = n.
Proof.
  intros H. pose proof (P_pos p) as PP. assert (Q : 0 <= n / P p) by (apply Z.div_pos; lia). destruct (fixed_digits_ok p (n mod P p)) as (A & B & C); [apply Z.mod_pos_bound; lia|].
  exists (decimal (n / P p)), (fixed_digits p (n mod P p)). split.
  { unfold scaled_text, number_text. f_equal. destruct p; [reflexivity|]. destruct (fixed_digits (S p) (n mod P (S p))); [discriminate B|reflexivity]. }
  split; [split; [rewrite decimal_denotes by auto; apply decimal_numeral; auto|exact A]|]. split; [unfold zlen; rewrite B; reflexivity|]. rewrite denotes_app, decimal_denotes, B, C by auto. pose proof (Z.div_mod n (P p) ltac:(lia)). lia.
Qed.
Lemma round_div_ok ties num den : 0 < den -> 2 * Z.abs (round_div ties num den * den - num) <= den.
Proof.
  intros H. unfold round_div. pose proof (Z.div_mod num den ltac:(lia)) as D. pose proof (Z.mod_pos_bound num den H) as M. set (q := num / den) in *. set (r := num mod den) in *.
  destruct (Z.ltb_spec (2 * r) den); cbn [orb]; [replace (q * den - num) with (- r) by lia; lia|]. destruct (Z.eqb_spec (2 * r) den); cbn [andb].
  - destruct (ties && Z.even q); [replace (q * den - num) with (- r) by lia; lia|replace ((q + 1) * den - num) with (den - r) by lia; lia].
  - replace ((q + 1) * den - num) with (den - r) by lia. lia.
Qed.
Lemma round_div_pos ties num den : 0 <= num -> 0 < den -> 0 <= round_div ties num den.
Proof. intros H K. unfold round_div. pose proof (Z.div_pos num den H K). destruct (_ || _); lia. Qed.
Definition sgn_text (plus s : bool) : bytes := if s then [45] else if plus then [43] else [].
Lemma f64_text_ok ties plus p x : is_finite x = true ->
  exists t, f64_text ties plus p x = sgn_text plus (Bsign x) ++ t /\ says_real (Z.of_nat p) (/ 2 / IZR (P p)) t (Rabs (B2R x)).
Proof.
  intros FX. assert (PR : (0 < IZR (P p))%R) by (apply IZR_lt, P_pos).
  assert (K : forall n r, 0 <= n -> (Rabs (IZR n - r * IZR (P p)) <= / 2)%R -> says_real (Z.of_nat p) (/ 2 / IZR (P p)) (scaled_text p n) r).
  { intros n r HN HR. destruct (scaled_ok p n HN) as (i & f & E & D & L & V). exists i, f. split; [exact E|]. split; [exact D|]. split; [exact L|]. rewrite V. fold (P p).
    replace (IZR n / IZR (P p) - r)%R with ((IZR n - r * IZR (P p)) * / IZR (P p))%R by (field; lra). rewrite Rabs_mult, (Rabs_pos_eq (/ IZR (P p))) by (left; apply Rinv_0_lt_compat, PR). unfold Rdiv. apply Rmult_le_compat_r; [left; apply Rinv_0_lt_compat, PR|exact HR]. }
  destruct x as [s|s| |s m e HB]; try discriminate.
  - exists (scaled_text p 0). split; [reflexivity|]. apply K; [lia|]. cbn [B2R]. rewrite Rabs_R0, Rmult_0_l, Rminus_0_r, Rabs_R0. lra.
  - assert (AB : Rabs (B2R (B754_finite s m e HB)) = (IZR (Z.pos m) * bpow radix2 e)%R).
    { cbn [B2R]. rewrite <- F2R_Zabs, abs_cond_Zopp. reflexivity. }
    rewrite AB. pose proof (P_pos p) as PP. unfold f64_text. cbn [Bsign]. fold (P p). destruct (Z.leb_spec 0 e) as [L|L].
    + eexists. split; [reflexivity|]. apply K; [pose proof (Z.pow_nonneg 2 e); nia|]. rewrite !mult_IZR. replace (IZR (2 ^ e)) with (bpow radix2 e) by (symmetry; apply (IZR_Zpower radix2); lia).
      match goal with |- (Rabs ?a <= _)%R => replace a with 0%R by ring end. rewrite Rabs_R0. lra.
    + assert (D : 0 < 2 ^ (- e)) by (apply Z.pow_pos_nonneg; lia). eexists. split; [reflexivity|]. apply K; [apply round_div_pos; lia|].
      pose proof (round_div_ok ties (Z.pos m * P p) (2 ^ - e) D) as R. set (q := round_div ties (Z.pos m * P p) (2 ^ - e)) in *. apply IZR_le in R. rewrite mult_IZR, abs_IZR, minus_IZR, !mult_IZR in R.
      assert (B : IZR (2 ^ - e) = (/ bpow radix2 e)%R). { rewrite <- bpow_opp. apply (IZR_Zpower radix2). lia. } rewrite B in R. pose proof (bpow_gt_0 radix2 e) as BP.
      replace (IZR q - IZR (Z.pos m) * bpow radix2 e * IZR (P p))%R with ((IZR q * / bpow radix2 e - IZR (Z.pos m) * IZR (P p)) * bpow radix2 e)%R by (field; lra).
      rewrite Rabs_mult, (Rabs_pos_eq (bpow radix2 e)) by lra. apply (Rmult_le_compat_r (bpow radix2 e)) in R; [|lra]. rewrite Rinv_l in R by lra. lra.
Qed.

(** ** Signs *)
Lemma sign_pos (x : f64) : is_finite x = true -> (0 < B2R x)%R -> Bsign x = false.
Proof. destruct x as [s|s| |s m e H]; try discriminate; cbn [B2R Bsign]; intros _ HP; [lra|]. destruct s; auto. exfalso. apply (Rlt_irrefl 0). eapply Rlt_trans; [exact HP|]. apply F2R_lt_0. reflexivity. Qed.
Lemma sign_neg (x : f64) : is_finite x = true -> (B2R x < 0)%R -> Bsign x = true.
Proof. destruct x as [s|s| |s m e H]; try discriminate; cbn [B2R Bsign]; intros _ HP; [lra|]. destruct s; auto. exfalso. apply (Rlt_irrefl 0). eapply Rlt_trans; [|exact HP]. apply F2R_gt_0. reflexivity. Qed.
Lemma percent_zero b : 0 < b < 2 ^ 100 -> percent_of b 0 = B754_zero false.
Proof.
  intros H. unfold percent_of. destruct (of_int_positive b H) as (m & e & HB & ->). change (of_int 0) with (B754_zero false : f64). destruct (of_int_positive 100 ltac:(lia)) as (m' & e' & HB' & ->). reflexivity.
Qed.
Lemma percent_sign n b : Z.abs n < 2 ^ 100 -> 0 < b < 2 ^ 100 -> is_finite (percent_of b n) = true /\ Bsign (percent_of b n) = (n <? 0).
Proof.
  intros Hn Hb. destruct (percent_ok n b Hn Hb) as (E & F). split; [exact F|]. destruct (Z.ltb_spec n 0) as [L|L].
  - apply sign_neg; auto. rewrite E. apply pct_neg; lia.
  - destruct (Z.eq_dec n 0) as [->|N]; [rewrite percent_zero by auto; reflexivity|]. apply sign_pos; auto. rewrite E. apply pct_pos; lia.
Qed.
Lemma add_sign (x y : f64) : is_nan x = false -> is_nan y = false -> Bsign x = false -> Bsign y = false -> is_nan (f64_add x y) = false /\ Bsign (f64_add x y) = false.
Proof.
  intros Nx Ny Sx Sy. destruct (is_finite x) eqn:FX; destruct (is_finite y) eqn:FY.
  - pose proof (Bplus_correct 53 1024 prec_pos prec_small mode_NE x y FX FY) as K. unfold f64_add.
    assert (NN : forall z : f64, is_finite z = true -> Bsign z = false -> (0 <= B2R z)%R).
    { intros [s|s| |s m e H] F S; try discriminate; cbn [B2R Bsign] in *; [lra|]. subst s. apply F2R_ge_0. discriminate. }
    pose proof (NN x FX Sx) as Px. pose proof (NN y FY Sy) as Py.
    destruct (Rlt_bool _ _) in K.
    + destruct K as (_ & F & S). split; [destruct (Bplus mode_NE x y); auto; discriminate|]. rewrite S, Sx, Sy. destruct (Rcompare_spec (B2R x + B2R y) 0); auto. lra.
    + destruct K as (K & _). rewrite Sx in K. destruct (Bplus mode_NE x y) as [s|s| |s m e H]; cbn in K; try discriminate. injection K as ->. auto.
  - destruct y as [s|s| |s m e H]; try discriminate. cbn [Bsign] in Sy. subst s. destruct x as [s|s| |s m e H]; try discriminate; auto.
  - destruct x as [s|s| |s m e H]; try discriminate. cbn [Bsign] in Sx. subst s. destruct y as [s|s| |s m e H]; try discriminate; auto.
  - destruct x as [s|s| |s m e H]; try discriminate. destruct y as [t|t| |t m e H]; try discriminate. cbn [Bsign] in *. subst. auto.
Qed.
Lemma account_sign p total l : 0 < total < 2 ^ 100 -> Forall (fun q => is_duration (q_self_time q)) l -> forall acc, is_nan acc = false -> Bsign acc = false -> Bsign (account p total acc l) = false.
Proof.
  intros HT. induction 1 as [|q l H F IH]; intros acc NA SA; cbn [account]; [exact SA|]. destruct (below p total (q_self_time q)); [exact SA|]. apply duration_bound in H.
  destruct (percent_sign (q_self_time q) total) as (A & B); [lia|auto|]. rewrite (proj2 (Z.ltb_ge _ _)) in B by lia. assert (NN : is_nan (percent_of total (q_self_time q)) = false) by (destruct (percent_of total (q_self_time q)); auto; discriminate). destruct (add_sign acc (percent_of total (q_self_time q))); auto.
Qed.
(** the text of a number close to a real one *)
Lemma says_real_near d e1 e2 t r r' : says_real d e1 t r -> (Rabs (r - r') <= e2)%R -> says_real d (e1 + e2) t r'.
Proof.
  intros (i & f & A & B & C & D) H. exists i, f. split; [exact A|]. split; [exact B|]. split; [exact C|]. set (v := (IZR (denotes (i ++ f)) / IZR (10 ^ d))%R) in *.
  replace (v - r')%R with ((v - r) + (r - r'))%R by ring. eapply Rle_trans; [apply Rabs_triang|]. lra.
Qed.
Lemma half_3 : (/ 2 / IZR (P 3) = / 2000)%R. Proof. change (P 3) with 1000. lra. Qed.
Lemma half_2 : (/ 2 / IZR (P 2) = / 200)%R. Proof. change (P 2) with 100. lra. Qed.

(** ** The summary *)
Lemma cell_text_ok ties total c : is_duration total ->
  match c with Text _ => True | Dur n => 0 <= n | SDur d => 0 <= sd_duration d | Num n => 0 <= n | Percent self => is_duration self | SNum _ => True end ->
  cell_says total c (cell_text ties total c).
Proof.
  intros HT. destruct c as [b|n|d|n|self|n]; cbn [cell_says cell_text]; intros H.
  - reflexivity.
  - apply (C64_rounded ties 2). exact H.
  - apply C64_signed, H.
  - apply decimal_numeral, H.
  - pose proof (duration_bound _ HT) as BT. pose proof (duration_bound _ H) as BS. split.
    + intros HP. destruct (percent_sign self total) as (F & S); [lia|lia|]. rewrite (proj2 (Z.ltb_ge _ _)) in S by lia.
      destruct (f64_text_ok ties false 3 (percent_of total self) F) as (t & E & R). rewrite S in E. cbn [sgn_text app] in E. rewrite E. rewrite half_3 in R. eapply says_real_near; [exact R|].
      destruct (C61_percent total self HT H) as (K & _). destruct (K HP) as ((_ & K1) & K2 & _). rewrite (Rabs_pos_eq (B2R _)) by exact K2. rewrite (Rabs_pos_eq (share total self)) in K1; [exact K1|]. apply (share_bounds total self H). lia.
    + intros ->. destruct (C61_percent 0 self HT H) as (_ & K1 & K2). destruct (Z.eqb_spec self 0) as [->|N]; [rewrite K1 by auto; reflexivity|]. rewrite K2 by lia. reflexivity.
  - unfold signed_int_text, says_signed_int. destruct (Z.ltb_spec n 0).
    + exists 45, (decimal (- n)). split; [reflexivity|]. replace (Z.abs n) with (- n) by lia. split; [apply decimal_numeral; lia|lia].
    + exists 43, (decimal n). split; [reflexivity|]. replace (Z.abs n) with n by lia. split; [apply decimal_numeral; lia|lia].
Qed.
Lemma column_cell q c : row_valid q ->
  match column_value q c with Text _ => True | Dur n => 0 <= n | SDur d => 0 <= sd_duration d | Num n => 0 <= n | Percent self => is_duration self | SNum _ => True end.
Proof.
  intros (A & B & C & D & E & F & G). unfold column_value. repeat (match goal with |- context [if ?b then _ else _] => destruct b end; [first [exact I|unfold is_duration in *; lia|assumption]|]). unfold is_duration in E. lia.
Qed.
Lemma Forall2_map_r {A B} (R : A -> B -> Prop) (f : A -> B) l : Forall (fun x => R x (f x)) l -> Forall2 R l (map f l).
Proof. induction 1; cbn [map]; constructor; auto. Qed.

(** What [summarize summarize] prints, cell by cell: C61 says which rows are shown, C43 which columns. *)
Theorem C65_summary : forall ties p r, results_valid r ->
  match summarize_main p r, summarize_text ties p r with
  | None, None => True
  | Some (t, _, _), Some out =>
      exists q shown texts, Permutation q (query_data r) /\ descending q_self_time q /\
        (forall q, In q (query_data r) -> shown q = false <-> 0 < total_time r /\ is_finite p = true /\ (B2R (percent_of (total_time r) (q_self_time q)) < B2R p)%R) /\
        out_activities out = header t :: texts /\ header t = header (fst (summarize (below p (total_time r)) r)) /\
        Forall2 (fun q row => Forall2 (fun column text => cell_says (total_time r) (column_value q column) text) (header t) row) (filter shown q) texts /\
        (exists text, out_total out = str "Total cpu time: " ++ text /\ says_exactly text (total_time r)) /\
        (out_filtered out = None <-> is_finite p = true /\ B2R p = 0%R) /\
        (forall line, out_filtered out = Some line -> 0 < total_time r -> zlen (filter shown q) <= 2 ^ 50 ->
           exists text, line = str "Filtered results account for " ++ text ++ str "% of total time." /\
             let sum := shares (total_time r) (map q_self_time (filter shown q)) in says_real 3 (/ 2000 + (IZR (zlen (filter shown q)) + 8) / 2 ^ 52 * sum) text sum) /\
        exists arts, out_artifacts out = [str "Item"; str "Artifact Size"] :: arts /\
          Forall2 (fun a row => exists n, row = [art_label a; n ++ str " bytes"] /\ numeral n (art_value a)) (artifact_sizes r) arts
  | _, _ => False
  end.
Proof.
  intros ties p r (HT & HQ & HA). unfold summarize_text. destruct (summarize_main p r) as [((t, a), s)|] eqn:E; [|exact I].
  assert (HS : Forall (fun q => is_duration (q_self_time q)) (query_data r)) by (eapply Forall_impl; [|exact HQ]; intros q H; apply H).
  destruct (C61_rows p r t a s HT HS E) as (q & shown & H1 & H2 & H3 & H4 & _ & H6 & H7). exists q, shown, (map (map (cell_text ties (total_time r))) (rows t)).
  cbn [out_activities out_total out_filtered out_artifacts]. split; [exact H1|]. split; [exact H2|]. split; [exact H4|]. split; [reflexivity|]. split.
  { unfold summarize_main in E. destruct (f64_lt (of_int 100) p); [discriminate|]. destruct (f64_lt p (of_int 0)); [discriminate|]. destruct (summarize (below p (total_time r)) r) as (t', a'). cbn [fst]. congruence. }
  split.
  { rewrite H3, map_map. apply Forall2_map_r. apply Forall_forall. intros x Hx. apply filter_In in Hx. destruct Hx as (Hx & _). assert (HV : row_valid x) by (rewrite Forall_forall in HQ; apply HQ; eapply Permutation_in; eauto).
    rewrite map_map. apply Forall2_map_r. apply Forall_forall. intros c _. apply cell_text_ok; [exact HT|]. apply column_cell, HV. }
  split; [eexists; split; [reflexivity|]; apply C64_exact; unfold is_duration in HT; lia|]. split; [destruct s; cbn [option_map]; [split; [discriminate|intros K; apply H6 in K; discriminate]|tauto]|]. split.
  - intros line EL HP HZ. destruct s as [x|]; [|discriminate EL]. cbn [option_map] in EL. injection EL as <-. destruct (H7 x eq_refl HP HZ) as (FX & EX).
    assert (SX : Bsign x = false).
    { unfold summarize_main in E. destruct (f64_lt (of_int 100) p); [discriminate|]. destruct (f64_lt p (of_int 0)); [discriminate|]. destruct (f64_ne p (of_int 0)); [|discriminate E].
      assert (EA : account p (total_time r) (of_int 0) (sort_desc q_self_time (query_data r)) = x) by (generalize dependent (account p (total_time r) (of_int 0) (sort_desc q_self_time (query_data r))); intros; congruence).
      rewrite <- EA. apply account_sign; [apply duration_bound in HT; lia| |reflexivity|reflexivity]. eapply Permutation_Forall; [symmetry; apply sort_desc_perm|exact HS]. }
    destruct (f64_text_ok ties false 3 x FX) as (tx & ET & RT). rewrite SX in ET. cbn [sgn_text app] in ET. rewrite ET. exists tx. split; [reflexivity|]. cbv zeta. rewrite half_3 in RT.
    eapply says_real_near; [exact RT|]. rewrite (Rabs_pos_eq (B2R x)); [exact EX|]. clear - SX FX. destruct x as [s|s| |s m e H]; try discriminate; cbn [B2R Bsign] in *; [lra|]. subst s. apply F2R_ge_0. discriminate.
  - assert (EA : a = snd (summarize (below p (total_time r)) r)).
    { unfold summarize_main in E. destruct (f64_lt (of_int 100) p); [discriminate|]. destruct (f64_lt p (of_int 0)); [discriminate|]. destruct (summarize (below p (total_time r)) r) as (t', a'). cbn [snd]. congruence. }
    rewrite EA. destruct (C43_artifacts (below p (total_time r)) r) as (-> & ->). eexists. split; [reflexivity|]. rewrite map_map. apply Forall2_map_r. eapply Forall_impl; [|exact HA]. intros x Hx. exists (decimal (art_value x)). split; [reflexivity|]. apply decimal_numeral, Hx.
Qed.
Print Assumptions C65_summary.

(** ** The diff *)
Lemma percent_text_ok ties (fld : qdata -> Z) base change l x : Forall row_fits base -> Forall row_fits change -> (forall q, row_fits q -> dur_fits (fld q)) ->
  In l (map q_label base ++ map q_label change) -> row_percent fld base change l = Ok x -> percent_says fld base change l (f64_text ties true 2 x ++ str "%").
Proof.
  intros Fb Fc Hf Hl E. destruct (C60_diff_percent fld base change l) as (x' & E' & H); auto; [eapply Forall_impl; [|exact Fb]; intros q Hq; apply is_duration_fits, Hf, Hq|eapply Forall_impl; [|exact Fc]; intros q Hq; apply is_duration_fits, Hf, Hq|].
  rewrite E in E'. injection E' as <-. unfold percent_says. unfold row_percent in E. rewrite !lookup_entry in E. cbn [bind] in E. destruct (entry q_label base l) as [b|] eqn:EB; destruct (entry q_label change l) as [c|] eqn:EC.
  - pose proof (entry_Some _ _ _ _ EB) as (IB & _). pose proof (entry_Some _ _ _ _ EC) as (IC & LC). rewrite Forall_forall in Fb, Fc. pose proof (Hf _ (Fb _ IB)) as HB. pose proof (Hf _ (Fc _ IC)) as HC. unfold dur_fits in HB, HC.
    destruct H as (H1 & H2 & H3). cbv zeta. split.
    + intros HP. destruct (H1 HP) as ((FX & EX) & _). change (percentage_change (fld b) (fld c)) with (percent_of (fld b) (fld c - fld b)) in E. injection E as <-.
      destruct (percent_sign (fld c - fld b) (fld b)) as (_ & S); [lia|lia|]. destruct (f64_text_ok ties true 2 _ FX) as (t & ET & RT). rewrite S in ET.
      exists (if fld c - fld b <? 0 then 45 else 43), t. split; [rewrite ET; destruct (fld c - fld b <? 0); reflexivity|]. split; [|destruct (Z.ltb_spec (fld c - fld b) 0); lia].
      rewrite half_2 in RT. eapply says_real_near; [exact RT|]. eapply Rle_trans; [apply Rabs_triang_inv2|exact EX].
    + intros Z0. destruct (Z.eqb_spec (fld c) 0) as [Z1|Z1]; [rewrite (H3 Z0 Z1); reflexivity|rewrite (H2 Z0 ltac:(lia)); reflexivity].
  - injection E as <-. destruct ties; vm_compute; reflexivity.
  - rewrite H. reflexivity.
  - destruct H.
Qed.
Lemma signed_cell ties d n : sd_ok d -> as_nanos d = n -> says_signed (signed_text ties (Some 2%nat) d) n.
Proof. intros H <-. apply C64_signed. apply H. Qed.
Lemma int_cell n : says_signed_int (signed_int_text n) n.
Proof. apply (cell_text_ok true 0 (SNum n)); [unfold is_duration; lia|exact I]. Qed.
Lemma full_row_says ties base change f : Forall row_fits base -> Forall row_fits change -> In (d_label (fr_row f)) (map q_label base ++ map q_label change) ->
  good_row base change f -> diff_row_says base change (d_label (fr_row f)) (diff_row_text ties f).
Proof.
  intros Fb Fc Hl ((X1 & X2 & X3 & X4 & X5 & X6 & X7 & X8) & (V1 & V2 & V3 & V4 & V5 & _) & P1 & P2). unfold diff_row_says, diff_row_text.
  do 9 eexists. split; [reflexivity|]. split; [apply signed_cell; auto|]. split; [apply percent_text_ok; auto; intros q Hq; apply Hq|]. split; [apply signed_cell; auto|]. split; [apply percent_text_ok; auto; intros q Hq; apply Hq|].
  assert (IC : forall a b, a = b -> says_signed_int (signed_int_text a) b) by (intros a b <-; apply int_cell). split; [apply IC; auto|]. split; [apply IC; auto|]. split; [apply signed_cell; auto|split; apply signed_cell; auto].
Qed.
Lemma descending_filter {A} (k : A -> Z) g l : descending k l -> descending k (filter g l).
Proof.
  unfold descending. induction 1 as [|x l S IH F]; cbn [filter]; [constructor|]. destruct (g x); [|exact IH]. constructor; [exact IH|]. rewrite Forall_forall in *. intros y Hy. apply filter_In in Hy. apply F, Hy.
Qed.
(** What [summarize diff] prints: a row for every activity of either profile that is not excluded, in order of decreasing
    magnitude of the self time change, the difference of the totals, and a row for every artifact that is not excluded. *)
Theorem C66_diff : forall ties oc order exclude base change,
  (forall k (l : list bytes), Permutation (order k l) l) -> results_fit base -> results_fit change ->
  exists labels activities total artifacts sizes,
    diff_print ties oc order exclude base change =
      Ok (map str ["Item"; "Self Time"; "Self Time Change"; "Time"; "Time Change"; "Item count"; "Cache hits"; "Blocked time"; "Incremental load time"; "Incremental hashing time"]%string :: activities,
          str "Total cpu time: " ++ total, map str ["Item"; "Artifact Size Change"]%string :: sizes) /\
    let kept l := ~ exists e, In e exclude /\ substring e l in
    NoDup labels /\ (forall l, In l labels <-> (In l (map q_label (query_data base)) \/ In l (map q_label (query_data change))) /\ kept l) /\
    descending (fun l => Z.abs (delta q_label q_self_time (query_data base) (query_data change) l)) labels /\
    Forall2 (diff_row_says (query_data base) (query_data change)) labels activities /\
    says_signed total (total_time change - total_time base) /\
    NoDup artifacts /\ (forall l, In l artifacts <-> (In l (map art_label (artifact_sizes base)) \/ In l (map art_label (artifact_sizes change))) /\ kept l) /\
    descending (delta art_label art_value (artifact_sizes base) (artifact_sizes change)) artifacts /\
    Forall2 (diff_artifact_says (artifact_sizes base) (artifact_sizes change)) artifacts sizes.
Proof.
  intros ties oc order exclude base change HO Fb Fc.
  destruct (full_diff_ok oc order base change HO Fb Fc) as (d & E & EC & G & GA & GT). destruct (C31_diff oc order base change HO Fb Fc) as (d' & E' & N1 & I1 & X1 & D1 & N2 & I2 & X2 & D2 & T).
  rewrite EC in E'. injection E' as <-. cbn [dr_query dr_artifacts dr_total] in *.
  assert (KX : forall l, negb (excluded exclude l) = true <-> ~ exists e, In e exclude /\ substring e l).
  { intros l. unfold excluded. rewrite negb_true_iff. split.
    - intros H (e & H1 & H2). apply str_contains_spec in H2. apply not_true_iff_false in H. apply H. apply existsb_exists. eauto.
    - intros H. apply not_true_iff_false. intros H'. apply existsb_exists in H'. destruct H' as (e & H1 & H2). apply H. exists e. split; auto. apply str_contains_spec; auto. }
  set (Q := filter (fun f => negb (excluded exclude (d_label (fr_row f)))) (fd_query d)). set (A := filter (fun a => negb (excluded exclude (ad_label a))) (fd_artifacts d)).
  exists (map (fun f => d_label (fr_row f)) Q), (map (diff_row_text ties) Q), (signed_text ties None (fd_total d)), (map ad_label A), (map (fun a => [ad_label a; int_text (ad_change a) ++ str " bytes"]) A).
  split; [unfold diff_print; rewrite E; reflexivity|]. cbv zeta.
  rewrite map_map in N1, I1.
  assert (ND : forall {X} (f : X -> bytes) (g : X -> bool) l, NoDup (map f l) -> NoDup (map f (filter g l))).
  { clear. intros X f g l. induction l as [|x l IH]; cbn [map filter]; [auto|]. intros H. inversion H as [|? ? H1 H2]; subst. destruct (g x); [|auto]. cbn [map]. constructor; auto. intros K. apply H1. apply in_map_iff in K. destruct K as (y & E & K). apply filter_In in K. apply in_map_iff. exists y. tauto. }
  assert (NI : forall {X} (f : X -> bytes) l k, In k (map f (filter (fun x => negb (excluded exclude (f x))) l)) <-> In k (map f l) /\ ~ exists e, In e exclude /\ substring e k).
  { intros X f l k. rewrite <- KX, !in_map_iff. split; [intros (x & <- & H); apply filter_In in H; destruct H; eauto 10|intros ((x & <- & H) & K); exists x; split; auto; apply filter_In; auto]. }
  split; [apply ND, N1|]. split; [intros l; unfold Q; rewrite (NI _ (fun f => d_label (fr_row f))), I1; tauto|]. split.
  { assert (DF : descending (fun f => Z.abs (delta q_label q_self_time (query_data base) (query_data change) (d_label (fr_row f)))) Q).
    { apply descending_filter. clear - D1 X1. unfold descending in *. induction (fd_query d) as [|f l IH]; [constructor|]. cbn [map] in D1, X1. inversion D1 as [|? ? S1 S2]; subst. inversion X1 as [|? ? Y1 Y2]; subst. constructor; auto.
      rewrite Forall_forall. intros g Hg. rewrite Forall_forall in S2, Y2. pose proof (in_map fr_row _ _ Hg) as Hg'. specialize (S2 _ Hg'). specialize (Y2 _ Hg'). destruct Y1 as (_ & Y1 & _). destruct Y2 as (_ & Y2' & _). rewrite Y1, Y2' in S2. exact S2. }
    eapply (descending_map (fun f => d_label (fr_row f))); [|exact DF]. apply Forall_forall. reflexivity. }
  split. { apply Forall2_same. apply Forall_forall. intros f Hf. apply filter_In in Hf. destruct Hf as (Hf & _). rewrite Forall_forall in G. destruct Fb as (Fb & _). destruct Fc as (Fc & _). apply full_row_says; auto. apply in_or_app, I1. apply (in_map (fun f => d_label (fr_row f))), Hf. }
  split; [rewrite <- T; apply C64_signed, GT|]. split; [apply ND, N2|]. split; [intros l; unfold A; rewrite (NI _ ad_label), I2; tauto|]. split.
  { assert (DF : descending (fun a => delta art_label art_value (artifact_sizes base) (artifact_sizes change) (ad_label a)) A).
    { apply descending_filter. clear - D2 X2. unfold descending in *. induction (fd_artifacts d) as [|f l IH]; [constructor|]. inversion D2 as [|? ? S1 S2]; subst. inversion X2 as [|? ? Y1 Y2]; subst. constructor; auto.
      rewrite Forall_forall. intros g Hg. rewrite Forall_forall in S2, Y2. rewrite <- Y1, <- (Y2 g Hg). apply S2, Hg. }
    eapply (descending_map ad_label); [|exact DF]. apply Forall_forall. reflexivity. }
  apply Forall2_same. apply Forall_forall. intros a Ha. apply filter_In in Ha. destruct Ha as (Ha & _). rewrite Forall_forall in X2. unfold diff_artifact_says. rewrite <- (X2 a Ha). unfold int_text. destruct (Z.ltb_spec (ad_change a) 0).
  - exists (decimal (- ad_change a)). split; [reflexivity|]. replace (Z.abs (ad_change a)) with (- ad_change a) by lia. apply decimal_numeral. lia.
  - exists (decimal (ad_change a)). split; [reflexivity|]. replace (Z.abs (ad_change a)) with (ad_change a) by lia. apply decimal_numeral. lia.
Qed.
Print Assumptions C66_diff.
Example C65_example : let r := mkRes [mkQ (str "a") 3 3 0 0 1 0 0 0; mkQ (str "b") 12345678 7 0 2 3 0 0 0] [mkArt (str "dep_graph") 9] 10 in
  results_valid r /\
  summarize_text true (of_int 50) r = Some (mkOut
    [map str ["Item"; "Self time"; "% of total time"; "Time"; "Item count"; "Cache hits"]%string; map str ["b"; "7.00ns"; "70.000"; "12.35ms"; "3"; "2"]%string]
    (str "Total cpu time: 10ns") (Some (str "Filtered results account for 70.000% of total time."))
    [map str ["Item"; "Artifact Size"]%string; map str ["dep_graph"; "9 bytes"]%string]) /\
  summarize_text true (of_int 101) r = None.
Proof.
  intros r. split; [unfold results_valid, row_valid, is_duration; repeat first [apply conj|apply Forall_cons|apply Forall_nil]; cbn; lia|]. split; vm_compute; reflexivity.
Qed.
Example C66_example : results_fit ex63_base /\ results_fit ex63_change /\
  diff_print true true (fun _ l => l) [] ex63_base ex63_change = Ok
    ([map str ["Item"; "Self Time"; "Self Time Change"; "Time"; "Time Change"; "Item count"; "Cache hits"; "Blocked time"; "Incremental load time"; "Incremental hashing time"]%string;
      map str ["typeck"; "+2ns"; "+50.00%"; "+2ns"; "+50.00%"; "+1"; "+1"; "+0ns"; "+0ns"; "+0ns"]%string], str "Total cpu time: -2ns",
     [map str ["Item"; "Artifact Size Change"]%string; map str ["dep_graph"; "7 bytes"]%string]) /\
  diff_print true true (fun _ l => l) [str "check"; str "eck"] ex63_base ex63_change = Ok
    ([map str ["Item"; "Self Time"; "Self Time Change"; "Time"; "Time Change"; "Item count"; "Cache hits"; "Blocked time"; "Incremental load time"; "Incremental hashing time"]%string],
     str "Total cpu time: -2ns", [map str ["Item"; "Artifact Size Change"]%string; map str ["dep_graph"; "7 bytes"]%string]).
Proof. split; [apply C63_example|]. split; [apply C63_example|]. split; vm_compute; reflexivity. Qed.
