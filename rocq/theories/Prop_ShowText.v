(** C84: the report of [summarize aggregate] and the file of [summarize diff --json] with the texts of machine numbers of M_ShowF64.v. *)
From Coq Require Import String ZArith Reals List Lia Lra Bool Permutation.
From Flocq Require Import Core BinarySingleNaN.
From Verif Require Import M_Base F_Base M_Raw M_V8 M_Map S_Utf8 M_Crox S_Crox M_Analysis S_Analysis F_Analysis S_Json F_Json M_Json Prop_Json M_Diff S_Diff F_Diff Prop_Diff M_Summarize M_Float S_Float Prop_Float M_DiffJson S_DiffJson Prop_DiffJson.
From Verif Require Import S_Tools Prop_Tools S_Text M_Aggregate S_Aggregate F_Aggregate Prop_Aggregate S_Extrema Prop_Aggregate2 M_AggText S_AggText Prop_AggText M_ReadF64 S_ReadF64 Prop_ReadF64 M_ShowF64 S_ShowF64 Prop_ShowF64.
Import ListNotations.
Open Scope Z_scope.

(** * The report of [summarize aggregate] *)
Lemma half_zero : Bsign (half 0) = false.
Proof. reflexivity. Qed.
Lemma half_sign k : 0 <= k < 2 ^ 100 -> Bsign (half k) = false.
Proof.
  intros H. destruct (Z.eq_dec k 0) as [->|N]; [exact half_zero|]. assert (PX : (0 < B2R (half k))%R).
  { destruct (Z.eq_dec k 1) as [->|N1]; [rewrite half_exact by lia; lra|]. destruct (half_relative k ltac:(lia)) as (P & _). lra. }
  destruct (half k) as [s|s| |s m e Hb]; try (cbn in PX; exfalso; lra). destruct s; [|reflexivity]. exfalso. cbn in PX. assert (Q : (F2R (beta := radix2) {| Fnum := Z.neg m; Fexp := e |} < 0)%R) by (apply F2R_lt_0; reflexivity). lra.
Qed.
Lemma half_displays k : 0 <= k < 2 ^ 100 -> displays (half k) (show_f64 (half k)).
Proof. intros H. apply C84_displays; [apply half_ok, H|apply half_sign, H]. Qed.
Lemma range_bound profiles PS aggs : profiles <> [] -> Forall single_thread profiles -> Forall times_ok profiles -> Forall2 points_of profiles PS -> aggregated (map between PS) aggs ->
  forall a, In a aggs -> 0 <= ag_range a < 2 ^ 100.
Proof.
  intros NE ST HT F A. assert (G : forall pts, In pts PS -> exists evs, In evs profiles /\ points_of evs pts).
  { clear - F. induction F as [|x y l PS Hx F IH]; intros pts Hp; [destruct Hp|]. destruct Hp as [<-|Hp]; [exists x; split; [left; auto|auto]|]. destruct (IH _ Hp) as (evs & A & B). exists evs. split; [right; auto|auto]. }
  rewrite Forall_forall in ST, HT. assert (NP : PS <> []) by (intros ->; inversion F; congruence). pose proof (aggregated_pos _ _ A) as AP. assert (AB : Forall (fun a => ag_min a + ag_range a <= DURATION_MAX) aggs).
  { eapply aggregated_bound; [|exact A|]; [destruct PS; [congruence|discriminate]|]. intros I i d HI Hi Hd. apply in_map_iff in HI. destruct HI as (pts & <- & Hp). destruct (G _ Hp) as (evs & He & Hpt).
    destruct (C34_walk evs (ST _ He)) as (pts' & D' & W & M). pose proof (drains_det _ _ _ Hpt _ D') as Q. injection Q as <-.
    destruct (between_sorted _ _ (walk_sorted _ W) i Hi) as (_ & I1 & I2). pose proof (walk_matches _ _ W) as HM. rewrite Forall_forall in HM.
    unfold si_duration in Hd. rewrite !matches_time in Hd by auto. cbn [bind] in Hd. destruct (_ <=? _); [|discriminate]. injection Hd as <-.
    pose proof (time_bounds _ _ (HT _ He) (ST _ He) Hpt _ I1). pose proof (time_bounds _ _ (HT _ He) (ST _ He) Hpt _ I2). lia. }
  rewrite Forall_forall in AP, AB. assert (DM : DURATION_MAX < 2 ^ 100) by reflexivity. intros a Ha. specialize (AP _ Ha). specialize (AB _ Ha). cbv beta in AP, AB. lia.
Qed.
(** The text of [summarize aggregate] says what C67 says of it, with no assumption about how machine numbers are written. *)
Theorem C84_report : forall ties oc profiles PS,
  profiles <> [] -> Forall single_thread profiles -> Forall chronological profiles -> Forall times_ok profiles ->
  Forall (fun evs => zlen (timed evs) < 2 ^ 30) profiles ->
  Forall2 points_of profiles PS -> (forall pts pts', In pts PS -> In pts' PS -> outline pts = outline pts') ->
  exists aggs text, aggregated (map between PS) aggs /\ (forall out, aggregate_prints ties show_f64 oc profiles out <-> out = Ok text) /\ report_says aggs text.
Proof.
  intros ties oc profiles PS NE ST HC HT HL F HO. destruct (C67_text ties show_f64 oc profiles PS NE ST HC HT HL F HO) as (aggs & text & A & P & R). exists aggs, text. split; [exact A|]. split; [exact P|]. apply R. intros a Ha. apply half_displays. exact (range_bound profiles PS aggs NE ST HT F A a Ha).
Qed.

(** * The file of [summarize diff --json] *)
Lemma json_float_text x : is_finite x = true -> float_text (json_f64 x).
Proof. intros H. apply C84_json, H. Qed.
(** The file is read back as the diff it was written from, percentages included, by every reader that takes the nearest machine number, if every
    activity of the second profile is also in the first one with non-zero times there. *)
Theorem C84_diff_file : forall oc order rd base change,
  (forall k (l : list bytes), Permutation (order k l) l) -> results_fit base -> results_fit change -> labels_ok base -> labels_ok change -> comparable (query_data base) (query_data change) ->
  (forall text x, stands_for text x -> rd text = x) ->
  exists d text, full_calculate_diff oc order base change = Ok d /\ diff_main json_f64 oc order true [] base change = Ok (WroteJson text) /\ read_diff rd text = Ok d.
Proof.
  intros oc order rd base change HO Fb Fc Lb Lc CM HR. destruct (C63_reads_back oc order json_f64 rd base change HO Fb Fc Lb Lc json_float_text CM) as (d & text & E & W & R). exists d, text. split; [exact E|]. split; [exact W|]. apply R. intros f Hf.
  destruct (full_diff_ok oc order base change HO Fb Fc) as (d0 & E0 & EC & G & _ & _). rewrite E in E0. injection E0 as <-. destruct (C31_diff oc order base change HO Fb Fc) as (d' & E' & _ & I1 & _). rewrite EC in E'. injection E' as <-. cbn [dr_query] in I1.
  assert (L1 : In (d_label (fr_row f)) (map q_label (query_data base) ++ map q_label (query_data change))).
  { assert (K : In (d_label (fr_row f)) (map d_label (map fr_row (fd_query d)))) by (rewrite map_map; apply (in_map (fun f => d_label (fr_row f))); exact Hf). apply I1 in K. apply in_or_app, K. }
  rewrite Forall_forall in G. destruct (G f Hf) as (_ & _ & P1 & P2). destruct Fb as (Fb & _). destruct Fc as (Fc & _).
  assert (K1 : is_finite (fr_time_change f) = true) by (apply (percent_finite q_time _ _ _ _ Fb Fc ltac:(intros q Hq; apply Hq) L1 P1); intros HI; destruct (CM _ HI) as (b & Eb & A & B); eauto).
  assert (K2 : is_finite (fr_self_time_change f) = true) by (apply (percent_finite q_self_time _ _ _ _ Fb Fc ltac:(intros q Hq; apply Hq) L1 P2); intros HI; destruct (CM _ HI) as (b & Eb & A & B); eauto).
  split; apply HR, C83_reads, C84_json; assumption.
Qed.

(** * Cases *)
(** 1/3, 0.1, the smallest and the largest number, 2^53, 10^16, 10^23 and the number before it *)
Definition f64_of (neg : bool) (m : positive) (e : Z) (H : SpecFloat.bounded 53 1024 m e = true) : f64 := B754_finite neg m e H.
Definition ex84 : list f64 :=
  [f64_of false 6004799503160661 (-54) eq_refl; f64_of true 7205759403792794 (-56) eq_refl; f64_of false 1 (-1074) eq_refl; f64_of false 4503599627370496 1 eq_refl; f64_of false 5000000000000000 1 eq_refl;
   f64_of false 5960464477539062 24 eq_refl; f64_of false 5960464477539061 24 eq_refl; f64_of false 7036874417766400 (-47) eq_refl].
Example ex_C84_show : map show_f64 (firstn 2 ex84 ++ skipn 3 ex84) =
  [str "0.3333333333333333"; str "-0.1"; str "9007199254740992"; str "10000000000000000"; str "100000000000000000000000"; str "99999999999999970000000"; str "50"].
Proof. vm_compute. reflexivity. Qed.
Example ex_C84_json : map json_f64 ex84 =
  [str "0.3333333333333333"; str "-0.1"; str "5e-324"; str "9007199254740992.0"; str "1e16"; str "1e23"; str "9.999999999999997e22"; str "50.0"].
Proof. vm_compute. reflexivity. Qed.
