(** C84: from timing guards to the report of [summarize aggregate], with the texts of machine numbers of M_ShowF64.v.  C74_aggregate, without the assumption
    about how machine numbers are written. *)
From Coq Require Import String ZArith List Lia Bool Permutation Sorted Reals.
From Flocq Require Import BinarySingleNaN.
From Verif Require Prop_ShowText.
From Verif Require Import M_Base F_Base M_Sink S_Sink M_Conc S_Conc M_Raw M_Header M_V8 M_Iter M_Session S_Session F_Session M_Run S_Run Prop_Run M_Guard S_Guard Prop_Guard S_Utf8 S_Whole Prop_Whole
  M_Map M_Path Prop_Path M_Open M_Analysis S_Analysis S_Summary F_Session2 F_Run M_Float M_Tools M_Programs S_Programs Prop_Programs Prop_Needed S_EndToEnd Prop_EndToEnd.
From Verif Require Import M_Aggregate S_Aggregate F_Aggregate Prop_Aggregate Prop_Aggregate2 M_AggText S_AggText Prop_AggText Prop_EndToEnd2.
Import ListNotations.
Open Scope Z_scope.

Theorem C84_recorded : forall s runs, show_f64 s = M_ShowF64.show_f64 ->
  Forall (fun x => proper (sr_en x) (parse_metadata s) (sr_run x) /\ single_run (sr_history x) /\ 0 <= md_start_time (md_value (sr_run x)) < 2 ^ 63) runs -> runs <> [] ->
  exists Ks, Forall2 (fun x K => linearization (sr_history x) K) runs Ks /\
  forall ess, Forall2 (fun xK es => records (sr_run (fst xK)) (snd xK) es) (combine runs Ks) ess -> Forall (fun es => zlen es < 2 ^ 30) ess ->
  exists PS, Forall2 (fun es pts => walk None pts /\ met pts = rev (timed es)) ess PS /\
    ((forall pts pts', In pts PS -> In pts' PS -> outline pts = outline pts') ->
     exists m aggs text, aggregated (map between PS) aggs /\ report_says aggs text /\
       forall f w, (m <= f)%nat -> Forall (stored w) runs -> forall r, aggregate_cmd (with_fuel s f) w (map sr_path runs) r <-> r = mkRun (Some text) w Success).
Proof.
  intros s runs SH HR NE. destruct (all_open s runs HR) as (Ks & L & H). exists Ks. split; [exact L|]. intros ess HF HL.
  destruct (H ess) as (A1 & A2 & A3 & m & A4); [eapply Forall_impl; [|exact HL]; intros es; cbv beta; lia|exact HF|].
  assert (NE2 : ess <> []). { intros ->. inversion HF as [E|]. destruct runs; [congruence|]. inversion L; subst. discriminate. }
  assert (P : exists PS, Forall2 points_of ess PS /\ Forall2 (fun es pts => walk None pts /\ met pts = rev (timed es)) ess PS).
  { clear -A1. induction A1 as [|es ess H1 _ (PS & I1 & I2)]; [exists []; auto|]. destruct (C34_walk es H1) as (pts & D & W). exists (pts :: PS). split; constructor; auto. }
  destruct P as (PS & P1 & P2). exists PS. split; [exact P2|]. intros HO.
  assert (HL2 : Forall (fun es => zlen (timed es) < 2 ^ 30) ess).
  { eapply Forall_impl; [|exact HL]. intros es. cbv beta. intros LE. unfold timed. enough (zlen (filter (fun e => negb (p_is_integer (ev_payload e))) es) <= zlen es) by lia. clear. induction es as [|e es IH]; [reflexivity|]. cbn [filter]. destruct (negb _); rewrite ?zlen_cons; lia. }
  destruct (Prop_ShowText.C84_report (ties s) (oc s) ess PS NE2 A1 A2 A3 HL2 P1 HO) as (aggs & text & G1 & G2 & G3). rewrite <- SH in G2. exists m, aggs, text. split; [exact G1|]. split; [exact G3|].
  intros f w Hf HW r. destruct (A4 f w Hf HW) as (ps & O & I). split.
  - intros R. destruct R as [t H0|H0|H0|ps' es' out H0 H1 H2|ps' H0 H1]; rewrite O in H0; try discriminate; injection H0 as <-; rewrite I in H1.
    + injection H1 as <-. cbn [with_fuel ties show_f64 oc] in H2. apply G2 in H2. subst out. reflexivity.
    + exfalso. exact (H1 ess eq_refl).
  - intros ->. apply (ac_run (with_fuel s f) w (map sr_path runs) ps ess (Ok text) O I). cbn [with_fuel ties show_f64 oc]. apply G2. reflexivity.
Qed.
