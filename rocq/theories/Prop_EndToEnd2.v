(** C74, aggregate: from timing guards to the report over several recordings.  Specification S_EndToEnd.v. *)
From Coq Require Import String ZArith List Lia Bool Permutation Sorted Reals.
From Flocq Require Import BinarySingleNaN.
From Verif Require Import M_Base F_Base M_Sink S_Sink M_Conc S_Conc M_Raw M_Header M_V8 M_Iter M_Session S_Session F_Session M_Run S_Run Prop_Run M_Guard S_Guard Prop_Guard S_Utf8 S_Whole Prop_Whole
  M_Map M_Path Prop_Path M_Open M_Analysis S_Analysis S_Summary F_Session2 F_Run M_Float M_Tools M_Programs S_Programs Prop_Programs Prop_Needed S_EndToEnd Prop_EndToEnd.
From Verif Require Import M_Aggregate S_Aggregate F_Aggregate Prop_Aggregate Prop_Aggregate2 M_AggText S_AggText Prop_AggText.
From Verif Require Import M_Strings S_Strings.
From Verif Require Prop_Whole2 Prop_Strings F_Utf8.
Import ListNotations.
Open Scope Z_scope.

(** ** Instants and intervals of a program of nested scopes *)
Lemma times_app a b : times (a ++ b) = times a ++ times b.
Proof. induction a as [|[] a IH]; cbn; auto; f_equal; auto. Qed.
Lemma timed_run p : nested p -> forall gs lo hi, StronglySorted Z.le (map snd p) -> timely p ->
  Forall (fun x => lo <= snd x <= hi) p ->
  laminar (times (grun gs p)) /\ Forall (Prop_Guard.within lo hi) (times (grun gs p)).
Proof.
  induction 1 as [|k t p Hk _ IH|o o' h kind id id' tid t0 t1 p q Hs Hf Hn _ IHp _ IHq]; intros gs lo hi HS HT HB.
  - cbn. auto.
  - cbn [grun gstep app]. cbn [map snd] in HS. inversion HS as [|? ? HS1 HS2]; subst. inversion HB as [|? ? HB1 HB2]; subst. inversion HT as [|? ? HT1 HT2]; subst. cbn [fst snd] in HT1, HB1.
    destruct (IH gs lo hi) as [I1 I2]; auto.
    destruct k; cbn [times]; auto; [|exfalso; eapply Hk; reflexivity]. subst now.
    assert (L : Forall (Prop_Guard.within t hi) (times (grun gs p))).
    { apply (IH gs t hi); auto. rewrite Forall_map in HS2. rewrite Forall_forall in *. intros x Hx. split; [apply HS2, Hx|apply HB2, Hx]. }
    split.
    + cbn [laminar fst snd]. split; [lia|]. split; [|exact I1]. eapply Forall_impl; [|exact L]. intros a (A & _). left. cbn [snd]. exact A.
    + constructor; [|exact I2]. unfold Prop_Guard.within. cbn [fst snd]. lia.
  - pose proof (C23_one_interval gs [] o p o' q h kind id id' tid t0 t1 Hs Hf Hn) as E. cbn [app] in E. rewrite E. clear E.
    cbn [grun app]. rewrite !times_app. cbn [times app].
    cbn [map snd] in HS. inversion HS as [|? ? HS1 HS2]; subst. rewrite map_app in HS1, HS2. cbn [map snd] in HS1, HS2.
    apply Forall_app in HS2. destruct HS2 as [P1 P2]. inversion P2 as [|? ? P3 P4]; subst.
    inversion HB as [|? ? B1 B2]; subst. apply Forall_app in B2. destruct B2 as [B2 B3]. inversion B3 as [|? ? B4 B5]; subst. cbn [snd] in *.
    inversion HT as [|? ? T1 T2]; subst. apply Forall_app in T2. destruct T2 as [T2 T3]. inversion T3 as [|? ? T4 T5]; subst.
    assert (Sp : StronglySorted Z.le (map snd p) /\ StronglySorted Z.le (t1 :: map snd q) /\ Forall (fun x => x <= t1) (map snd p)).
    { clear -HS1. induction (map snd p) as [|x l IH]; cbn [app] in *; [repeat split; auto; constructor|].
      inversion HS1 as [|? ? A B]; subst. destruct (IH A) as (I1 & I2 & I3). apply Forall_app in B. destruct B as [B1 B2].
      split; [constructor; auto|]. split; auto. constructor; auto. inversion B2; auto. }
    destruct Sp as (Sp & Sq & Sl). inversion Sq as [|? ? Sq1 Sq2]; subst.
    destruct (IHp (gstate gs [(o, t0)]) t0 t1) as [I1 I2]; auto.
    { rewrite Forall_map in P1, Sl. rewrite Forall_forall in *. intros x Hx. split; auto. }
    destruct (IHq (gstate gs ((o, t0) :: p ++ [(o', t1)])) t1 hi) as [J1 J2]; auto.
    { rewrite Forall_map in Sq2. rewrite Forall_forall in *. intros x Hx. split; auto. apply B5; auto. }
    split.
    + apply laminar_app; auto.
      * cbn [laminar fst snd]. split; [lia|]. split; auto. eapply Forall_impl; [|exact J2]. unfold Prop_Guard.within, nests. cbn [fst snd]. intros; lia.
      * eapply Forall_impl; [|exact I2]. intros a (A1 & A2 & A3). constructor.
        -- unfold nests. cbn [fst snd]. lia.
        -- eapply Forall_impl; [|exact J2]. unfold Prop_Guard.within, nests. cbn [fst snd]. intros; lia.
    + apply Forall_app. split; [eapply Forall_impl; [|exact I2]; unfold Prop_Guard.within; intros; lia|]. constructor.
      * unfold Prop_Guard.within. cbn [fst snd]. lia.
      * eapply Forall_impl; [|exact J2]. unfold Prop_Guard.within. intros; lia.
Qed.
(** Recordings made by one thread with nested guards and a clock that does not go backwards are chronological, instants included. *)
Lemma timed_nests gs p : nested p -> monotone p -> timely p -> laminar (times (grun gs p)).
Proof.
  intros Hn Hm Ht. unfold monotone in Hm. apply Sorted_StronglySorted in Hm; [|intros a b c; lia].
  assert (HB : exists lo hi, Forall (fun x : gop * Z => lo <= snd x <= hi) p).
  { clear. induction p as [|[o t] p (lo & hi & IH)]; [exists 0, 0; constructor|].
    exists (Z.min lo t), (Z.max hi t). constructor; cbn [snd]; [lia|]. eapply Forall_impl; [|exact IH]. cbn. intros; lia. }
  destruct HB as (lo & hi & HB). apply (timed_run p Hn gs lo hi Hm Ht HB).
Qed.

(** ** What the linearization has of it *)
Lemma times_proj g t : (forall x, x <> t -> forall k m r, In (k, r) (ueffects (uproj x g)) -> timed_number k <> Some m) ->
  times (map fst (ueffects g)) = times (map fst (ueffects (uproj t g))).
Proof.
  induction g as [|x g IH]; intros H; [reflexivity|].
  assert (H' : forall y, y <> t -> forall k m r, In (k, r) (ueffects (uproj y g)) -> timed_number k <> Some m).
  { intros y Hy k m r Hin. apply (H y Hy k m r). unfold uproj in *. cbn [filter]. destruct (ug_tid x =? y); auto. destruct x; cbn [ueffects]; auto. right; auto. }
  specialize (IH H'). unfold uproj in *. cbn [filter]. destruct x as [t' k|t' k r|t' r]; cbn [ug_tid ueffects].
  - destruct (t' =? t); exact IH.
  - destruct (Z.eqb_spec t' t) as [->|N]; cbn [ueffects map fst].
    + change (times ([k] ++ map fst (ueffects g)) = times ([k] ++ map fst (ueffects (filter (fun e => ug_tid e =? t) g)))). rewrite !times_app. f_equal. exact IH.
    + rewrite <- IH. assert (NT : forall m, timed_number k <> Some m).
      { intros m. apply (H t' N k m r). cbn [filter ug_tid]. rewrite Z.eqb_refl. cbn [ueffects]. left; auto. }
      destruct k; cbn [times timed_number] in *; auto; exfalso; eapply NT; reflexivity.
  - destruct (t' =? t); exact IH.
Qed.
Lemma laminar_single h K : linearization h K -> single_run h ->
  laminar (times (map fst K)) /\ exists n, forall k r m, In (k, r) K -> timed_number k = Some m -> m = n.
Proof.
  intros (g & Hh & HK & HT) (t & n & HA & p & Np & Mp & Tp & E). subst h K.
  assert (EL : forall t, map fst (ueffects (uproj t g)) = calls_by t (uerase g)).
  { intros t'. destruct (HT t') as (l & E'). rewrite <- proj_calls, E', life_calls, life_effects. reflexivity. }
  split.
  - rewrite (times_proj g t); [rewrite EL, E; apply timed_nests; auto|]. intros x Nx k m r Hin C. apply Nx. apply (HA x k m); auto. rewrite <- EL. apply in_map_iff. exists (k, r). auto.
  - exists n. intros k r m Hin Hm. destruct (proj_effects _ _ _ Hin) as (t' & Ht'). apply (HA t' k m); auto. rewrite <- EL. apply in_map_iff. exists (k, r). auto.
Qed.
Lemma times_read md r0 K0 st K es : Forall2 (should_read md r0 K0 st) (recorded K) es ->
  map span (timed es) = map (fun x => (st + fst x, st + snd x)) (times (map fst K)).
Proof.
  revert es. induction K as [|[k r] K IH]; intros es H; cbn [recorded map fst] in *; [inversion H; subst; reflexivity|].
  destruct k; cbn [call_event] in H; cbn [times]; auto; inversion H as [|w e ws es' HR HF]; subst; destruct HR as (_ & _ & Hp & Ht); unfold timed in *; cbn [filter]; rewrite Hp; cbn [S_Session.shown p_is_integer negb map fst snd]; auto;
    f_equal; auto; unfold span; rewrite Hp; reflexivity.
Qed.
Lemma threads_read md r0 K0 st K es n : Forall2 (should_read md r0 K0 st) (recorded K) es -> (forall k r m, In (k, r) K -> timed_number k = Some m -> m = n) ->
  forall e, In e (timed es) -> ev_thread e = n.
Proof.
  revert es. induction K as [|[k r] K IH]; intros es H HN e He; cbn [recorded fst] in *; [inversion H; subst; destruct He|].
  assert (HN' : forall k r m, In (k, r) K -> timed_number k = Some m -> m = n) by (intros k' r' m' Hin; apply (HN k' r'); right; auto). specialize (HN k r).
  destruct k; cbn [call_event] in H; eauto; inversion H as [|w e' ws es' HR HF]; subst; destruct HR as (_ & _ & Hp & Ht); unfold timed in *; cbn [filter] in He; rewrite Hp in He; cbn [S_Session.shown p_is_integer negb] in He; eauto;
    destruct He as [<-|He]; eauto; rewrite Ht; (apply HN; [left; reflexivity|reflexivity]).
Qed.
Lemma instants_read en md r0 K L st es : session en md r0 K L -> Forall2 (should_read md r0 K st) (recorded K) es ->
  forall e, In e (timed es) -> st <= fst (span e) /\ snd (span e) <= st + 2 ^ 64.
Proof.
  intros HS HF. destruct (session_effects en md r0 K L HS) as (L2 & He). apply effects_accepted in He. clear HS. set (K0 := K) in HF at 1. clearbody K0. revert es HF.
  induction He as [|[k r] K' [Hk Ha] _ IH]; intros es HF e Hin; cbn [recorded fst] in *; [inversion HF; subst; destruct Hin|].
  destruct k; cbn [call_event] in HF; eauto; inversion HF as [|w e' ws es' HR HF']; subst; destruct HR as (_ & _ & Hp & Ht); unfold timed in *; cbn [filter] in Hin; rewrite Hp in Hin; cbn [S_Session.shown p_is_integer negb] in Hin; eauto;
    destruct Hin as [<-|Hin]; eauto; unfold span; rewrite Hp; cbn [S_Session.shown fst snd]; cbn [call_ok accepted] in Hk, Ha; unfold is_u64 in *; lia.
Qed.

(** ** Opening the files *)
Lemma single_opens en0 s x : proper en0 (parse_metadata s) x -> single_run (uhist (final en0 x)) -> 0 <= md_start_time (md_value x) < 2 ^ 63 ->
  exists K, linearization (uhist (final en0 x)) K /\
    forall es, zlen es < 2 ^ 64 -> records x K es ->
      single_thread es /\ chronological es /\ times_ok es /\
      exists n, forall f w stem, (n <= f)%nat -> w (reader_path stem) = Some (written_file en0 x) ->
        exists p, open_profile (with_fuel s f) w stem = EOk p /\ pf_iter_full p = Ok es.
Proof.
  intros HP HR HT. pose proof HP as (Hmd & Hst & Hok & Hidle & Hd & Hall & Hm & HU & HO). unfold final in *.
  destruct (concurrent_session en0 (md_text x) (first_ref x) (initial x) (acts x) (drops x) Hmd Hst Hok Hidle Hd Hall) as (K & L & HK & HS & Hsp).
  exists K. split; [exact HK|]. intros es Hlen HF. unfold records in HF.
  destruct (laminar_single _ _ HK HR) as (LK & n0 & HN).
  assert (CH : chronological es). { unfold chronological. rewrite (times_read _ _ _ _ _ _ HF). apply laminar_shift, LK. }
  split. { intros e e' He He'. rewrite (threads_read _ _ _ _ _ _ n0 HF HN e He), (threads_read _ _ _ _ _ _ n0 HF HN e' He'). reflexivity. }
  split; [exact CH|]. split.
  { intros e He. pose proof (instants_read _ _ _ _ _ _ _ HS HF e He) as (B1 & B2). unfold chronological in CH.
    assert (L2 : fst (span e) <= snd (span e)). { apply (laminar_le _ CH). rewrite <- surjective_pairing. apply in_map, He. } unfold DURATION_MAX. lia. }
  destruct (session_decoder_new en0 _ _ K L HS (parse_metadata s) (md_value x) _ Hm Hsp) as (n & Hn).
  destruct (session_iter_full en0 _ _ K L HS (en s) (md_value x) es) as (n' & Hn'); auto.
  { unfold zlen in *. rewrite (Forall2_len _ _ _ HF). lia. }
  exists (n + n')%nat. intros f w stem Hf HW. exists (profile_of (with_fuel s f) (session_decoder K L (md_value x))).
  split; [apply (open_decoded (with_fuel s f) w stem _ _ HW (Hn f ltac:(lia)))|].
  rewrite <- (Hn' f) by lia. unfold pf_iter_full, iter_full, profile_of. cbn [pf_iter pf_full with_fuel M_Programs.en M_Programs.fuel]. destruct (num_events _); reflexivity.
Qed.
(** A finished recording and the place of its file. *)
Record stored_run := mkStored { sr_en : endian; sr_run : recording; sr_dir : path; sr_name : bytes }.
Definition sr_path (x : stored_run) : path := in_dir (sr_dir x) (sr_name x).
Definition stored (w : world) (x : stored_run) : Prop := profile_at w (sr_dir x) (sr_name x) = Some (written_file (sr_en x) (sr_run x)).
Definition sr_history (x : stored_run) : list uev := uhist (final (sr_en x) (sr_run x)).
Lemma all_open s runs : Forall (fun x => proper (sr_en x) (parse_metadata s) (sr_run x) /\ single_run (sr_history x) /\ 0 <= md_start_time (md_value (sr_run x)) < 2 ^ 63) runs ->
  exists Ks, Forall2 (fun x K => linearization (sr_history x) K) runs Ks /\
    forall ess, Forall (fun es => zlen es < 2 ^ 64) ess -> Forall2 (fun xK es => records (sr_run (fst xK)) (snd xK) es) (combine runs Ks) ess ->
      Forall single_thread ess /\ Forall chronological ess /\ Forall times_ok ess /\
      exists m, forall f w, (m <= f)%nat -> Forall (stored w) runs ->
        exists ps, open_all (with_fuel s f) w (map sr_path runs) = EOk ps /\ mapM pf_iter_full ps = Ok ess.
Proof.
  induction 1 as [|x runs (HP & HR & HT) _ (Ks & L & IH)].
  - exists []. split; [constructor|]. intros ess _ H. inversion H; subst. do 3 (split; [constructor|]). exists O. intros. exists []. auto.
  - destruct (single_opens _ s _ HP HR HT) as (K & LK & HK). exists (K :: Ks). split; [constructor; auto|]. intros ess HL HF. cbn [combine] in HF. inversion HF as [|? es ? ess' H1 H2]; subst. cbn [fst snd] in H1.
    inversion HL as [|? ? L1 L2]; subst. destruct (IH ess' L2 H2) as (A1 & A2 & A3 & m & A4). destruct (HK es L1 H1) as (B1 & B2 & B3 & n & B4).
    split; [constructor; auto|]. split; [constructor; auto|]. split; [constructor; auto|]. exists (m + n)%nat. intros f w Hf HW. inversion HW as [|? ? W1 W2]; subst.
    destruct (A4 f w ltac:(lia) W2) as (ps & O1 & O2). unfold stored in W1. rewrite profile_at_reader in W1. destruct (B4 f w _ ltac:(lia) W1) as (p & O3 & O4).
    exists (p :: ps). cbn [map open_all mapM]. unfold sr_path at 1. rewrite O3. cbn [ebind]. rewrite O1. cbn [ebind]. rewrite O4, O2. auto.
Qed.
(** Several programs have been recorded, each with one recording thread.  Then [summarize aggregate] of the profiles, if they went through the same
    sequence of points, succeeds and prints the four tables over the exact minima and spreads of the intervals between the points. *)
Theorem C74_aggregate : forall s runs,
  Forall (fun x => proper (sr_en x) (parse_metadata s) (sr_run x) /\ single_run (sr_history x) /\ 0 <= md_start_time (md_value (sr_run x)) < 2 ^ 63) runs -> runs <> [] ->
  exists Ks, Forall2 (fun x K => linearization (sr_history x) K) runs Ks /\
  forall ess, Forall2 (fun xK es => records (sr_run (fst xK)) (snd xK) es) (combine runs Ks) ess -> Forall (fun es => zlen es < 2 ^ 30) ess ->
  exists PS, Forall2 (fun es pts => walk None pts /\ met pts = rev (timed es)) ess PS /\
    ((forall pts pts', In pts PS -> In pts' PS -> outline pts = outline pts') ->
     exists m aggs text, aggregated (map between PS) aggs /\
       ((forall a, In a aggs -> displays (half (ag_range a)) (show_f64 s (half (ag_range a)))) -> report_says aggs text) /\
       forall f w, (m <= f)%nat -> Forall (stored w) runs -> forall r, aggregate_cmd (with_fuel s f) w (map sr_path runs) r <-> r = mkRun (Some text) w Success).
Proof.
  intros s runs HR NE. destruct (all_open s runs HR) as (Ks & L & H). exists Ks. split; [exact L|]. intros ess HF HL.
  destruct (H ess) as (A1 & A2 & A3 & m & A4); [eapply Forall_impl; [|exact HL]; intros es; cbv beta; lia|exact HF|].
  assert (NE2 : ess <> []). { intros ->. inversion HF as [E|]. destruct runs; [congruence|]. inversion L; subst. discriminate. }
  assert (P : exists PS, Forall2 points_of ess PS /\ Forall2 (fun es pts => walk None pts /\ met pts = rev (timed es)) ess PS).
  { clear -A1. induction A1 as [|es ess H1 _ (PS & I1 & I2)]; [exists []; auto|]. destruct (C34_walk es H1) as (pts & D & W). exists (pts :: PS). split; constructor; auto. }
  destruct P as (PS & P1 & P2). exists PS. split; [exact P2|]. intros HO.
  assert (HL2 : Forall (fun es => zlen (timed es) < 2 ^ 30) ess).
  { eapply Forall_impl; [|exact HL]. intros es. cbv beta. intros LE. unfold timed. enough (zlen (filter (fun e => negb (p_is_integer (ev_payload e))) es) <= zlen es) by lia. clear. induction es as [|e es IH]; [reflexivity|]. cbn [filter]. destruct (negb _); rewrite ?zlen_cons; lia. }
  destruct (C67_text (ties s) (show_f64 s) (oc s) ess PS NE2 A1 A2 A3 HL2 P1 HO) as (aggs & text & G1 & G2 & G3). exists m, aggs, text. split; [exact G1|]. split; [exact G3|].
  intros f w Hf HW r. destruct (A4 f w Hf HW) as (ps & O & I). split.
  - intros R. destruct R as [t H0|H0|H0|ps' es' out H0 H1 H2|ps' H0 H1]; rewrite O in H0; try discriminate; injection H0 as <-; rewrite I in H1.
    + injection H1 as <-. cbn [with_fuel ties show_f64 oc] in H2. apply G2 in H2. subst out. reflexivity.
    + exfalso. exact (H1 ess eq_refl).
  - intros ->. apply (ac_run (with_fuel s f) w (map sr_path runs) ps ess (Ok text) O I). cbn [with_fuel ties show_f64 oc]. apply G2. reflexivity.
Qed.
Print Assumptions C74_aggregate.

(** A concrete case: one thread, an instant inside an interval; the profile is aggregated with itself. *)
Definition ex_single : recording :=
  mkRecording Prop_Strings.ex_md (mkMd 1000 1 []) 8 (start_conf Prop_Strings.ex_md)
    ([UCall 1 (KAlloc (SStr [97]))] ++ repeat (UTick 1) 8 ++ [UCall 1 (KInstant (16 + 100000003) (16 + 100000003) 1 7)] ++ repeat (UTick 1) 8 ++
     [UCall 1 (KInterval (16 + 100000003) (16 + 100000003) 1 5 9)] ++ repeat (UTick 1) 8) [ODrop TEvents; ODrop TStrData; ODrop TStrIndex] (fun t => t).
Lemma ex_single_calls : ucalls_ok (acts ex_single).
Proof.
  assert (F : Forall (fun a => match a with UCall _ k => call_ok k | _ => True end) (acts ex_single)).
  { cbn [acts ex_single]. rewrite !Forall_app. assert (R : forall t n, Forall (fun a => match a with UCall _ k => call_ok k | _ => True end) (repeat (UTick t) n)) by (intros t n; apply Forall_forall; intros x Hx; apply repeat_spec in Hx; subst x; exact I).
    split; [|split; [apply R|split; [|split; [apply R|split; [|apply R]]]]]; (constructor; [|constructor]); cbn [call_ok sstring_ok]; [apply F_Utf8.utf8_ascii_list; repeat constructor; lia|unfold is_u64, is_u32; lia..]. }
  rewrite Forall_forall in F. intros t k H. exact (F _ H).
Qed.
Lemma ex_single_history : uhist (final LittleEndian ex_single) = [UInv 1 (KAlloc (SStr [97])); URet 1 16; UInv 1 (KInstant (16 + 100000003) (16 + 100000003) 1 7); URet 1 8; UInv 1 (KInterval (16 + 100000003) (16 + 100000003) 1 5 9); URet 1 40].
Proof. vm_compute. reflexivity. Qed.
Lemma ex_single_program : nested [(GCall (KAlloc (SStr [97])), 1); (GStart 3 (16 + 100000003) (16 + 100000003) 1, 5); (GCall (KInstant (16 + 100000003) (16 + 100000003) 1 7), 7); (GDrop 3, 9)].
Proof.
  apply ne_call; [discriminate|]. apply (ne_scope _ _ 3 (16 + 100000003) (16 + 100000003) (16 + 100000003) 1 5 9 [(GCall (KInstant (16 + 100000003) (16 + 100000003) 1 7), 7)] []); [left; reflexivity|left; auto| | |constructor].
  - intros x [<-|[]]. cbn. auto.
  - apply ne_call; [discriminate|constructor].
Qed.
Lemma ex_single_run : single_run (uhist (final LittleEndian ex_single)).
Proof.
  rewrite ex_single_history. exists 1, 1. split.
  - intros t' k m. cbn [calls_by]. destruct (Z.eqb_spec 1 t') as [<-|]; [|intros []]. intros [<-|[<-|[<-|[]]]]; cbn [timed_number]; intros E; try discriminate; split; congruence.
  - exists [(GCall (KAlloc (SStr [97])), 1); (GStart 3 (16 + 100000003) (16 + 100000003) 1, 5); (GCall (KInstant (16 + 100000003) (16 + 100000003) 1 7), 7); (GDrop 3, 9)].
    split; [exact ex_single_program|]. split; [unfold monotone; cbn; repeat constructor; lia|]. split; [unfold timely; repeat constructor|reflexivity].
Qed.
Lemma ex_single_proper : proper LittleEndian (parse_metadata ex_setup) ex_single.
Proof.
  split; [apply F_Utf8.utf8_ascii_list; cbn; repeat constructor; lia|]. split; [exact ex_started|]. split; [exact ex_single_calls|]. split.
  { intros tid. destruct (Z.eq_dec tid 1) as [->|N1]; [vm_compute; reflexivity|]. unfold final. apply u_idle_others.
    - intros x k Hin. cbn [acts ex_single] in Hin. rewrite !in_app_iff in Hin. cbn [In] in Hin.
      repeat match type of Hin with _ \/ _ => destruct Hin as [Hin|Hin] end; try discriminate Hin; try contradiction; try (apply repeat_spec in Hin; discriminate Hin); inversion Hin; subst; auto.
    - destruct ex_started as (acts & t0 & H & o2 & r2 & _ & HI & _). exact (HI tid). }
  split; [repeat (constructor; [eexists; reflexivity|]); constructor|]. split; [intros []; cbn; auto|]. split; [reflexivity|]. rewrite ex_single_history. split.
  - intros t. unfold uses_scopes. cbn [calls_by]. destruct (Z.eqb_spec 1 t) as [<-|N1].
    + eexists. split; [exact ex_single_program|]. split; [unfold monotone; cbn; repeat constructor; lia|reflexivity].
    + exists []. split; [constructor|]. split; [constructor|reflexivity].
  - split; [auto|]. intros t kind id n s e. cbn [calls_by]. destruct (Z.eqb_spec 1 t) as [<-|N1]; [|intros []].
    intros [H|[H|[H|[]]]]; try discriminate H. injection H as _ _ <- _ _. reflexivity.
Qed.
Definition ex_stored : stored_run := mkStored LittleEndian ex_single [] (str "run-7").
Definition ex_timed : list event := [mkEv [97] [97] [] (Timestamp (Instant 1007)) 1; mkEv [97] [97] [] (Timestamp (Interval 1005 1009)) 1].
Example ex_C74_aggregate :
  let w := ex_world (written_file LittleEndian ex_single) in
  Forall (fun x => proper (sr_en x) (parse_metadata ex_setup) (sr_run x) /\ single_run (sr_history x) /\ 0 <= md_start_time (md_value (sr_run x)) < 2 ^ 63) [ex_stored; ex_stored] /\
  Forall (stored w) [ex_stored; ex_stored] /\
  (exists ps, open_all ex_setup w (map sr_path [ex_stored; ex_stored]) = EOk ps /\ mapM pf_iter_full ps = Ok [ex_timed; ex_timed]) /\
  exists pts, points_of ex_timed pts /\ zlen pts = 3.
Proof.
  cbv zeta. assert (W : stored (ex_world (written_file LittleEndian ex_single)) ex_stored) by reflexivity.
  assert (P : proper (sr_en ex_stored) (parse_metadata ex_setup) (sr_run ex_stored) /\ single_run (sr_history ex_stored) /\ 0 <= md_start_time (md_value (sr_run ex_stored)) < 2 ^ 63)
    by (split; [exact ex_single_proper|]; split; [exact ex_single_run|]; cbn; lia).
  split; [constructor; [exact P|constructor; [exact P|constructor]]|]. split; [constructor; [exact W|constructor; [exact W|constructor]]|]. split.
  - assert (O : exists p, open_profile ex_setup (ex_world (written_file LittleEndian ex_single)) (sr_path ex_stored) = EOk p /\ pf_iter_full p = Ok ex_timed).
    { eexists. split; [apply (open_decoded ex_setup _ (sr_path ex_stored) (written_file LittleEndian ex_single)); [apply create_same|vm_compute; reflexivity]|vm_compute; reflexivity]. }
    destruct O as (p & O & I). exists [p; p]. cbn [map open_all mapM]. rewrite O. cbn [ebind]. rewrite I. auto.
  - eexists. split; [repeat (eapply dr_step; [reflexivity|]); constructor; reflexivity|]. reflexivity.
Qed.
