(** C90: analysing the file that a crash left behind.  Vocabulary S_CrashAnalysis.v. *)
From Coq Require Import String ZArith List Lia Bool Permutation.
From Verif Require Import M_Collapse S_Collapse Prop_Collapse M_Tools S_Tools Prop_Tools.
From Verif Require Import M_Base F_Base M_Sink S_Sink M_Conc S_Conc F_Sink F_SinkSeq F_Conc F_Conc2 M_Raw F_Raw M_Header M_V8 M_Iter
  Prop_Raw Prop_Format M_Utf8 S_Utf8 F_Utf8 M_Strings M_StrTable S_Strings F_Strings M_EventId S_EventId F_EventId
  M_Session S_Session F_Session F_Session2 Prop_Strings Prop_EventId M_Run S_Run F_Run Prop_Run M_Guard S_Guard Prop_Guard.
From Verif Require Import M_Map M_Analysis S_Analysis S_Summary F_Analysis F_Analysis2 F_Analysis3 Prop_Analysis S_Whole Prop_Whole
  S_Crash F_Crash Prop_Crash S_CrashAnalysis.
Import ListNotations.
Open Scope list_scope.
Open Scope Z_scope.

(** The intervals of thread number [n] among recorded events. *)
Fixpoint rspans (n : Z) (ws : list (Z * Z * Z * want)) : list (Z * Z) :=
  match ws with
  | [] => []
  | (_, _, n', WInterval s e) :: r => if n' =? n then (s, e) :: rspans n r else rspans n r
  | _ :: r => rspans n r
  end.
Lemma rspans_recorded n K : rspans n (recorded K) = numbered n (map fst K).
Proof.
  induction K as [|[k r] K IH]; [reflexivity|]. cbn [recorded map fst]. destruct k; cbn [call_event numbered rspans]; auto. rewrite IH. reflexivity.
Qed.
Lemma rspans_app n a b : rspans n (a ++ b) = rspans n a ++ rspans n b.
Proof.
  induction a as [|[[[k i] m] w] a IH]; [reflexivity|]. cbn [app rspans]. destruct w; auto. destruct (m =? n); cbn [app]; f_equal; auto.
Qed.

(** The effects of a thread are the first of the calls it made. *)
Lemma spans_app a b : spans (a ++ b) = spans a ++ spans b.
Proof. induction a as [|k a IH]; [reflexivity|]. destruct k; cbn [app spans]; auto. f_equal. auto. Qed.
Lemma partial_calls t l s : exists rest, calls_by t (uerase (thread_life t l ++ unfinished t s)) = map fst (ueffects (thread_life t l ++ unfinished t s)) ++ rest.
Proof.
  induction l as [|[k r] l (rest & IH)].
  - destruct s as [[k [r|]]|]; cbn [thread_life flat_map app unfinished uerase ueffects calls_by map fst]; rewrite ?Z.eqb_refl; [exists []|exists [k]|exists []]; reflexivity.
  - exists rest. unfold thread_life in *. cbn [flat_map app uerase ueffects calls_by fst snd map]. rewrite Z.eqb_refl, IH. reflexivity.
Qed.

Lemma laminar_partial h K number : partial_linearization h K -> (forall t, in_scopes h t) -> own_numbers h number ->
  forall n, laminar (numbered n (map fst K)).
Proof.
  intros (g & Hh & HK & HT) HU (Inj & Own) n. subst h K.
  assert (EL : forall t, exists rest, calls_by t (uerase g) = map fst (ueffects (uproj t g)) ++ rest).
  { intros t. destruct (HT t) as (l & s & E). rewrite <- proj_calls, E. apply partial_calls. }
  destruct (numbered n (map fst (ueffects g))) as [|[s e] rest] eqn:E; [exact I|]. rewrite <- E.
  assert (Hin : In (s, e) (numbered n (map fst (ueffects g)))) by (rewrite E; left; auto).
  apply numbered_in in Hin. destruct Hin as (kind & id & Hin). apply in_map_iff in Hin. destruct Hin as ((k & r) & Ek & Hin). cbn [fst] in Ek. subst k.
  destruct (proj_effects _ _ _ Hin) as (t & Ht).
  assert (Nx : forall x kind id m s e r, In (KInterval kind id m s e, r) (ueffects (uproj x g)) -> m = number x).
  { intros x kind' id' m s' e' r' Hi. apply (Own x kind' id' m s' e'). destruct (EL x) as (y & ->). apply in_or_app. left. apply in_map_iff.
    exists (KInterval kind' id' m s' e', r'). auto. }
  assert (Nt : n = number t) by exact (Nx _ _ _ _ _ _ _ Ht).
  rewrite (numbered_proj g t n).
  - rewrite numbered_spans.
    2:{ intros kind' id' m s' e' Hi. apply in_map_iff in Hi. destruct Hi as ((k & r') & Ek & Hi). cbn [fst] in Ek. subst k. rewrite Nt. eapply Nx, Hi. }
    destruct (HU t) as (p & y & Np & Mp & Ep). destruct (EL t) as (z & Ez). rewrite Ez in Ep.
    pose proof (C46_recordings_nest (fun _ => None) p Np Mp) as HL. rewrite <- Ep, <- app_assoc, spans_app in HL. apply laminar_app_inv in HL. tauto.
  - intros x Nxt kind' id' m s' e' r' Hin' C. apply Nxt, Inj. rewrite <- (Nx _ _ _ _ _ _ _ Hin'). congruence.
Qed.

Lemma shown_spans st ws es : Forall2 (shows_payload st) ws es -> forall n, thread_spans n es = map (fun x => (st + fst x, st + snd x)) (rspans n ws).
Proof.
  intros H n. induction H as [|[[[k i] m] w] e ws es (Hp & Ht) HF IH]; [reflexivity|]. cbn [fst snd] in *. cbn [thread_spans rspans]. rewrite Hp, Ht.
  destruct w; cbn [shown]; auto. destruct (m =? n); cbn [map fst snd]; auto. f_equal. auto.
Qed.

Lemma full_lw f en' d i e lw : decode_full_event f en' d i = Ok e -> decode_lightweight_event en' d i = Ok lw -> ev_payload e = lw_payload lw /\ ev_thread e = lw_thread lw.
Proof.
  unfold decode_full_event, decode_lightweight_event. destruct (raw_at en' d i) as [re| | |]; cbn [bind]; try discriminate.
  destruct (payload_from_raw_event re _) as [p| | |]; cbn [bind]; try discriminate.
  destruct (to_string f _ (event_id re)) as [t| | |]; cbn [bind]; try discriminate. destruct (parse_event_id t) as [pa| | |]; cbn [bind]; try discriminate.
  destruct (to_string f _ (event_kind re)) as [kk| | |]; cbn [bind]; try discriminate. intros H1 H2. injection H1 as <-. injection H2 as <-. split; reflexivity.
Qed.
Lemma full_mono f g en' d i e : (f <= g)%nat -> decode_full_event f en' d i = Ok e -> decode_full_event g en' d i = Ok e.
Proof.
  intros Hfg. unfold decode_full_event. destruct (raw_at en' d i) as [re| | |]; cbn [bind]; try discriminate.
  destruct (payload_from_raw_event re _) as [p| | |]; cbn [bind]; try discriminate.
  destruct (to_string f _ (event_id re)) as [t| | |] eqn:E1; cbn [bind]; try discriminate. rewrite (ts_mono _ _ _ _ _ Hfg E1). cbn [bind].
  destruct (parse_event_id t) as [pa| | |]; cbn [bind]; try discriminate.
  destruct (to_string f _ (event_kind re)) as [kk| | |] eqn:E2; cbn [bind]; try discriminate. rewrite (ts_mono _ _ _ _ _ Hfg E2). auto.
Qed.

Lemma mapM_nth {A B} (f : A -> res B) l es : mapM f l = Ok es -> length es = length l /\ forall i e, nth_error es i = Some e -> exists a, nth_error l i = Some a /\ f a = Ok e.
Proof.
  revert es. induction l as [|a l IH]; cbn [mapM]; intros es H.
  - injection H as <-. split; [reflexivity|]. intros [|i] e; discriminate.
  - destruct (f a) as [b| | |] eqn:Eb; cbn [bind] in H; try discriminate. destruct (mapM f l) as [bs| | |] eqn:Em; cbn [bind] in H; try discriminate. injection H as <-.
    destruct (IH bs eq_refl) as (Hl & Hn). split; [cbn; congruence|]. intros [|i] e He; [exists a; split; [reflexivity|cbn in He; congruence]|apply Hn, He].
Qed.

Lemma collect_len {A} (dc : Z -> res A) f : forall i b l, i <= b -> iter_collect dc f (mkIter i b) = Ok l -> zlen l = b - i.
Proof.
  induction f as [|f IH]; intros i b l Hi; cbn [iter_collect]; [discriminate|]. unfold iter_next. cbn [forward_idx backward_idx].
  destruct (Z.eqb_spec i b) as [->|N]; cbn [bind fst snd].
  - intros H. injection H as <-. rewrite zlen_nil. lia.
  - destruct (dc i) as [a| | |]; cbn [bind]; try discriminate. destruct (_ <? _); cbn [bind fst snd]; try discriminate.
    destruct (iter_collect dc f (mkIter (i + 1) b)) as [r| | |] eqn:E; cbn [bind]; try discriminate. intros H. injection H as <-.
    apply IH in E; [|lia]. rewrite zlen_cons. lia.
Qed.

(** The events of a file whose events are all readable. *)
Lemma iter_shows fuel en' d ws es st : num_events d = Ok (zlen ws) -> zlen ws < 2 ^ 64 ->
  (forall i w, nth_error ws i = Some w -> decode_lightweight_event en' d (Z.of_nat i) = Ok (mkLw (Z.of_nat i) (snd (fst w)) (shown st (snd w)))) ->
  iter_full fuel en' d = Ok es ->
  length es = length ws /\ (forall i e, nth_error es i = Some e -> decode_full_event fuel en' d (Z.of_nat i) = Ok e) /\ Forall2 (shows_payload st) ws es.
Proof.
  intros Hn Hlen Hlw H. unfold iter_full in H. rewrite Hn in H. cbn [bind] in H.
  destruct (iter_collect (decode_lightweight_event en' d) fuel (iter_new (zlen ws))) as [lws| | |] eqn:Ec; cbn [bind] in H; try discriminate.
  destruct (mapM_nth _ _ _ H) as (Hl & Hnth).
  set (wl := map (fun p => mkLw (Z.of_nat (fst p)) (snd (fst (snd p))) (shown st (snd (snd p)))) (combine (seq 0 (length ws)) ws)).
  assert (Hwl : length wl = length ws) by (unfold wl; rewrite map_length, combine_length, seq_length; lia).
  assert (Hwn : forall i a, nth_error wl i = Some a -> exists w, nth_error ws i = Some w /\ a = mkLw (Z.of_nat i) (snd (fst w)) (shown st (snd w))).
  { intros i a Ha. unfold wl in Ha. rewrite nth_error_map in Ha.
    destruct (nth_error (combine _ _) i) as [[j w]|] eqn:Ec'; inversion Ha; subst. cbn [fst snd].
    assert (E : nth_error (seq 0 (length ws)) i = Some j /\ nth_error ws i = Some w) by (apply nth_combine, Ec').
    destruct E as [E1 E2]. assert (Hi : (i < length ws)%nat) by (apply nth_error_Some; congruence).
    apply (nth_error_nth _ _ 0%nat) in E1. rewrite seq_nth in E1 by auto. cbn in E1. subst j. eauto. }
  assert (El : lws = wl).
  { destruct (C24_collect _ wl (decode_lightweight_event en' d)) with (n := (fuel + S (length ws))%nat) as [C _].
    - intros i a Ha. destruct (Hwn i a Ha) as (w & Hw & ->). apply Hlw, Hw.
    - unfold zlen in *. rewrite Hwl. exact Hlen.
    - lia.
    - assert (Ez : zlen wl = zlen ws) by (unfold zlen; congruence). rewrite Ez in C.
      assert (M : forall f it l, iter_collect (decode_lightweight_event en' d) f it = Ok l -> forall g, (f <= g)%nat -> iter_collect (decode_lightweight_event en' d) g it = Ok l).
      { induction f as [|f IHf]; cbn [iter_collect]; intros it l Hc g Hg; [discriminate|]. destruct g as [|g]; [lia|]. cbn [iter_collect].
        destruct (iter_next (decode_lightweight_event en' d) it) as [[[x|] it']| | |]; cbn [bind fst snd] in *; try discriminate; auto.
        destruct (iter_collect (decode_lightweight_event en' d) f it') as [r| | |] eqn:Er; cbn [bind] in Hc; try discriminate.
        rewrite (IHf _ _ Er g) by lia. exact Hc. }
      pose proof (M _ _ _ Ec (fuel + S (length ws))%nat ltac:(lia)) as Ec2. rewrite Ec2 in C. injection C as C. exact C. }
  subst lws. assert (Hes : length es = length ws) by congruence. split; [exact Hes|].
  assert (HF : forall i e, nth_error es i = Some e -> decode_full_event fuel en' d (Z.of_nat i) = Ok e).
  { intros i e He. destruct (Hnth i e He) as (a & Ha & Hf). destruct (Hwn i a Ha) as (w & Hw & ->). cbn [lw_index] in Hf. exact Hf. }
  split; [exact HF|].
  assert (HP : forall i w e, nth_error ws i = Some w -> nth_error es i = Some e -> shows_payload st w e).
  { intros i w e Hw He. destruct (full_lw _ _ _ _ _ _ (HF i e He) (Hlw i w Hw)) as (P1 & P2). split; [exact P1|exact P2]. }
  clear -Hes HP. revert es Hes HP. induction ws as [|w ws IH]; intros [|e es] Hl HP; try discriminate; [constructor|].
  constructor; [apply (HP 0%nat); reflexivity|]. apply IH; [cbn in Hl; lia|]. intros i a b Ha Hb. apply (HP (S i)); auto.
Qed.

Lemma recorded_threads en md r0 K L : session en md r0 K L -> Forall (fun w => 0 <= snd (fst w)) (recorded K).
Proof.
  intros HS. destruct (session_effects en md r0 K L HS) as (L2 & He). apply effects_accepted in He. clear HS.
  induction He as [|[k r] K' [Hk Ha] _ IH]; [constructor|]. cbn [recorded fst] in *. destruct k; cbn [call_event]; auto; constructor; auto; cbn [snd fst call_ok accepted] in *;
  unfold is_u32 in *; lia.
Qed.

(** What a window of 2^48 ns after [st] and the number ranges say about events. *)
Definition in_window (st : Z) (e : event) : Prop :=
  0 <= ev_thread e /\ match ev_payload e with Timestamp (Interval a b) => st <= a /\ b <= st + 2 ^ 48 | Integer v => 0 <= v < 2 ^ 64 | _ => True end.

Lemma crash_events : forall en en' md r0 c0 acts file parse fuel d number es,
  utf8 md -> started md r0 c0 -> ucalls_ok acts -> left_behind en c0 acts file ->
  (forall m, parse unknown_text <> Ok m) -> decoder_new parse fuel file = Ok d ->
  (forall t, in_scopes (uhist (urun en acts (mkU c0 []))) t) -> own_numbers (uhist (urun en acts (mkU c0 []))) number ->
  iter_full fuel en' d = Ok es -> zlen es < 2 ^ 64 ->
  exists K K' strings ids events, partial_linearization (uhist (urun en acts (mkU c0 []))) K /\
    split_streams (zdrop 8 file) = Ok (TM (Some events) (Some strings) (Some ids)) /\
    cut_to (zlen strings) (zlen ids) (zlen events) K K' /\ parse md = Ok (d_metadata d) /\
    Forall2 (shows_payload (md_start_time (d_metadata d))) (recorded K') es /\
    (forall i w e, nth_error (recorded K') i = Some w -> should_read md r0 K' (md_start_time (d_metadata d)) w e -> nth_error es i = Some e) /\
    nested_recording es /\ Forall (in_window (md_start_time (d_metadata d))) es.
Proof.
  intros en en' md r0 c0 acts file parse fuel d number es Hmd Hst Hok Hl Hun Hd HU HO Hes Hlen.
  destruct (opened en md r0 c0 acts file parse fuel d Hmd Hst Hok Hl Hun Hd)
    as (K & L & K' & L' & x & y & sd & ix & ev & HK & HS & HS' & Hsp & _ & _ & Hcut & Hpm & Hed & Hw & Htb).
  assert (E0 : d = mkDecoder (written TEvents (map fst L')) (mkTable ((x ++ [255]) ++ y) (index (session_table K' L'))) (d_metadata d)).
  { rewrite <- Hed, <- Htb. destruct d; reflexivity. }
  assert (E1 : session_decoder K' L' (d_metadata d) = mkDecoder (written TEvents (map fst L')) (mkTable (x ++ [255]) (index (session_table K' L'))) (d_metadata d)).
  { unfold session_decoder. rewrite <- Hw. reflexivity. }
  assert (Hnum : num_events d = Ok (zlen (recorded K'))).
  { pose proof (session_num en md r0 K' L' HS' (d_metadata d)) as G. rewrite E1 in G. rewrite E0 at 1. exact G. }
  assert (Hlw : forall i w, nth_error (recorded K') i = Some w ->
     decode_lightweight_event en' d (Z.of_nat i) = Ok (mkLw (Z.of_nat i) (snd (fst w)) (shown (md_start_time (d_metadata d)) (snd w)))).
  { intros i w Hi. pose proof (session_lw en md r0 K' L' HS' en' (d_metadata d) i _ Hi) as G. rewrite E1 in G. rewrite E0 at 1. exact G. }
  assert (Hlen' : zlen (recorded K') < 2 ^ 64).
  { pose proof Hes as H0. unfold iter_full in H0. rewrite Hnum in H0. cbn [bind] in H0.
    destruct (iter_collect _ fuel (iter_new (zlen (recorded K')))) as [lws| | |] eqn:Ec; cbn [bind] in H0; try discriminate.
    apply collect_len in Ec; [|apply zlen_nonneg]. destruct (mapM_nth _ _ _ H0) as (Hl' & _). unfold zlen in *. rewrite Hl' in Hlen. lia. }
  destruct (iter_shows fuel en' d _ es _ Hnum Hlen' Hlw Hes) as (Hle & Hnth & HF).
  exists K, K', sd, ix, ev. split; auto. split; auto. split; auto. split; auto. split; auto.
  assert (HN : nested_recording es).
  { intros n. rewrite (shown_spans _ _ _ HF n). apply laminar_shift. pose proof (laminar_partial _ _ number HK HU HO n) as HLam. rewrite <- rspans_recorded in HLam.
    destruct Hcut as (_ & _ & _ & (z & Hz) & _). rewrite Hz, rspans_app in HLam. apply laminar_app_inv in HLam. tauto. }
  split; [|split; [exact HN|]].
  { intros i w e Hi Hr. destruct (nth_error es i) as [e'|] eqn:Ee.
    2:{ apply nth_error_None in Ee. assert (i < length (recorded K'))%nat by (apply nth_error_Some; congruence). lia. }
    destruct (session_full en md r0 K' L' HS' en' (d_metadata d) i w e Hi Hr) as (n & Hn). specialize (Hn (n + fuel)%nat ltac:(lia)).
    pose proof (full_mono fuel (n + fuel) _ _ _ _ ltac:(lia) (Hnth i e' Ee)) as Hf.
    assert (G : decode_full_event (n + fuel) en' d (Z.of_nat i) = Ok e).
    { rewrite E1 in Hn. rewrite E0 at 1. unfold decode_full_event in Hn |- *.
      apply bind_ok in Hn. destruct Hn as (re & G1 & Hn). apply bind_ok in Hn. destruct Hn as (p & G2 & Hn).
      apply bind_ok in Hn. destruct Hn as (t1 & G3 & Hn). apply bind_ok in Hn. destruct Hn as (pe & G4 & Hn). apply bind_ok in Hn. destruct Hn as (t2 & G5 & Hn).
      cbn [stringtable d_metadata] in *. apply (long_to_string x y) in G3, G5.
      match goal with |- context [raw_at en' ?dd ?ii] => change (raw_at en' dd ii) with (raw_at en' (mkDecoder (written TEvents (map fst L')) (mkTable (x ++ [255]) (index (session_table K' L'))) (d_metadata d)) ii) end.
      rewrite G1. cbn [bind]. rewrite G2. cbn [bind]. rewrite G3. cbn [bind]. rewrite G4. cbn [bind]. rewrite G5. exact Hn. }
    rewrite Hf in G. congruence. }
  { pose proof (recorded_bounds en md r0 K' L' HS') as B. pose proof (recorded_threads en md r0 K' L' HS') as B2. clear -B B2 HF.
    induction HF as [|w e ws es (Hp & Ht) HF IH]; [constructor|]. inversion B; inversion B2; subst. constructor; auto.
    unfold in_window. rewrite Hp, Ht. destruct w as [[[? ?] ?] w]. cbn [snd fst] in *. split; [assumption|]. destruct w; cbn [shown]; auto; lia. }
Qed.

Lemma window_integers st es : Forall (in_window st) es -> integers_ok es.
Proof. intros H. rewrite Forall_forall in H. intros e v He Ee. destruct (H e He) as (_ & H'). rewrite Ee in H'. exact H'. Qed.
Lemma window_intervals st es : Forall (in_window st) es -> forall e a b, In e es -> ev_payload e = Timestamp (Interval a b) -> st <= a /\ b <= st + 2 ^ 48.
Proof. intros H. rewrite Forall_forall in H. intros e a b He Ee. destruct (H e He) as (_ & H'). rewrite Ee in H'. exact H'. Qed.

(** Threads use timing guards in scopes, each under its own thread number, scheduled in any way; the
    process dies at any point, perhaps inside scopes; the file is cut anywhere.  If it opens and all
    its events can be read, the analysis does not panic, and its table is the documented one of the
    events that reached the file: the first recorded ones, with their payloads and threads, and with
    their texts wherever the strings reached the file. *)
Theorem C90_analysis : forall en en' md r0 c0 acts file parse fuel d number oc order es,
  utf8 md -> started md r0 c0 -> ucalls_ok acts -> left_behind en c0 acts file ->
  (forall m, parse unknown_text <> Ok m) -> decoder_new parse fuel file = Ok d ->
  (forall t, in_scopes (uhist (urun en acts (mkU c0 []))) t) -> own_numbers (uhist (urun en acts (mkU c0 []))) number ->
  (forall l, Permutation l (order l)) ->
  iter_full fuel en' d = Ok es -> zlen es < 2 ^ 40 -> (oc = true -> forall l, artifact_total es l < 2 ^ 64) ->
  exists K K' strings ids events, partial_linearization (uhist (urun en acts (mkU c0 []))) K /\
    split_streams (zdrop 8 file) = Ok (TM (Some events) (Some strings) (Some ids)) /\
    cut_to (zlen strings) (zlen ids) (zlen events) K K' /\ parse md = Ok (d_metadata d) /\
    Forall2 (shows_payload (md_start_time (d_metadata d))) (recorded K') es /\
    (forall i w e, nth_error (recorded K') i = Some w -> should_read md r0 K' (md_start_time (d_metadata d)) w e -> nth_error es i = Some e) /\
    nested_recording es /\
    exists r, perform_analysis oc order es = Ok r /\ NoDup (map q_label (query_data r)) /\
      forall q, In q (query_data r) <-> has_row es (q_label q) /\ q = expected_row es (q_label q).
Proof.
  intros en en' md r0 c0 acts file parse fuel d number oc order es Hmd Hst Hok Hl Hun Hd HU HO Hord Hes Hlen HA.
  destruct (crash_events en en' md r0 c0 acts file parse fuel d number es Hmd Hst Hok Hl Hun Hd HU HO Hes ltac:(lia))
    as (K & K' & sd & ix & ev & HK & Hsp & Hcut & Hpm & HF & Ht & HN & HB).
  exists K, K', sd, ix, ev. split; auto. split; auto. split; auto. split; auto. split; auto. split; auto. split; auto.
  destruct (C26_no_panic oc order es (md_start_time (d_metadata d)) (2 ^ 48) HN (window_integers _ _ HB) (window_intervals _ _ HB) ltac:(lia)) as (r & Hr); auto.
  { unfold DURATION_MAX. lia. }
  destruct (C25_rows oc order es r Hord HN Hr) as (R1 & R2). exists r. auto.
Qed.
Print Assumptions C90_analysis.

(** The same for the tools: stack_collapse gives the documented lines, mmview prints every wanted
    event that reached the file. *)
Theorem C90_stacks : forall en en' md r0 c0 acts file parse fuel d number oc es T,
  utf8 md -> started md r0 c0 -> ucalls_ok acts -> left_behind en c0 acts file ->
  (forall m, parse unknown_text <> Ok m) -> decoder_new parse fuel file = Ok d ->
  (forall t, in_scopes (uhist (urun en acts (mkU c0 []))) t) -> own_numbers (uhist (urun en acts (mkU c0 []))) number ->
  iter_full fuel en' d = Ok es -> zlen es < 2 ^ 64 ->
  NoDup T -> zlen T < 2 ^ 16 -> (forall t, thread_spans t es <> [] -> In t T) ->
  exists m spans, collapse_stacks oc es = Ok m /\ NoDup (map fst m) /\ all_thread_spans es spans /\
    forall k v, In (k, v) m <->
      (k = str "rustc" /\ v = zsum (map (fun x => snd (snd x) - fst (snd x) - top_level_time (fst x) es) spans)) \/
      ((exists before e after, es = before ++ e :: after /\ is_interval e = true /\ k = stack_line e after) /\
       v = self_time_sum (labelled k) (with_lines es)).
Proof.
  intros en en' md r0 c0 acts file parse fuel d number oc es T Hmd Hst Hok Hl Hun Hd HU HO Hes Hlen HT HT2 HT3.
  destruct (crash_events en en' md r0 c0 acts file parse fuel d number es Hmd Hst Hok Hl Hun Hd HU HO Hes Hlen)
    as (K & K' & sd & ix & ev & HK & Hsp & Hcut & Hpm & HF & Ht & HN & HB).
  assert (B : zlen T * 2 ^ 48 < 2 ^ 64) by lia.
  exact (C30_lines oc es (md_start_time (d_metadata d)) (2 ^ 48) T HN ltac:(lia) HT B HT3 (window_intervals _ _ HB)).
Qed.
Print Assumptions C90_stacks.

Theorem C90_mmview : forall en en' md r0 c0 acts file parse fuel d number es t0 thread_id,
  utf8 md -> started md r0 c0 -> ucalls_ok acts -> left_behind en c0 acts file ->
  (forall m, parse unknown_text <> Ok m) -> decoder_new parse fuel file = Ok d ->
  (forall t, in_scopes (uhist (urun en acts (mkU c0 []))) t) -> own_numbers (uhist (urun en acts (mkU c0 []))) number ->
  iter_full fuel en' d = Ok es -> zlen es < 2 ^ 64 -> earliest_start es t0 ->
  exists txts, mmview_main thread_id es = Printed (concat txts) /\ Forall2 (S_Tools.shown t0) (filter (wanted thread_id) es) txts.
Proof.
  intros en en' md r0 c0 acts file parse fuel d number es t0 thread_id Hmd Hst Hok Hl Hun Hd HU HO Hes Hlen H0.
  destruct (crash_events en en' md r0 c0 acts file parse fuel d number es Hmd Hst Hok Hl Hun Hd HU HO Hes Hlen)
    as (K & K' & sd & ix & ev & HK & Hsp & Hcut & Hpm & HF & Ht & HN & HB).
  apply C38_prints; auto. eapply Forall_impl; [|exact HB]. intros e (H1 & H2). split; [exact H1|]. destruct (ev_payload e) as [|v]; [exact Logic.I|lia].
Qed.
Print Assumptions C90_mmview.

(** A concrete case: in the run [ex_run] (Prop_Run.v) thread 1 has opened a scope at counter value 2,
    recorded an inner one from 5 to 9, and dies before the outer one ends; the sinks had been written
    out.  The file opens, its two events are readable. *)
Definition ex_outer : list (gop * Z) :=
  [(GCall (KAlloc (SStr [97])), 1); (GStart 4 (16 + 100000003) (16 + 100000003) 1, 2);
   (GStart 3 (16 + 100000003) (16 + 100000003) 1, 5); (GDrop 3, 9); (GDrop 4, 12)].
Definition ex_run_acts : list uact :=
  [UCall 1 (KAlloc (SStr [97])); UTick 1; UCall 2 (KAlloc (SStr [98])); UTick 2] ++ repeat (UTick 1) 5 ++ repeat (UTick 2) 5 ++
  [UCall 1 (KInterval (16 + 100000003) (16 + 100000003) 1 5 9); UCall 2 (KInstant (18 + 100000003) (16 + 100000003) 2 7); UTick 2] ++
  repeat (UTick 2) 5 ++ repeat (UTick 1) 5.
Lemma ex_run_ok : ucalls_ok ex_run_acts.
Proof.
  intros tid k Hin. unfold ex_run_acts in Hin. rewrite !in_app_iff in Hin. cbn [In] in Hin.
  assert (U : forall z, 0 <= z < 1000000000 -> is_u64 z) by (intros z Hz; unfold is_u64; lia).
  repeat match type of Hin with _ \/ _ => destruct Hin as [Hin|Hin] end; try discriminate Hin; try contradiction; try (apply repeat_spec in Hin; discriminate Hin);
  injection Hin as <- <-; cbn [call_ok sstring_ok].
  - apply utf8_ascii_list. constructor; [lia|constructor].
  - apply utf8_ascii_list. constructor; [lia|constructor].
  - split; [apply U; lia|]. split; [apply U; lia|]. split; [unfold is_u32; lia|]. split; apply U; lia.
  - split; [apply U; lia|]. split; [apply U; lia|]. split; [unfold is_u32; lia|apply U; lia].
Qed.
Definition ex_file : bytes := Eval vm_compute in
  file_of (disk (snd (run_ops [ODrop TEvents; ODrop TStrData; ODrop TStrIndex] (cmem (uc (urun LittleEndian ex_run_acts (mkU (start_conf ex_md) []))))))).
Definition ex_dec : decoder := Eval vm_compute in match decoder_new ex_parse 50 ex_file with Ok d => d | _ => mkDecoder [] (mkTable [] []) (mkMd 0 0 []) end.
Lemma ex_left : left_behind LittleEndian (start_conf ex_md) ex_run_acts ex_file.
Proof.
  assert (EQ : ex_run = urun LittleEndian ex_run_acts (mkU (start_conf ex_md) [])) by reflexivity.
  pose proof (proj1 ex_C56) as HI. rewrite EQ in HI.
  assert (HD : Forall is_drop [ODrop TEvents; ODrop TStrData; ODrop TStrIndex]) by (repeat constructor; eexists; reflexivity).
  apply (lb_dropping _ _ _ _ _ HI HD). exists []. vm_cast_no_check (eq_refl ex_file).
Qed.
Lemma ex_read : decoder_new ex_parse 50 ex_file = Ok ex_dec /\
  iter_full 50 BigEndian ex_dec = Ok [mkEv [98] [97] [] (Timestamp (Instant 1007)) 2; mkEv [97] [97] [] (Timestamp (Interval 1005 1009)) 1].
Proof. split; vm_compute; reflexivity. Qed.
Example ex_C90 : exists file d,
  left_behind LittleEndian (start_conf ex_md) ex_run_acts file /\ ucalls_ok ex_run_acts /\
  (forall m, ex_parse unknown_text <> Ok m) /\ decoder_new ex_parse 50 file = Ok d /\
  iter_full 50 BigEndian d = Ok [mkEv [98] [97] [] (Timestamp (Instant 1007)) 2; mkEv [97] [97] [] (Timestamp (Interval 1005 1009)) 1] /\
  (forall t, in_scopes (uhist (urun LittleEndian ex_run_acts (mkU (start_conf ex_md) []))) t) /\
  nested ex_outer /\ calls_by 1 (uhist (urun LittleEndian ex_run_acts (mkU (start_conf ex_md) []))) ++ [KInterval (16 + 100000003) (16 + 100000003) 1 2 12] = grun (fun _ => None) ex_outer /\
  own_numbers (uhist (urun LittleEndian ex_run_acts (mkU (start_conf ex_md) []))) (fun t => t).
Proof.
  assert (EQ : ex_run = urun LittleEndian ex_run_acts (mkU (start_conf ex_md) [])) by reflexivity.
  pose proof ex_C56 as (_ & HU & HO). rewrite EQ in HU, HO.
  assert (No : nested ex_outer).
  { apply ne_call; [discriminate|].
    apply (ne_scope _ (GDrop 4) 4 (16 + 100000003) (16 + 100000003) (16 + 100000003) 1 2 12 [(GStart 3 (16 + 100000003) (16 + 100000003) 1, 5); (GDrop 3, 9)] []); [left; reflexivity|left; auto| | |constructor].
    - intros x [<-|[<-|[]]]; cbn; lia.
    - apply (ne_scope _ (GDrop 3) 3 (16 + 100000003) (16 + 100000003) (16 + 100000003) 1 5 9 [] []); [left; reflexivity|left; auto|intros ? []|constructor|constructor]. }
  exists ex_file, ex_dec. split; [exact ex_left|]. split; [exact ex_run_ok|]. split.
  { intros m H. vm_compute in H. discriminate H. }
  split; [exact (proj1 ex_read)|]. split; [exact (proj2 ex_read)|]. split.
  { intros t. destruct (HU t) as (p & N & M & E). exists p, []. rewrite app_nil_r. auto. }
  split; [exact No|]. split; [|exact HO]. vm_compute. reflexivity.
Qed.
