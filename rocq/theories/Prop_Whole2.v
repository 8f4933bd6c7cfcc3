(** C71: from timing guards to the stacks, the Chrome export and the listing.  Vocabulary S_Whole.v. *)
From Coq Require Import String ZArith List Lia Bool Permutation.
From Verif Require Import M_Base F_Base M_Sink S_Sink M_Conc S_Conc F_Sink F_SinkSeq F_Conc F_Conc2 M_Raw F_Raw M_Header M_V8 M_Iter
  Prop_Raw Prop_Format M_Utf8 S_Utf8 F_Utf8 M_Strings M_StrTable S_Strings F_Strings M_EventId S_EventId F_EventId
  M_Session S_Session F_Session F_Session2 Prop_Strings Prop_EventId M_Run S_Run F_Run Prop_Run M_Guard S_Guard Prop_Guard.
From Verif Require Import M_Map M_Analysis S_Analysis S_Summary F_Analysis F_Analysis2 F_Analysis3 Prop_Analysis S_Whole Prop_Whole.
From Verif Require Import M_Collapse S_Collapse Prop_Collapse M_Crox Prop_Crox Prop_Crox2 M_Tools Prop_Tools M_Folded S_Folded Prop_Folded.
From Verif Require S_Crox S_Tools.
Import ListNotations.
Open Scope Z_scope.

Definition within (st : Z) (e : event) : Prop :=
  0 <= ev_thread e /\
  match ev_payload e with Timestamp (Interval a b) => st <= a /\ b <= st + 2 ^ 48 | Integer v => 0 <= v < 2 ^ 64 | _ => True end.
Lemma recorded_threads en md r0 K L : session en md r0 K L -> Forall (fun w => 0 <= snd (fst w)) (recorded K).
Proof.
  intros HS. destruct (session_effects en md r0 K L HS) as (L2 & He). apply effects_accepted in He. clear HS.
  induction He as [|[k r] K' [Hk Ha] _ IH]; [constructor|]. cbn [recorded fst] in *. destruct k; cbn [call_event]; auto; constructor; auto; cbn [snd fst call_ok accepted] in *;
  unfold is_u64, is_u32 in *; lia.
Qed.
Lemma read_bounds en md r0 K L st es : session en md r0 K L -> Forall2 (should_read md r0 K st) (recorded K) es -> Forall (within st) es.
Proof.
  intros HS HF. pose proof (recorded_bounds en md r0 K L HS) as B. pose proof (recorded_threads en md r0 K L HS) as B2.
  clear HS. induction HF as [|w e ws es HR HF IH]; [constructor|]. inversion B; inversion B2; subst. constructor; auto.
  destruct w as [[[? ?] ?] w]. destruct HR as (_ & _ & Hp & Ht). unfold within. rewrite Hp, Ht. cbn [fst snd] in *. destruct w; cbn [S_Session.shown]; split; auto; lia.
Qed.

Lemma whole_profile en en' parse md m r0 c0 acts drops number :
  utf8 md -> started md r0 c0 -> ucalls_ok acts ->
  let c := urun en acts (mkU c0 []) in
  all_idle (uc c) -> Forall is_drop drops -> (forall t, In (ODrop t) drops) -> parse md = Ok m ->
  (forall t, uses_scopes (uhist c) t) -> own_numbers (uhist c) number ->
  exists K, linearization (uhist c) K /\
    forall es, zlen es < 2 ^ 64 -> Forall2 (should_read md r0 K (md_start_time m)) (recorded K) es ->
      nested_recording es /\ Forall (within (md_start_time m)) es /\
      exists n, forall fuel, (n <= fuel)%nat ->
        exists d, decoder_new parse fuel (file_of (disk (snd (run_ops drops (cmem (uc c)))))) = Ok d /\ d_metadata d = m /\
          iter_full fuel en' d = Ok es.
Proof.
  intros Hmd Hst Hok c Hidle Hd Hall Hm HU HO.
  destruct (concurrent_session en md r0 c0 acts drops Hmd Hst Hok Hidle Hd Hall) as (K & L & HK & HS & Hsp). fold c in HK, Hsp.
  exists K. split; auto. intros es Hlen HF.
  split. { intros n. rewrite (spans_read _ _ _ _ _ _ HF n). apply laminar_shift. eapply laminar_numbered; eauto. }
  split; [eapply read_bounds; eauto|].
  destruct (session_decoder_new en md r0 K L HS parse m _ Hm Hsp) as (n & Hn).
  destruct (session_iter_full en md r0 K L HS en' m es) as (n' & Hn'); auto.
  { unfold zlen in *. rewrite (Forall2_len _ _ _ HF). lia. }
  exists (n + n')%nat. intros fuel Hf. exists (session_decoder K L m). split; [apply Hn; lia|]. split; [reflexivity|]. apply Hn'. lia.
Qed.

(** What stack_collapse prints: the stacks of all events with their self times, whatever the schedule. *)
Theorem C71_stacks : forall en en' parse md m r0 c0 acts drops number oc,
  utf8 md -> started md r0 c0 -> ucalls_ok acts ->
  let c := urun en acts (mkU c0 []) in
  all_idle (uc c) -> Forall is_drop drops -> (forall t, In (ODrop t) drops) -> parse md = Ok m ->
  (forall t, uses_scopes (uhist c) t) -> own_numbers (uhist c) number ->
  exists K, linearization (uhist c) K /\
    forall es T, zlen es < 2 ^ 64 -> Forall2 (should_read md r0 K (md_start_time m)) (recorded K) es ->
      NoDup T -> zlen T < 2 ^ 16 -> (forall t, thread_spans t es <> [] -> In t T) ->
    exists n, forall fuel, (n <= fuel)%nat ->
      exists d stacks spans, decoder_new parse fuel (file_of (disk (snd (run_ops drops (cmem (uc c)))))) = Ok d /\
        iter_full fuel en' d = Ok es /\ collapse_stacks oc es = Ok stacks /\ NoDup (map fst stacks) /\ all_thread_spans es spans /\
        (forall k v, In (k, v) stacks <->
          (k = str "rustc" /\ v = zsum (map (fun x => snd (snd x) - fst (snd x) - top_level_time (fst x) es) spans)) \/
          ((exists before e after, es = before ++ e :: after /\ is_interval e = true /\ k = stack_line e after) /\
           v = self_time_sum (labelled k) (with_lines es))) /\
        zsum (map snd stacks) = zsum (map (fun x => snd (snd x) - fst (snd x)) spans) /\
        (Forall (fun e => ~ In 10 (ev_label e)) es -> forall written, Permutation stacks written -> forall l, text_says (folded_text written) l <-> l = written).
Proof.
  intros en en' parse md m r0 c0 acts drops number oc Hmd Hst Hok c Hidle Hd Hall Hm HU HO.
  destruct (whole_profile en en' parse md m r0 c0 acts drops number Hmd Hst Hok Hidle Hd Hall Hm HU HO) as (K & HK & H). fold c in HK, H.
  exists K. split; [exact HK|]. intros es T Hlen HF HT HT2 HT3. destruct (H es Hlen HF) as (HN & HB & n & Hn). rewrite Forall_forall in HB.
  assert (HW : forall e a b, In e es -> ev_payload e = Timestamp (Interval a b) -> md_start_time m <= a /\ b <= md_start_time m + 2 ^ 48).
  { intros e a b He Ee. destruct (HB e He) as (_ & H1). rewrite Ee in H1. exact H1. }
  assert (HZ : zlen T * 2 ^ 48 < 2 ^ 64) by lia.
  destruct (C30_lines oc es (md_start_time m) (2 ^ 48) T HN ltac:(lia) HT HZ HT3 HW) as (st & spans & E1 & E2 & E3 & E4).
  exists n. intros fuel Hf. destruct (Hn fuel Hf) as (d & D1 & D2 & D3). exists d, st, spans.
  split; [exact D1|]. split; [exact D3|]. split; [exact E1|]. split; [exact E2|]. split; [exact E3|]. split; [exact E4|]. split.
  - exact (C30_total oc es (md_start_time m) (2 ^ 48) T st spans HN ltac:(lia) HT HZ HT3 HW E1 E3).
  - intros Hl w Hp. eapply C59_text; eauto.
Qed.
Print Assumptions C71_stacks.

(** What crox writes for the profile: one record for each interval that is long enough, whatever the schedule. *)
Theorem C71_chrome : forall en en' parse md m r0 c0 acts drops number oc collapse minimum,
  utf8 md -> started md r0 c0 -> ucalls_ok acts ->
  let c := urun en acts (mkU c0 []) in
  all_idle (uc c) -> Forall is_drop drops -> (forall t, In (ODrop t) drops) -> parse md = Ok m ->
  (forall t, uses_scopes (uhist c) t) -> own_numbers (uhist c) number ->
  0 <= md_start_time m < 2 ^ 63 ->
  exists K, linearization (uhist c) K /\
    forall es, zlen es < 2 ^ 64 -> few_threads es -> Forall2 (should_read md r0 K (md_start_time m)) (recorded K) es ->
    exists n, forall fuel, (n <= fuel)%nat ->
      exists d, decoder_new parse fuel (file_of (disk (snd (run_ops drops (cmem (uc c)))))) = Ok d /\ iter_full fuel en' d = Ok es /\
        (exists out, crox_main oc collapse minimum [(d_metadata d, es)] out) /\
        forall out, crox_main oc collapse minimum [(d_metadata d, es)] out ->
          exists tids rs, thread_mapping oc collapse es (Ok tids) /\
            out = Ok (rs ++ crate_name_record m ++ [ProcessSortIndex (md_process_id m) (md_start_time m / 1000)]) /\
            Forall2 (fun e r => S_Crox.chrome_record (md_process_id m) (match map_get Z.eqb (ev_thread e) tids with Some t => t | None => ev_thread e end) e r)
              (filter (S_Crox.selected minimum) es) rs.
Proof.
  intros en en' parse md m r0 c0 acts drops number oc collapse minimum Hmd Hst Hok c Hidle Hd Hall Hm HU HO Htime.
  destruct (whole_profile en en' parse md m r0 c0 acts drops number Hmd Hst Hok Hidle Hd Hall Hm HU HO) as (K & HK & H). fold c in HK, H.
  exists K. split; [exact HK|]. intros es Hlen Hfew HF. destruct (H es Hlen HF) as (HN & HB & n & Hn).
  assert (HE : Forall S_Crox.exportable es).
  { clear -HN HB Htime. induction es as [|e es IH]; [constructor|]. inversion HB as [|? ? H1 H2]; subst. constructor; [|apply IH; [eapply nested_cons_inv; eauto|auto]].
    pose proof (nested_len _ _ HN) as H3. destruct H1 as (_ & H1). unfold S_Crox.exportable, ev_len in *. destruct (ev_payload e) as [[a b|]|]; auto. lia. }
  assert (HT : 0 <= md_start_time m < 18446744073709551616 * 1000) by lia.
  assert (HA : Forall (fun f => Forall S_Crox.exportable (snd f) /\ 0 <= md_start_time (fst f) < 18446744073709551616 * 1000 /\ few_threads (snd f)) [(m, es)]) by (constructor; auto).
  exists n. intros fuel Hf. destruct (Hn fuel Hf) as (d & D1 & D2 & D3). exists d. rewrite D2. clear D2. split; [exact D1|]. split; [exact D3|].
  split; [exact (C37_main_exists oc collapse minimum _ HA)|]. intros out Hout.
  destruct (C37_main oc collapse minimum _ out HA Hout) as (rs & -> & HR). inversion HR as [|? r ? ? (tids & T1 & T2) HR']; subst. inversion HR'; subst. cbn [fst snd] in *.
  destruct (C37_export oc minimum tids m es HE HT) as (rs & E & F). rewrite E in T2. injection T2 as T2. exists tids, rs. split; [exact T1|]. split; [|exact F].
  cbn [concat]. rewrite app_nil_r. congruence.
Qed.
Print Assumptions C71_chrome.

(** What mmview prints: every event of the wanted thread, in the order recorded. *)
Theorem C71_view : forall en en' parse md m r0 c0 acts drops number thread_id,
  utf8 md -> started md r0 c0 -> ucalls_ok acts ->
  let c := urun en acts (mkU c0 []) in
  all_idle (uc c) -> Forall is_drop drops -> (forall t, In (ODrop t) drops) -> parse md = Ok m ->
  (forall t, uses_scopes (uhist c) t) -> own_numbers (uhist c) number ->
  exists K, linearization (uhist c) K /\
    forall es t0, zlen es < 2 ^ 64 -> Forall2 (should_read md r0 K (md_start_time m)) (recorded K) es -> S_Tools.earliest_start es t0 ->
    exists n, forall fuel, (n <= fuel)%nat ->
      exists d txts, decoder_new parse fuel (file_of (disk (snd (run_ops drops (cmem (uc c)))))) = Ok d /\ iter_full fuel en' d = Ok es /\
        mmview_main thread_id es = Printed (concat txts) /\ Forall2 (S_Tools.shown t0) (filter (S_Tools.wanted thread_id) es) txts.
Proof.
  intros en en' parse md m r0 c0 acts drops number thread_id Hmd Hst Hok c Hidle Hd Hall Hm HU HO.
  destruct (whole_profile en en' parse md m r0 c0 acts drops number Hmd Hst Hok Hidle Hd Hall Hm HU HO) as (K & HK & H). fold c in HK, H.
  exists K. split; [exact HK|]. intros es t0 Hlen HF Ht0. destruct (H es Hlen HF) as (HN & HB & n & Hn).
  destruct (C38_prints thread_id es t0 Ht0) as (txts & V1 & V2).
  { eapply Forall_impl; [|exact HB]. intros e (H1 & H2). split; [exact H1|]. destruct (ev_payload e) as [[]|]; auto. lia. }
  exists n. intros fuel Hf. destruct (Hn fuel Hf) as (d & D1 & D2 & D3). exists d, txts. auto.
Qed.
Print Assumptions C71_view.

(** A concrete case: the two threads of [ex_run]; that it meets the hypotheses on the session is [ex_C56], the
    events it decodes to are in [ex_C22]. *)
Definition ex_events : list event := [mkEv [98] [97] [] (Timestamp (Instant 1007)) 2; mkEv [97] [97] [] (Timestamp (Interval 1005 1009)) 1].
Example ex_C71 :
  (do d <- decoder_new (fun _ => Ok (mkMd 1000 1 [])) 50 (file_of (disk (snd (run_ops [ODrop TEvents; ODrop TStrData; ODrop TStrIndex] (cmem (uc ex_run))))));
   iter_full 50 BigEndian d) = Ok ex_events /\
  (NoDup [1] /\ zlen [1] < 2 ^ 16 /\ forall t, thread_spans t ex_events <> [] -> In t [1]) /\
  few_threads ex_events /\ S_Tools.earliest_start ex_events 1005 /\
  collapse_stacks true ex_events = Ok [(str "rustc;a", 4); (str "rustc", 0)] /\
  (exists rs, export_file true None [] (mkMd 1000 1 []) ex_events = Ok rs /\ zlen rs = 2) /\
  exists txt, mmview_main (Some 1) ex_events = Printed txt /\ txt <> [].
Proof.
  split; [vm_compute; reflexivity|]. split.
  { split; [constructor; [intros []|constructor]|]. split; [reflexivity|]. intros t. cbn [ex_events thread_spans ev_payload ev_thread]. destruct (Z.eqb_spec 1 t) as [<-|]; [left; reflexivity|congruence]. }
  split; [vm_compute; reflexivity|]. split.
  { split; [eexists; split; [right; left; reflexivity|reflexivity]|]. intros e t [<-|[<-|[]]]; cbn; lia. }
  split; [vm_compute; reflexivity|]. split; [eexists; split; vm_compute; reflexivity|]. eexists. split; [vm_compute; reflexivity|discriminate].
Qed.
