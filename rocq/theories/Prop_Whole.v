(** C56: from timing guards to the summary.  Vocabulary S_Whole.v. *)
From Coq Require Import ZArith List Lia Bool Permutation.
From Verif Require Import M_Base F_Base M_Sink S_Sink M_Conc S_Conc F_Sink F_SinkSeq F_Conc F_Conc2 M_Raw F_Raw M_Header M_V8 M_Iter
  Prop_Raw Prop_Format M_Utf8 S_Utf8 F_Utf8 M_Strings M_StrTable S_Strings F_Strings M_EventId S_EventId F_EventId
  M_Session S_Session F_Session F_Session2 Prop_Strings Prop_EventId M_Run S_Run F_Run Prop_Run M_Guard S_Guard Prop_Guard.
From Verif Require Import M_Map M_Analysis S_Analysis S_Summary F_Analysis F_Analysis2 F_Analysis3 Prop_Analysis S_Whole.
Import ListNotations.
Open Scope Z_scope.

(** The intervals with thread number [n] among recorded calls. *)
Fixpoint numbered (n : Z) (ks : list call) : list (Z * Z) :=
  match ks with
  | [] => []
  | KInterval _ _ n' s e :: r => if n' =? n then (s, e) :: numbered n r else numbered n r
  | _ :: r => numbered n r
  end.
Lemma numbered_app n a b : numbered n (a ++ b) = numbered n a ++ numbered n b.
Proof. induction a as [|k a IH]; [reflexivity|]. destruct k; cbn [app numbered]; auto. destruct (_ =? n); cbn [app]; f_equal; auto. Qed.
Lemma numbered_spans n ks : (forall kind id m s e, In (KInterval kind id m s e) ks -> m = n) -> numbered n ks = spans ks.
Proof.
  induction ks as [|k ks IH]; intros H; [reflexivity|]. assert (H' : forall kind id m s e, In (KInterval kind id m s e) ks -> m = n) by (intros; eapply H; right; eauto).
  destruct k; cbn [numbered spans]; auto. rewrite (H kind id tid start now (or_introl eq_refl)), Z.eqb_refl. f_equal. auto.
Qed.
Lemma numbered_none n ks : (forall kind id m s e, In (KInterval kind id m s e) ks -> m <> n) -> numbered n ks = [].
Proof.
  induction ks as [|k ks IH]; intros H; [reflexivity|]. assert (H' : forall kind id m s e, In (KInterval kind id m s e) ks -> m <> n) by (intros; eapply H; right; eauto).
  destruct k; cbn [numbered]; auto. destruct (Z.eqb_spec tid n); auto. exfalso. eapply (H kind id tid start now); [left; reflexivity|auto].
Qed.
Lemma numbered_in n ks s e : In (s, e) (numbered n ks) -> exists kind id, In (KInterval kind id n s e) ks.
Proof.
  induction ks as [|k ks IH]; [intros []|]. destruct k; cbn [numbered]; try (intros H; destruct (IH H) as (a & b & H'); exists a, b; right; auto; fail).
  destruct (Z.eqb_spec tid n) as [->|].
  - intros [E|H]; [inversion E; subst; exists kind, id; left; auto|]. destruct (IH H) as (a & b & H'). exists a, b. right. auto.
  - intros H. destruct (IH H) as (a & b & H'). exists a, b. right. auto.
Qed.

(** The effects of one thread and the calls it made. *)
Lemma proj_calls t g : calls_by t (uerase (uproj t g)) = calls_by t (uerase g).
Proof.
  induction g as [|x g IH]; [reflexivity|]. unfold uproj in *. cbn [filter]. destruct x as [t' k|t' k r|t' r]; cbn [ug_tid uerase];
  destruct (Z.eqb_spec t' t) as [->|N]; cbn [uerase calls_by]; rewrite ?Z.eqb_refl; try (f_equal; auto; fail); auto.
  destruct (Z.eqb_spec t' t); [contradiction|auto].
Qed.
Lemma life_calls t l : calls_by t (uerase (thread_life t l)) = map fst l.
Proof. induction l as [|[k r] l IH]; [reflexivity|]. unfold thread_life in *. cbn [flat_map app uerase calls_by fst snd map]. rewrite Z.eqb_refl. f_equal. exact IH. Qed.
Lemma life_effects t l : ueffects (thread_life t l) = l.
Proof. induction l as [|[k r] l IH]; [reflexivity|]. unfold thread_life in *. cbn [flat_map app ueffects fst snd]. f_equal. exact IH. Qed.
Lemma proj_effects g k r : In (k, r) (ueffects g) -> exists t, In (k, r) (ueffects (uproj t g)).
Proof.
  induction g as [|x g IH]; [intros []|]. intros H. assert (C : (exists t, x = UGEff t k r) \/ In (k, r) (ueffects g)).
  { destruct x; cbn [ueffects] in H; auto. destruct H as [E|H]; [inversion E; subst; left; eauto|auto]. }
  destruct C as [(t & ->)|C].
  - exists t. unfold uproj. cbn [filter ug_tid]. rewrite Z.eqb_refl. cbn [ueffects]. left; auto.
  - destruct (IH C) as (t & Ht). exists t. unfold uproj in *. cbn [filter]. destruct (ug_tid x =? t); auto. destruct x; cbn [ueffects]; auto. right; auto.
Qed.
Lemma numbered_proj g t n : (forall x, x <> t -> forall kind id m s e r, In (KInterval kind id m s e, r) (ueffects (uproj x g)) -> m <> n) ->
  numbered n (map fst (ueffects g)) = numbered n (map fst (ueffects (uproj t g))).
Proof.
  induction g as [|x g IH]; intros H; [reflexivity|].
  assert (H' : forall y, y <> t -> forall kind id m s e r, In (KInterval kind id m s e, r) (ueffects (uproj y g)) -> m <> n).
  { intros y Hy kind id m s e r Hin. apply (H y Hy kind id m s e r). unfold uproj in *. cbn [filter]. destruct (ug_tid x =? y); auto. destruct x; cbn [ueffects]; auto. right; auto. }
  specialize (IH H'). unfold uproj in *. cbn [filter]. destruct x as [t' k|t' k r|t' r]; cbn [ug_tid ueffects].
  - destruct (t' =? t); exact IH.
  - destruct (Z.eqb_spec t' t) as [->|N]; cbn [ueffects map fst].
    + change (numbered n ([k] ++ map fst (ueffects g)) = numbered n ([k] ++ map fst (ueffects (filter (fun e => ug_tid e =? t) g)))). rewrite !numbered_app. f_equal. exact IH.
    + rewrite <- IH. destruct k; cbn [numbered]; auto. destruct (Z.eqb_spec tid n) as [->|]; auto. exfalso.
      apply (H t' N kind id n start now r); auto. cbn [filter ug_tid]. rewrite Z.eqb_refl. cbn [ueffects]. left; auto.
  - destruct (t' =? t); exact IH.
Qed.

Lemma laminar_numbered h K number : linearization h K -> (forall t, uses_scopes h t) -> own_numbers h number ->
  forall n, laminar (numbered n (map fst K)).
Proof.
  intros (g & Hh & HK & HT) HU (Inj & Own) n. subst h K.
  assert (EL : forall t, map fst (ueffects (uproj t g)) = calls_by t (uerase g)).
  { intros t. destruct (HT t) as (l & E). rewrite <- proj_calls, E, life_calls, life_effects. reflexivity. }
  destruct (numbered n (map fst (ueffects g))) as [|[s e] rest] eqn:E; [exact I|]. rewrite <- E.
  assert (Hin : In (s, e) (numbered n (map fst (ueffects g)))) by (rewrite E; left; auto).
  apply numbered_in in Hin. destruct Hin as (kind & id & Hin). apply in_map_iff in Hin. destruct Hin as ((k & r) & Ek & Hin). cbn [fst] in Ek. subst k.
  destruct (proj_effects _ _ _ Hin) as (t & Ht).
  assert (Nt : n = number t). { apply (Own t kind id n s e). rewrite <- EL. apply in_map_iff. exists (KInterval kind id n s e, r). auto. }
  rewrite (numbered_proj g t n).
  - rewrite EL. rewrite numbered_spans; [|intros; rewrite Nt; eapply Own; eauto]. destruct (HU t) as (p & Np & Mp & ->). apply C46_recordings_nest; auto.
  - intros x Nx kind' id' m s' e' r' Hin'. assert (m = number x). { apply (Own x kind' id' m s' e'). rewrite <- EL. apply in_map_iff. exists (KInterval kind' id' m s' e', r'). auto. }
    subst. intros C. apply Nx, Inj. auto.
Qed.

Lemma laminar_shift d l : laminar l -> laminar (map (fun x => (d + fst x, d + snd x)) l).
Proof.
  induction l as [|a l IH]; [auto|]. intros (H1 & H2 & H3). cbn [map laminar fst snd]. split; [lia|]. split; [|auto].
  apply Forall_map. eapply Forall_impl; [|exact H2]. intros b. unfold nests. cbn [fst snd]. lia.
Qed.
Lemma spans_read md r0 K0 st K es : Forall2 (should_read md r0 K0 st) (recorded K) es ->
  forall n, thread_spans n es = map (fun x => (st + fst x, st + snd x)) (numbered n (map fst K)).
Proof.
  intros H n. revert es H. induction K as [|[k r] K IH]; intros es H; cbn [recorded map fst] in *; [inversion H; subst; reflexivity|].
  destruct k; cbn [call_event] in H; cbn [numbered]; auto; inversion H as [|w e ws es' HR HF]; subst; destruct HR as (_ & _ & Hp & Ht); cbn [thread_spans]; rewrite Hp; cbn [shown]; auto.
  rewrite Ht. destruct (tid =? n); cbn [map fst snd]; auto. f_equal. auto.
Qed.

Lemma recorded_bounds en md r0 K L : session en md r0 K L -> Forall (fun w => match snd w with
   | WInterval s e => 0 <= s /\ e < 2 ^ 48 | WInteger v => 0 <= v < 2 ^ 48 | WInstant _ => True end) (recorded K).
Proof.
  intros HS. destruct (session_effects en md r0 K L HS) as (L2 & He). apply effects_accepted in He. clear HS.
  induction He as [|[k r] K' [Hk Ha] _ IH]; [constructor|]. cbn [recorded fst] in *. destruct k; cbn [call_event]; auto; constructor; auto; cbn [snd call_ok accepted] in *;
  unfold is_u64, MAX_INTERVAL_VALUE, MAX_SINGLE_VALUE, INTEGER_MARKER, INSTANT_MARKER in *; lia.
Qed.

(** Any number of threads use timing guards in scopes, each under its own thread number, scheduled in
    any way.  Then the finished profile opens, shows the recorded events, and the analysis succeeds:
    one row per label, every column as documented. *)
Theorem C56_profile : forall en en' parse md m r0 c0 acts drops number oc order,
  utf8 md -> started md r0 c0 -> ucalls_ok acts ->
  let c := urun en acts (mkU c0 []) in
  all_idle (uc c) -> Forall is_drop drops -> (forall t, In (ODrop t) drops) -> parse md = Ok m ->
  (forall t, uses_scopes (uhist c) t) -> own_numbers (uhist c) number -> (forall l, Permutation l (order l)) ->
  exists K, linearization (uhist c) K /\
    forall es, zlen es < 2 ^ 40 -> Forall2 (should_read md r0 K (md_start_time m)) (recorded K) es ->
      (oc = true -> forall l, artifact_total es l < 2 ^ 64) ->
    exists n, forall fuel, (n <= fuel)%nat ->
      exists d r, decoder_new parse fuel (file_of (disk (snd (run_ops drops (cmem (uc c)))))) = Ok d /\
        iter_full fuel en' d = Ok es /\ nested_recording es /\
        perform_analysis oc order es = Ok r /\ NoDup (map q_label (query_data r)) /\
        forall q, In q (query_data r) <-> has_row es (q_label q) /\ q = expected_row es (q_label q).
Proof.
  intros en en' parse md m r0 c0 acts drops number oc order Hmd Hst Hok c Hidle Hd Hall Hm HU HO Hord.
  destruct (concurrent_session en md r0 c0 acts drops Hmd Hst Hok Hidle Hd Hall) as (K & L & HK & HS & Hsp). fold c in HK, Hsp.
  exists K. split; auto. intros es Hlen HF HA.
  assert (HN : nested_recording es). { intros n. rewrite (spans_read _ _ _ _ _ _ HF n). apply laminar_shift. eapply laminar_numbered; eauto. }
  assert (HB : Forall (fun e => match ev_payload e with Timestamp (Interval a b) => md_start_time m <= a /\ b <= md_start_time m + 2 ^ 48 | Integer v => 0 <= v < 2 ^ 64 | _ => True end) es).
  { pose proof (recorded_bounds en md r0 K L HS) as B. clear -B HF. induction HF as [|w e ws es HR HF IH]; [constructor|]. inversion B; subst. constructor; auto.
    destruct w as [[[? ?] ?] w]. destruct HR as (_ & _ & Hp & _). rewrite Hp. cbn [snd] in *. destruct w; cbn [shown]; auto; lia. }
  assert (HI : integers_ok es).
  { rewrite Forall_forall in HB. intros e v He Ee. specialize (HB e He). rewrite Ee in HB. exact HB. }
  destruct (C26_no_panic oc order es (md_start_time m) (2 ^ 48) HN HI) as (r & Hr); auto; [|lia| |].
  { rewrite Forall_forall in HB. intros e a b He Ee. specialize (HB e He). rewrite Ee in HB. exact HB. }
  { unfold DURATION_MAX. lia. }
  destruct (C25_rows oc order es r Hord HN Hr) as (R1 & R2).
  destruct (session_decoder_new en md r0 K L HS parse m _ Hm Hsp) as (n & Hn).
  destruct (session_iter_full en md r0 K L HS en' m es) as (n' & Hn'); auto.
  { unfold zlen in *. rewrite (Forall2_len _ _ _ HF). lia. }
  exists (n + n')%nat. intros fuel Hf. exists (session_decoder K L m), r. split; [apply Hn; lia|]. split; [apply Hn'; lia|]. auto.
Qed.
Print Assumptions C56_profile.

(** A concrete case: the two threads of [ex_run] (Prop_Run.v). *)
Lemma u_idle_others en tid acts : forall c, (forall x k, In (UCall x k) acts -> x <> tid) -> thr (uc c) tid = None -> thr (uc (urun en acts c)) tid = None.
Proof.
  induction acts as [|a acts IH]; intros c Ha Hc; cbn [urun fold_left]; auto. apply IH; [intros; eapply Ha; right; eauto|].
  destruct a as [x k|x]; cbn [ustep].
  - destruct (thr (uc c) x) eqn:E; auto. destruct (call_op en k) as [o| | |]; auto. cbn [uc].
    apply (idle_others tid [Invoke x o] (uc c)); auto. intros y o' [H|[]]. inversion H; subst. eapply Ha. left. reflexivity.
  - assert (G : thr (cstep (uc c) (Tick x)) tid = None) by (apply (idle_others tid [Tick x] (uc c)); auto; intros y o' [H|[]]; discriminate).
    destruct (thr (uc c) x) as [[]|]; exact G.
Qed.
Example ex_C56 : all_idle (uc ex_run) /\ (forall t, uses_scopes (uhist ex_run) t) /\ own_numbers (uhist ex_run) (fun t => t).
Proof.
  split; [|split].
  - intros tid. destruct (Z.eq_dec tid 1) as [->|N1]; [vm_compute; reflexivity|]. destruct (Z.eq_dec tid 2) as [->|N2]; [vm_compute; reflexivity|].
    unfold ex_run. apply u_idle_others.
    + intros x k Hin. rewrite !in_app_iff in Hin. cbn [In] in Hin.
      repeat match type of Hin with _ \/ _ => destruct Hin as [Hin|Hin] end; try discriminate Hin; try contradiction; try (apply repeat_spec in Hin; discriminate Hin); inversion Hin; subst; auto.
    + destruct ex_started as (acts & t0 & H & o2 & r2 & _ & HI & _). exact (HI tid).
  - assert (EH : uhist ex_run = [UInv 1 (KAlloc (SStr [97])); UInv 2 (KAlloc (SStr [98])); URet 1 16; URet 2 18;
                  UInv 1 (KInterval (16 + 100000003) (16 + 100000003) 1 5 9); UInv 2 (KInstant (18 + 100000003) (16 + 100000003) 2 7);
                  URet 2 8; URet 1 40]) by exact (proj1 ex_C22).
    rewrite EH. intros t. unfold uses_scopes. cbn [calls_by]. destruct (Z.eqb_spec 1 t) as [<-|N1].
    + cbn [Z.eqb]. exists [(GCall (KAlloc (SStr [97])), 1); (GStart 3 (16 + 100000003) (16 + 100000003) 1, 5); (GDrop 3, 9)].
      split; [|split; [unfold monotone; cbn; repeat constructor; lia|reflexivity]].
      apply ne_call; [discriminate|]. apply (ne_scope _ _ 3 (16 + 100000003) (16 + 100000003) (16 + 100000003) 1 5 9 [] []); [left; reflexivity|left; auto|intros ? []|constructor|constructor].
    + destruct (Z.eqb_spec 2 t) as [<-|N2].
      * exists [(GCall (KAlloc (SStr [98])), 1); (GCall (KInstant (18 + 100000003) (16 + 100000003) 2 7), 7)].
        split; [|split; [unfold monotone; cbn; repeat constructor; lia|reflexivity]].
        apply ne_call; [discriminate|]. apply ne_call; [discriminate|constructor].
      * exists []. split; [constructor|]. split; [constructor|reflexivity].
  - assert (EH : uhist ex_run = [UInv 1 (KAlloc (SStr [97])); UInv 2 (KAlloc (SStr [98])); URet 1 16; URet 2 18;
                  UInv 1 (KInterval (16 + 100000003) (16 + 100000003) 1 5 9); UInv 2 (KInstant (18 + 100000003) (16 + 100000003) 2 7);
                  URet 2 8; URet 1 40]) by exact (proj1 ex_C22).
    rewrite EH. split; [auto|]. intros t kind id n s e. cbn [calls_by].
    set (f := fun k => match k with KInterval _ _ x _ _ => x | _ => 1 end).
    assert (G : forall l, (forall k, In k l -> f k = 1) -> In (KInterval kind id n s e) l -> n = 1) by (intros l Hl H; exact (Hl _ H)).
    assert (G2 : forall l, (forall k, In k l -> match k with KInterval _ _ _ _ _ => False | _ => True end) -> ~ In (KInterval kind id n s e) l) by (intros l Hl H; exact (Hl _ H)).
    destruct (Z.eqb_spec 1 t) as [<-|N1].
    + cbn [Z.eqb]. apply G. intros k [<-|[<-|[]]]; reflexivity.
    + intros H. exfalso. revert H. apply G2. destruct (Z.eqb_spec 2 t); intros k; [intros [<-|[<-|[]]]; exact I|intros []].
Qed.
