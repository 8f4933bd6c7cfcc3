(** C38 (mmview) and C39 (mmedit truncate).  Model M_Tools.v, specification S_Tools.v. *)
From Coq Require Import String ZArith List Lia Bool.
From Verif Require Import M_Base F_Base M_Raw M_V8 M_Map M_Sink S_Sink F_Sink F_SinkSeq M_Header M_Crox S_Crox Prop_Crox2 M_Tools S_Tools.
Import ListNotations.
Open Scope Z_scope.

(** ** mmview *)
Lemma decimal_numeral n : 0 <= n -> numeral (decimal n) n.
Proof. intros H. destruct (C37_decimal n H) as (A & B & C & D). split; auto. Qed.
Lemma fold_min_spec l : forall x, In (fold_left Z.min l x) (x :: l) /\ forall y, In y (x :: l) -> fold_left Z.min l x <= y.
Proof.
  induction l as [|a l IH]; intros x; cbn [fold_left]; [split; [left; auto|]; intros y [<-|[]]; lia|]. destruct (IH (Z.min x a)) as (A & B). split.
  - destruct A as [A|A]; [|right; right; auto]. rewrite <- A. destruct (Z.min_spec x a) as [(_ & ->)|(_ & ->)]; [left|right; left]; auto.
  - intros y [<-|[<-|H]]; [| |apply B; right; auto]; (eapply Z.le_trans; [apply B; left; reflexivity|]; lia).
Qed.
Lemma starts_of_In evs t : In t (starts_of evs) <-> exists e, In e evs /\ starts_at e t.
Proof.
  unfold starts_of. rewrite in_concat. split.
  - intros (l & Hl & Ht). apply in_map_iff in Hl. destruct Hl as (e & <- & He). exists e. split; auto. unfold starts_at. destruct (ev_payload e) as [[a b|i]|v]; cbn in *; intuition.
  - intros (e & He & Ht). eexists. split; [apply in_map_iff; exists e; split; [reflexivity|exact He]|]. unfold starts_at in Ht. destruct (ev_payload e) as [[a b|i]|v]; cbn; intuition.
Qed.
Lemma iter_min_spec evs : match iter_min (starts_of evs) with Some t0 => earliest_start evs t0 | None => forall e t, In e evs -> ~ starts_at e t end.
Proof.
  unfold iter_min. destruct (starts_of evs) as [|x l] eqn:E.
  - intros e t He Ht. assert (H : In t (starts_of evs)) by (apply starts_of_In; eauto). rewrite E in H. destruct H.
  - destruct (fold_min_spec l x) as (A & B). rewrite <- E in A, B. split.
    + apply starts_of_In, A.
    + intros e t He Ht. apply B. apply starts_of_In. eauto.
Qed.
Lemma earliest_unique evs a b : earliest_start evs a -> earliest_start evs b -> a = b.
Proof. intros ((e & He & Ha) & LA) ((e' & He' & Hb) & LB). apply Z.le_antisymm; eauto. Qed.
Lemma micros_numeral t t0 : numeral (decimal (micros_since t t0)) (Z.max 0 (t - t0) / 1000).
Proof.
  unfold micros_since. replace (if t0 <=? t then t - t0 else 0) with (Z.max 0 (t - t0)) by (destruct (Z.leb_spec t0 t); lia). apply decimal_numeral. apply Z.div_pos; lia.
Qed.
Lemma join_spec l : comma_separated l (join (str ",") l).
Proof. induction l as [|x [|y l] IH]; [reflexivity|reflexivity|]. exists (join (str ",") (y :: l)). split; [exact IH|reflexivity]. Qed.
Lemma print_event_shown t0 e : event_sane e -> (forall t, starts_at e t -> t0 <= t) -> shown t0 e (print_event e t0).
Proof.
  intros (HT & HI) HS. exists (join (str ",") (ev_args e)), (payload_text (ev_payload e) t0), (decimal (ev_thread e)).
  split; [apply join_spec|]. split; [|split; [apply decimal_numeral; auto|]].
  - unfold starts_at in HS. destruct (ev_payload e) as [[a b|i]|v]; cbn [payload_text shown_payload].
    + specialize (HS a eq_refl). exists (decimal (micros_since a t0)), (decimal (micros_since b t0)). split; [|split; [apply micros_numeral|reflexivity]].
      replace (a - t0) with (Z.max 0 (a - t0)) by lia. apply micros_numeral.
    + specialize (HS i eq_refl). exists (decimal (micros_since i t0)). split; [|reflexivity]. replace (i - t0) with (Z.max 0 (i - t0)) by lia. apply micros_numeral.
    + apply decimal_numeral, HI.
  - unfold print_event, lines, LF. cbn [map concat]. rewrite !app_nil_r. rewrite <- !app_assoc. reflexivity.
Qed.
(** Every event of the selected thread (of all threads) is printed, in order, with times relative to
    the earliest start among all events. *)
Theorem C38_prints : forall thread_id evs t0, earliest_start evs t0 -> Forall event_sane evs ->
  exists txts, mmview_main thread_id evs = Printed (concat txts) /\ Forall2 (shown t0) (filter (wanted thread_id) evs) txts.
Proof.
  intros thread_id evs t0 HE F. unfold mmview_main. pose proof (iter_min_spec evs) as S. destruct (iter_min (starts_of evs)) as [g|].
  - rewrite (earliest_unique _ _ _ S HE). destruct HE as (_ & HL). clear S.
    assert (K : exists txts, print_events thread_id t0 evs = concat txts /\ Forall2 (shown t0) (filter (wanted thread_id) evs) txts); [|destruct K as (txts & -> & K); eauto].
    induction evs as [|e evs IH]; [exists []; split; [reflexivity|constructor]|]. inversion F as [|? ? HS F']; subst.
    destruct IH as (txts & E & K); auto; [intros; eapply HL; eauto; right; auto|].
    assert (P : shown t0 e (print_event e t0)) by (apply print_event_shown; auto; intros t Ht; apply (HL e t); [left; auto|exact Ht]).
    cbn [print_events filter]. unfold wanted at 1. destruct thread_id as [t|]; [destruct (ev_thread e =? t); cbn [negb]|]; rewrite E.
    + exists (print_event e t0 :: txts). split; [reflexivity|constructor; auto].
    + exists txts. auto.
    + exists (print_event e t0 :: txts). split; [reflexivity|constructor; auto].
  - destruct HE as ((e & He & Ht) & _). destruct (S _ _ He Ht).
Qed.
(** "No events." is reported iff all events are integer events ... *)
Theorem C38_no_events : forall thread_id evs, mmview_main thread_id evs = NoEvents <-> forall e, In e evs -> exists i, ev_payload e = Integer i.
Proof.
  intros thread_id evs. unfold mmview_main. pose proof (iter_min_spec evs) as S. destruct (iter_min (starts_of evs)) as [g|]; split; try discriminate; auto.
  - intros H. destruct S as ((e & He & Ht) & _). destruct (H e He) as (i & Hi). unfold starts_at in Ht. rewrite Hi in Ht. destruct Ht.
  - intros _ e He. specialize (fun t => S e t He). unfold starts_at in S. destruct (ev_payload e) as [[a b|i]|v]; [destruct (S a eq_refl)|destruct (S i eq_refl)|eauto].
Qed.
(** ... hence also for profiles with events (but without timestamps). *)
Theorem C38_integer_events_refuted : exists evs, evs <> [] /\ Forall event_sane evs /\ forall thread_id, mmview_main thread_id evs = NoEvents.
Proof.
  exists [mkEv (str "ArtifactSize") (str "x") [] (Integer 5) 1]. split; [discriminate|]. split; [repeat constructor; cbn; lia|]. intros t. reflexivity.
Qed.
Example C38_example :
  mmview_main (Some 7) [mkEv (str "Q") (str "a") [str "x"; str "y"] (Timestamp (Interval 5000 8999)) 7; mkEv (str "Q") (str "b") [] (Timestamp (Instant 4000)) 8] =
  Printed (lines [str "{"; str "    kind: Q,"; str "    label: a,"; str "    additional_data: [x,y],"; str "    payload: 1 μs - 4 μs,"; str "    thread_id: 7,"; str "}"]).
Proof. reflexivity. Qed.

(** ** mmedit truncate *)
Fixpoint keep (seen : bool) (ps : list page) : list page :=
  match ps with
  | [] => []
  | (TEvents, e) :: ps' => if seen then keep true ps' else (TEvents, e) :: keep true ps'
  | p :: ps' => p :: keep seen ps'
  end.
Lemma keep_true ps : keep true ps = filter (fun p => negb (tag_eqb (fst p) TEvents)) ps.
Proof. induction ps as [|([], e) ps IH]; cbn; auto; f_equal; auto. Qed.
Lemma keep_truncation ps qs : truncation ps qs <-> qs = keep false ps.
Proof.
  assert (KN : forall pre s rest, Forall no_events_page pre -> keep s (pre ++ rest) = pre ++ keep s rest).
  { induction pre as [|(t, e) pre IH]; intros s rest F; auto. inversion F as [|? ? N F']; subst. unfold no_events_page in N. cbn in N. cbn [app keep]. destruct t; [congruence| |]; rewrite IH by auto; reflexivity. }
  split.
  - intros [(F & ->)|(pre & e & post & -> & F & ->)].
    + rewrite <- (app_nil_r ps) at 2. rewrite KN by auto. cbn. rewrite app_nil_r. reflexivity.
    + rewrite KN by auto. cbn [keep]. rewrite keep_true. reflexivity.
  - intros ->. induction ps as [|(t, e) ps IH]; [left; split; [constructor|reflexivity]|].
    assert (N : t = TEvents \/ t <> TEvents) by (destruct t; auto; right; discriminate). destruct N as [->|N].
    + right. exists [], e, ps. split; [reflexivity|]. split; [apply Forall_nil|]. cbn [keep app]. rewrite keep_true. reflexivity.
    + enough (G : truncation ((t, e) :: ps) ((t, e) :: keep false ps)) by (destruct t; [congruence|exact G|exact G]).
      destruct IH as [(F & E)|(pre & e' & post & E0 & F & E)].
      * left. split; [apply Forall_cons; [exact N|exact F]|congruence].
      * right. exists ((t, e) :: pre), e', post. split; [rewrite E0; reflexivity|]. split; [apply Forall_cons; [exact N|exact F]|]. rewrite E. reflexivity.
Qed.
Lemma enc_pages_cons p ps : enc_pages (p :: ps) = enc_page p ++ enc_pages ps. Proof. reflexivity. Qed.
Lemma zlen_enc_page p : zlen (enc_page p) = 5 + zlen (snd p).
Proof. unfold enc_page. rewrite !zlen_app. unfold zlen at 1 2. rewrite le_bytes_len. cbn. lia. Qed.
Lemma truncate_loop_pages ps : forall fuel out seen, Forall page_wf ps -> (List.length ps <= fuel)%nat ->
  truncate_loop fuel (enc_pages ps) out seen = Ok (out ++ enc_pages (keep seen ps)).
Proof.
  induction ps as [|(t, e) ps IH]; intros fuel out seen F L.
  - destruct fuel; cbn; rewrite app_nil_r; reflexivity.
  - inversion F as [|? ? HW F']; subst. destruct fuel as [|fuel]; [cbn in L; lia|]. cbn [List.length] in L. rewrite enc_pages_cons.
    pose proof (zlen_enc_page (t, e)) as LE. unfold page_wf in HW. cbn [snd] in *.
    assert (E0 : enc_page (t, e) ++ enc_pages ps = page_tag t :: (le_bytes 4 (zlen e) ++ e ++ enc_pages ps)) by (unfold enc_page; cbn [fst snd app]; rewrite <- !app_assoc; reflexivity).
    rewrite E0. cbn [truncate_loop]. rewrite tag_of_byte_byte.
    assert (L4 : zlen (le_bytes 4 (zlen e)) = 4) by (unfold zlen at 1; rewrite le_bytes_len; reflexivity).
    rewrite zlen_app, L4. pose proof (zlen_nonneg (e ++ enc_pages ps)). destruct (Z.ltb_spec (4 + zlen (e ++ enc_pages ps)) 4); [lia|].
    rewrite (ztake_app_eq 4) by (symmetry; exact L4). rewrite le_val_bytes_small by (change (256 ^ Z.of_nat 4) with (256 ^ 4); lia).
    destruct (Z.leb_spec (zlen e) 0); [lia|]. rewrite <- E0. rewrite zlen_app, LE. pose proof (zlen_nonneg (enc_pages ps)). destruct (Z.ltb_spec (5 + zlen e + zlen (enc_pages ps)) (5 + zlen e)); [lia|].
    rewrite (ztake_app_eq (5 + zlen e)) by lia. rewrite (zdrop_app_eq (5 + zlen e)) by lia.
    destruct t; [destruct seen; cbn [negb]| |]; rewrite IH by (auto; lia); cbn [keep]; rewrite ?enc_pages_cons, ?app_assoc; reflexivity.
Qed.
Lemma truncate_loop_split fuel : forall data out seen acc, match truncate_loop fuel data out seen with Ok _ => exists r, split_loop fuel data acc = Ok r | Panic => split_loop fuel data acc = Panic | _ => split_loop fuel data acc = Diverge end.
Proof.
  induction fuel as [|f IH]; intros data out seen acc; destruct data as [|tb rest]; cbn [truncate_loop split_loop]; eauto.
  destruct (tag_of_byte tb) as [t|]; auto. destruct (Z.ltb_spec (zlen rest) 4) as [L4|L4]; auto. destruct (le_val (ztake 4 rest) <=? 0) eqn:EP; auto. apply Z.leb_gt in EP.
  assert (LD : zlen (zdrop 4 rest) = zlen rest - 4) by (apply zlen_zdrop; lia). rewrite LD, zlen_cons.
  destruct (Z.ltb_spec (zlen rest - 4) (le_val (ztake 4 rest))) as [LR|LR]; destruct (Z.ltb_spec (1 + zlen rest) (5 + le_val (ztake 4 rest))) as [LR'|LR']; try lia; auto.
  set (n := le_val (ztake 4 rest)) in *.
  assert (ED : zdrop (5 + n) (tb :: rest) = zdrop n (zdrop 4 rest)).
  { rewrite zdrop_zdrop by lia. unfold zdrop. replace (Z.to_nat (5 + n)) with (S (Z.to_nat (n + 4))) by lia. reflexivity. }
  rewrite ED. destruct t; [destruct seen; cbn [negb]| |]; apply IH.
Qed.
Lemma header_split file : bytes_ok file -> forall v, read_file_header file FILE_MAGIC_TOP_LEVEL = Ok v ->
  ztake 8 file = [77; 77; 80; 68] ++ le_bytes 4 v /\ 8 <= zlen file.
Proof.
  intros B v. unfold read_file_header. destruct (Z.ltb_spec (zlen file) FILE_HEADER_SIZE) as [L|L]; [discriminate|]. unfold FILE_HEADER_SIZE in L. destruct (beq (zslice 0 4 file) FILE_MAGIC_TOP_LEVEL) eqn:E; [|discriminate]. intros [= <-].
  apply beq_true in E. split; [|exact L]. unfold zslice in *. change (4 - 0) with 4 in *. change (8 - 4) with 4. rewrite zdrop_0 in E.
  change [77; 77; 80; 68] with FILE_MAGIC_TOP_LEVEL. rewrite <- E.
  assert (L4 : zlen (ztake 4 (zdrop 4 file)) = 4) by (apply zlen_ztake; rewrite zlen_zdrop; lia).
  replace 4%nat with (List.length (ztake 4 (zdrop 4 file))) by (unfold zlen in L4; lia). rewrite le_bytes_val.
  - rewrite <- (ztake_zdrop 4 file) at 1. rewrite ztake_app_ge by (rewrite zlen_ztake; lia). rewrite zlen_ztake by lia. reflexivity.
  - rewrite <- (ztake_zdrop 4 file) in B. apply bytes_ok_app in B. destruct B as (_ & B). rewrite <- (ztake_zdrop 4 (zdrop 4 file)) in B. apply bytes_ok_app in B. apply B.
Qed.
Lemma read_header_file v ps : 0 <= v < 256 ^ 4 -> read_file_header (paged_file v ps) FILE_MAGIC_TOP_LEVEL = Ok v.
Proof.
  intros H. unfold read_file_header, paged_file. assert (L4 : zlen (le_bytes 4 v) = 4) by (unfold zlen; rewrite le_bytes_len; reflexivity).
  pose proof (zlen_nonneg (enc_pages ps)). rewrite !zlen_app, L4. change (zlen [77; 77; 80; 68]) with 4. destruct (Z.ltb_spec (4 + (4 + zlen (enc_pages ps))) FILE_HEADER_SIZE) as [L|L]; [unfold FILE_HEADER_SIZE in L; lia|].
  unfold zslice. change (4 - 0) with 4. change (8 - 4) with 4. rewrite zdrop_0. rewrite (ztake_app_eq 4) by reflexivity. rewrite (zdrop_app_eq 4) by reflexivity. rewrite (ztake_app_eq 4) by (symmetry; exact L4).
  change (beq [77; 77; 80; 68] FILE_MAGIC_TOP_LEVEL) with true. cbn [bind]. rewrite le_val_bytes_small by (change (256 ^ Z.of_nat 4) with (256 ^ 4); lia). reflexivity.
Qed.
Lemma file_parts v ps : ztake 8 (paged_file v ps) = [77; 77; 80; 68] ++ le_bytes 4 v /\ zdrop 8 (paged_file v ps) = enc_pages ps.
Proof.
  unfold paged_file. rewrite app_assoc. assert (L : 8 = zlen ([77; 77; 80; 68] ++ le_bytes 4 v)) by (rewrite zlen_app; unfold zlen; rewrite le_bytes_len; reflexivity).
  split; [apply ztake_app_eq|apply zdrop_app_eq]; exact L.
Qed.
(** Truncating a version 7 or 8 file keeps the header, all string pages and the first events page, in
    order; exactly well-formed files of these versions are accepted. *)
Theorem C39_truncate : forall file out, bytes_ok file ->
  (truncate file = Ok out <->
   exists v ps qs, (v = 7 \/ v = 8) /\ Forall page_wf ps /\ file = paged_file v ps /\ truncation ps qs /\ out = paged_file v qs).
Proof.
  intros file out B. split.
  - unfold truncate. destruct (read_file_header file FILE_MAGIC_TOP_LEVEL) as [v| | |] eqn:EH; cbn [bind]; try discriminate.
    destruct (header_split _ B _ EH) as (ET & L8). destruct (Z.ltb_spec v 7); [discriminate|]. destruct (Z.ltb_spec 8 v); [discriminate|]. cbn [orb]. unfold FILE_HEADER_SIZE.
    intros H1. pose proof (truncate_loop_split (List.length (zdrop 8 file)) (zdrop 8 file) (ztake 8 file) false (tconst None)) as S. rewrite H1 in S. destruct S as (r & S).
    destruct (split_loop_ok _ _ _ _ ltac:(rewrite <- (ztake_zdrop 8 file) in B; apply bytes_ok_app in B; apply B) S) as (ps & F & ED & _).
    rewrite ED in H1. rewrite truncate_loop_pages in H1 by (auto; apply length_enc_pages_ge). injection H1 as <-.
    exists v, ps, (keep false ps). split; [lia|]. split; auto. split; [|split; [apply keep_truncation; reflexivity|]].
    + rewrite <- (ztake_zdrop 8 file). rewrite ET, ED. unfold paged_file. rewrite <- !app_assoc. reflexivity.
    + rewrite ET. unfold paged_file. rewrite <- !app_assoc. reflexivity.
  - intros (v & ps & qs & HV & F & -> & T & ->). apply keep_truncation in T. subst qs. unfold truncate. rewrite read_header_file by (destruct HV; subst; lia). cbn [bind].
    destruct (file_parts v ps) as (E1 & E2). unfold FILE_HEADER_SIZE. rewrite E1, E2. rewrite truncate_loop_pages by (auto; apply length_enc_pages_ge).
    unfold paged_file. rewrite <- !app_assoc. destruct HV; subst; reflexivity.
Qed.
(** Everything else is an error (bad header, unsupported version) or a panic (malformed pages). *)
Theorem C39_rejects : forall file, bytes_ok file ->
  match truncate file with
  | Ok _ => True
  | Err => ~ exists v rest, (v = 7 \/ v = 8) /\ file = [77; 77; 80; 68] ++ le_bytes 4 v ++ rest
  | Panic => exists v rest, (v = 7 \/ v = 8) /\ file = [77; 77; 80; 68] ++ le_bytes 4 v ++ rest /\ ~ exists ps, Forall page_wf ps /\ rest = enc_pages ps
  | Diverge => False
  end.
Proof.
  intros file B. assert (HD : forall v rest, (v = 7 \/ v = 8) -> file = [77; 77; 80; 68] ++ le_bytes 4 v ++ rest -> read_file_header file FILE_MAGIC_TOP_LEVEL = Ok v).
  { intros v rest HV ->. unfold read_file_header. rewrite !zlen_app. change (zlen [77; 77; 80; 68]) with 4. assert (L4 : zlen (le_bytes 4 v) = 4) by (unfold zlen; rewrite le_bytes_len; reflexivity). rewrite L4.
    pose proof (zlen_nonneg rest). destruct (Z.ltb_spec (4 + (4 + zlen rest)) FILE_HEADER_SIZE) as [L|L]; [unfold FILE_HEADER_SIZE in L; lia|]. unfold zslice. change (4 - 0) with 4. change (8 - 4) with 4. rewrite zdrop_0.
    rewrite (ztake_app_eq 4) by reflexivity. rewrite (zdrop_app_eq 4) by reflexivity. rewrite (ztake_app_eq 4) by (symmetry; exact L4). destruct HV; subst; reflexivity. }
  unfold truncate. destruct (read_file_header file FILE_MAGIC_TOP_LEVEL) as [v| | |] eqn:EH; cbn [bind].
  - destruct (header_split _ B _ EH) as (ET & L8). destruct ((v <? 7) || (8 <? v)) eqn:EV.
    + intros (v' & rest & HV & EF). specialize (HD _ _ HV EF). injection HD as <-. destruct HV; subst; discriminate EV.
    + apply orb_false_elim in EV. destruct EV as (EV1 & EV2). apply Z.ltb_ge in EV1, EV2. unfold FILE_HEADER_SIZE.
      pose proof (truncate_loop_split (List.length (zdrop 8 file)) (zdrop 8 file) (ztake 8 file) false (tconst None)) as S.
      pose proof (split_loop_no_err (List.length (zdrop 8 file)) (zdrop 8 file) (tconst None) (le_n _)) as N.
      destruct (truncate_loop (List.length (zdrop 8 file)) (zdrop 8 file) (ztake 8 file) false) eqn:EL; auto.
      * destruct N as [N|(r & N)]; rewrite N in S; discriminate.
      * exists v, (zdrop 8 file). split; [lia|]. split; [rewrite app_assoc, <- ET; symmetry; apply ztake_zdrop|]. intros (ps & F & E).
        rewrite E in EL. rewrite truncate_loop_pages in EL by (auto; apply length_enc_pages_ge). discriminate.
      * destruct N as [N|(r & N)]; rewrite N in S; discriminate.
  - intros (v & rest & HV & EF). specialize (HD _ _ HV EF). discriminate.
  - unfold read_file_header in EH. destruct (zlen file <? FILE_HEADER_SIZE); [discriminate|]. destruct (beq _ _); discriminate.
  - unfold read_file_header in EH. destruct (zlen file <? FILE_HEADER_SIZE); [discriminate|]. destruct (beq _ _); discriminate.
Qed.
(** The splitter reads both string streams unchanged and the first events page from the result. *)
Theorem C39_streams : forall file out, bytes_ok file -> truncate file = Ok out ->
  exists s s', split_streams (zdrop 8 file) = Ok s /\ split_streams (zdrop 8 out) = Ok s' /\
    tget TStrData s' = tget TStrData s /\ tget TStrIndex s' = tget TStrIndex s /\
    match tget TEvents s, tget TEvents s' with
    | None, None => True
    | Some all, Some first => exists rest, all = first ++ rest /\ exists pre post, zdrop 8 file = pre ++ enc_page (TEvents, first) ++ post
    | _, _ => False
    end.
Proof.
  intros file out B H. apply C39_truncate in H; auto. destruct H as (v & ps & qs & _ & F & -> & T & ->). rewrite !(proj2 (file_parts _ _)).
  assert (FQ : Forall page_wf qs). { destruct T as [(_ & ->)|(pre & e & post & -> & _ & ->)]; auto. apply Forall_app in F. destruct F as (F1 & F2). inversion F2 as [|? ? F3 F4]; subst. apply Forall_app. split; auto. constructor; auto. rewrite Forall_forall in *. intros x Hx. apply filter_In in Hx. apply F4, Hx. }
  exists (streams_of (fun t => stream t ps)), (streams_of (fun t => stream t qs)). rewrite !split_pages by auto. split; [reflexivity|]. split; [reflexivity|].
  assert (SA : forall t a b, stream t (a ++ b) = stream t a ++ stream t b). { induction a as [|(t', x) a IH]; intros b; cbn [app stream]; auto. rewrite IH, app_assoc. reflexivity. }
  assert (SF : forall t l, t <> TEvents -> stream t (filter (fun p : page => negb (tag_eqb (fst p) TEvents)) l) = stream t l).
  { intros t l N. induction l as [|([], x) l IH]; cbn [filter stream fst tag_eqb negb]; auto; rewrite IH; auto. destruct t; [congruence| |]; reflexivity. }
  assert (S0 : forall l, Forall no_events_page l -> stream TEvents l = []). { induction l as [|(t, x) l IH]; intros FN; auto. inversion FN as [|? ? N FN']; subst. unfold no_events_page in N. cbn in N. cbn [stream]. rewrite IH by auto. destruct t; [congruence| |]; reflexivity. }
  destruct T as [(FN & ->)|(pre & e & post & -> & FN & ->)].
  - split; auto. split; auto. cbn [streams_of tget tm_ev]. rewrite S0 by auto. exact I.
  - cbn [streams_of tget tm_ev tm_sd tm_si]. rewrite !SA. cbn [stream tag_eqb]. rewrite !SF by discriminate. split; auto. split; auto. rewrite (S0 pre FN). cbn [app].
    assert (SZ : stream TEvents (filter (fun p : tag * bytes => negb (tag_eqb (fst p) TEvents)) post) = []) by (apply S0; apply Forall_forall; intros x Hx; apply filter_In in Hx; destruct Hx as (_ & Hx); intros E; rewrite E in Hx; discriminate).
    rewrite SZ, app_nil_r. apply Forall_app in F. destruct F as (_ & F). inversion F as [|? ? F3 _]; subst. unfold page_wf in F3. cbn in F3. destruct e as [|x e]; [unfold zlen in F3; cbn in F3; lia|]. cbn [present app].
    exists (stream TEvents post). split; [reflexivity|]. exists (enc_pages pre), (enc_pages post). unfold enc_pages. rewrite map_app, concat_app. reflexivity.
Qed.
(** Truncating again changes nothing. *)
Theorem C39_idempotent : forall file out, bytes_ok file -> truncate file = Ok out -> truncate out = Ok out.
Proof.
  intros file out B H. assert (BO : bytes_ok out).
  { pose proof H as H'. apply C39_truncate in H'; auto. destruct H' as (v & ps & qs & _ & F & -> & T & ->). unfold paged_file in *. rewrite !bytes_ok_app in B. destruct B as (B1 & B2 & B3). rewrite !bytes_ok_app. split; auto. split; auto.
    destruct T as [(_ & ->)|(pre & e & post & -> & _ & ->)]; auto. unfold enc_pages in *. rewrite map_app, concat_app in *. cbn [map concat] in *. rewrite !bytes_ok_app in *. destruct B3 as (B3 & B4 & B5). split; auto. split; auto.
    clear - B5. induction post as [|([], x) post IH]; cbn [map concat filter fst tag_eqb negb] in *; auto; rewrite !bytes_ok_app in *; destruct B5 as (B5 & B6); auto. }
  apply C39_truncate in H; auto. destruct H as (v & ps & qs & HV & F & -> & T & ->). apply C39_truncate; auto. exists v, qs, qs. split; auto.
  assert (FQ : Forall page_wf qs). { destruct T as [(_ & ->)|(pre & e & post & -> & _ & ->)]; auto. apply Forall_app in F. destruct F as (F1 & F2). inversion F2 as [|? ? F3 F4]; subst. apply Forall_app. split; auto. constructor; auto. rewrite Forall_forall in *. intros x Hx. apply filter_In in Hx. apply F4, Hx. }
  split; auto. split; auto. split; auto. destruct T as [(FN & ->)|(pre & e & post & -> & FN & ->)]; [left; auto|].
  right. exists pre, e, (filter (fun p => negb (tag_eqb (fst p) TEvents)) post). split; auto. split; auto. f_equal. f_equal. clear. induction post as [|([], x) post IH]; cbn; auto; f_equal; auto.
Qed.
(** Files written by the current version are rejected (a defect). *)
Theorem C39_current_version_refuted : forall rest, truncate ([77; 77; 80; 68] ++ le_bytes 4 CURRENT_FILE_FORMAT_VERSION ++ rest) = Err.
Proof.
  intros rest. unfold truncate, read_file_header. rewrite !zlen_app. change (zlen [77; 77; 80; 68]) with 4. change (zlen (le_bytes 4 CURRENT_FILE_FORMAT_VERSION)) with 4. pose proof (zlen_nonneg rest).
  destruct (Z.ltb_spec (4 + (4 + zlen rest)) FILE_HEADER_SIZE) as [L|L]; [reflexivity|]. unfold zslice. change (4 - 0) with 4. change (8 - 4) with 4. rewrite zdrop_0.
  rewrite (ztake_app_eq 4) by reflexivity. rewrite (zdrop_app_eq 4) by reflexivity. rewrite (ztake_app_eq 4) by reflexivity. reflexivity.
Qed.
Example C39_example : truncate (paged_file 8 [(TStrData, [1; 2]); (TEvents, [3]); (TStrIndex, [4]); (TEvents, [5; 6]); (TStrData, [7])]) =
  Ok (paged_file 8 [(TStrData, [1; 2]); (TEvents, [3]); (TStrIndex, [4]); (TStrData, [7])]).
Proof. reflexivity. Qed.
Print Assumptions C38_prints.
Print Assumptions C39_truncate.
Print Assumptions C39_streams.
