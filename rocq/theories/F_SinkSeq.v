(** Sequential use of the sinks. *)
From Coq Require Import ZArith List Lia Bool.
From Verif Require Import M_Base F_Base M_Sink S_Sink F_Sink.
Import ListNotations.
Open Scope Z_scope.

Definition op_fin (o : op) (b : bytes) : Prop :=
  match o with OStdFlush _ | ODrop _ => b = [] | _ => True end.

(** Pages added by running a residual program. *)
Lemma run_okp t L Q F r : forall P cur p,
  okp t L Q F r P cur p ->
  forall m pages,
    disk m = enc_pages pages ++ (match cur with Some (_, part) => part | None => [] end) ->
    stream t pages = P ->
    (match cur with Some _ => True | None => shl m = None end) ->
    exists news m',
      run p m = (Ok r, m') /\
      disk m' = enc_pages (pages ++ news) /\
      Forall page_ok news /\
      Forall (fun p => fst p = t) news /\
      sink_ok (stream t (pages ++ news)) L (tget t (sinks m')) /\
      F (sbuf (tget t (sinks m'))) /\
      (forall t', t' <> t -> tget t' (sinks m') = tget t' (sinks m)) /\
      slk m' = tset t None (slk m) /\ shl m' = None.
Proof.
  induction 1 as [P s H1 H2 H3 H4|P pl k H IH|P pl part bs k Hpre H IH|P pl part k Hpart Hpok HQ H IH|P k H IH];
    intros m pages Hd Hs Hsh; cbn [run].
  - exists [], (mkMem (disk m) (tset t s (sinks m)) (tset t None (slk m)) (shl m)).
    rewrite app_nil_r in *. simpl. rewrite tget_tset_same.
    repeat split; auto.
    + rewrite Hs; auto.
    + intros t' Ht'. rewrite tget_tset_other; auto.
  - rewrite Hsh. apply (IH (mkMem (disk m) (sinks m) (slk m) (Some 0)) pages); simpl; auto.
  - destruct (IH (mkMem (disk m ++ bs) (sinks m) (slk m) (shl m)) pages) as (news & m' & HH); simpl; auto.
    + rewrite Hd, app_assoc. auto.
    + exists news, m'. auto.
  - destruct (IH (mkMem (disk m) (sinks m) (slk m) None) (pages ++ [(t, pl)])) as (news & m' & Hr & Hd' & Hn1 & Hn2 & Hso & HF & Hss); simpl; auto.
    + rewrite Hd, Hpart, enc_pages_snoc, app_nil_r. auto.
    + rewrite stream_snoc, tag_eqb_refl, Hs. auto.
    + exists ((t, pl) :: news), m'. rewrite <- app_assoc in *. simpl in *.
      split; [exact Hr|]. repeat (split; [first [exact Hd' | exact Hso | exact HF | constructor; auto ]|]). exact Hss.
  - apply (IH (mkMem (disk m) (sinks m) (slk m) None) pages); simpl; auto.
Qed.

Definition seq_inv (ops : list op) (m : mem) : Prop :=
  exists pages,
    disk m = enc_pages pages /\ Forall page_ok pages /\
    slk m = tconst None /\ shl m = None /\
    forall t, sink_ok (stream t pages) (written t ops) (tget t (sinks m)).

Lemma seq_inv0 : seq_inv [] mem0.
Proof.
  exists []. repeat split; auto; destruct t; simpl; unfold MAX_PAGE_SIZE, zlen; simpl; auto; lia.
Qed.

Lemma stream_other t t' news : t' <> t -> Forall (fun p : page => fst p = t) news -> stream t' news = [].
Proof.
  intros Hne. induction 1 as [|[t1 b] news H1 _ IH]; simpl; auto.
  simpl in H1; subst t1. rewrite IH. destruct (tag_eqb t t') eqn:E; auto. apply tag_eqb_eq in E; congruence.
Qed.

Lemma run_op_seq ops o m : op_ok o -> seq_inv ops m ->
  exists m' news,
    run (op_prog o) m = (Ok (op_result o (zlen (written (op_tag o) ops))), m') /\
    seq_inv (ops ++ [o]) m' /\
    disk m' = disk m ++ enc_pages news /\
    op_fin o (sbuf (tget (op_tag o) (sinks m'))) /\
    (forall t', t' <> op_tag o -> tget t' (sinks m') = tget t' (sinks m)).
Proof.
  intros Hok (pages & Hd & Hp & Hl & Hsh & Hs).
  destruct (op_prog_starts o Hok) as (k & Ek & HK).
  set (t := op_tag o) in *.
  specialize (HK (stream t pages) (written t ops) (tget t (sinks m)) (fun _ => True) (Hs t) (or_intror (fun _ => I)) (fun _ => I)).
  rewrite Ek. cbn [run]. rewrite Hl, tget_tconst.
  destruct (run_okp _ _ _ _ _ _ _ _ HK
             (mkMem (disk m) (sinks m) (tset t (Some 0) (tconst None)) (shl m)) pages)
    as (news & m' & Hr & Hd' & Hn1 & Hn2 & Hso & HF & Hss & Hl' & Hsh'); simpl; rewrite ?app_nil_r; auto.
  simpl in *. exists m', news. split; [exact Hr|]. split; [|split; [|split]].
  - exists (pages ++ news). split; [exact Hd'|]. split; [apply Forall_app; auto|].
    split; [rewrite Hl'; destruct t; reflexivity|]. split; auto.
    intros t'. rewrite written_snoc. fold t. destruct (tag_eqb t t') eqn:E.
    + apply tag_eqb_eq in E; subst t'. exact Hso.
    + apply tag_eqb_neq in E. rewrite app_nil_r, Hss, stream_app by congruence.
      rewrite (stream_other t t' news); [rewrite app_nil_r; auto|congruence|exact Hn2].
  - rewrite Hd', enc_pages_app, Hd. auto.
  - unfold op_fin. exact HF.
  - exact Hss.
Qed.

(** The results of a sequence of calls, given the calls made before. *)
Fixpoint expected (before ops : list op) : list (res Z) :=
  match ops with
  | [] => []
  | o :: ops' => Ok (op_result o (zlen (written (op_tag o) before))) :: expected (before ++ [o]) ops'
  end.

Lemma run_ops_seq ops : forall before m, Forall op_ok ops -> seq_inv before m ->
  exists m' news, run_ops ops m = (expected before ops, m') /\ seq_inv (before ++ ops) m' /\
    disk m' = disk m ++ enc_pages news.
Proof.
  induction ops as [|o ops IH]; intros before m Hok Hinv.
  - exists m, []. rewrite app_nil_r. simpl. unfold enc_pages; simpl. rewrite app_nil_r. auto.
  - inversion Hok; subst. destruct (run_op_seq before o m) as (m1 & n1 & Hr & Hi & Hd & _); auto.
    cbn [run_ops]. rewrite Hr. destruct (IH (before ++ [o]) m1) as (m2 & n2 & Hr2 & Hi2 & Hd2); auto.
    rewrite Hr2. exists m2, (n1 ++ n2). rewrite <- app_assoc in Hi2. simpl. split; auto. split; auto.
    rewrite Hd2, Hd, enc_pages_app, app_assoc. auto.
Qed.

Lemma expected_app b a c : expected b (a ++ c) = expected b a ++ expected (b ++ a) c.
Proof.
  revert b; induction a as [|o a IH]; intros b; simpl.
  - rewrite app_nil_r. auto.
  - rewrite IH, <- app_assoc. auto.
Qed.

Lemma expected_length b a : length (expected b a) = length a.
Proof. revert b; induction a; simpl; intros; auto. Qed.

Lemma written_drops t drops : Forall is_drop drops -> written t drops = [].
Proof.
  induction 1 as [|o l [t' ->] _ IH]; simpl; auto. rewrite IH. destruct (tag_eqb t' t); auto.
Qed.

Lemma drops_ok drops : Forall is_drop drops -> Forall op_ok drops.
Proof. induction 1 as [|o l [t' ->] _ IH]; constructor; simpl; auto. Qed.

Lemma run_drops drops : forall before m, Forall is_drop drops -> seq_inv before m ->
  let m' := snd (run_ops drops m) in
  forall t, In (ODrop t) drops \/ sbuf (tget t (sinks m)) = [] -> sbuf (tget t (sinks m')) = [].
Proof.
  induction drops as [|o drops IH]; intros before m Hd Hinv m' t Ht.
  - destruct Ht as [[]|Ht]; auto.
  - inversion Hd as [|? ? [t0 ->] Hd']; subst.
    destruct (run_op_seq before (ODrop t0) m) as (m1 & n1 & Hr & Hi & _ & Hf & Hss); simpl; auto.
    unfold m'. cbn [run_ops]. rewrite Hr.
    specialize (IH _ m1 Hd' Hi t). destruct (run_ops drops m1) as [rs m2]. simpl in *.
    apply IH. destruct (tag_eq_dec t t0) as [->|Hne]; [right; exact Hf|].
    destruct Ht as [[E|Hin]|Hb]; [congruence|left; auto|]. right. rewrite Hss; auto.
Qed.

Lemma seq_inv_closed ops m : seq_inv ops m -> (forall t, sbuf (tget t (sinks m)) = []) ->
  split_streams (disk m) = Ok (streams_of (fun t => written t ops)).
Proof.
  intros (pages & Hd & Hp & _ & _ & Hs) Hb. rewrite Hd, split_pages.
  - f_equal. unfold streams_of.
    assert (forall t, stream t pages = written t ops) as E.
    { intros t. destruct (Hs t) as (H & _). rewrite Hb, app_nil_r in H. auto. }
    rewrite !E. reflexivity.
  - eapply Forall_impl; [|exact Hp]. apply page_ok_wf.
Qed.

Lemma roundtrip ops drops :
  Forall op_ok ops -> Forall is_drop drops -> (forall t, In (ODrop t) drops) ->
  split_streams (disk (snd (run_ops (ops ++ drops) mem0))) = Ok (streams_of (fun t => written t ops)).
Proof.
  intros Hok Hd Hin.
  assert (run_ops (ops ++ drops) mem0 =
          let '(r1, m1) := run_ops ops mem0 in let '(r2, m2) := run_ops drops m1 in (r1 ++ r2, m2)) as ->.
  { generalize mem0. induction ops as [|o ops IH]; intros m; simpl.
    - destruct (run_ops drops m); auto.
    - destruct (run (op_prog o) m). rewrite IH by (inversion Hok; auto).
      destruct (run_ops ops m0), (run_ops drops m1). auto. }
  destruct (run_ops_seq ops [] mem0 Hok seq_inv0) as (m1 & n1 & Hr & Hi & _). rewrite Hr.
  pose proof (run_drops drops _ m1 Hd Hi) as Hb.
  destruct (run_ops_seq drops ops m1 (drops_ok _ Hd) Hi) as (m2 & n2 & Hr2 & Hi2 & _).
  rewrite Hr2 in *. simpl in *.
  rewrite (seq_inv_closed _ _ Hi2) by auto.
  f_equal. unfold streams_of. rewrite !written_app, !(written_drops _ drops), !app_nil_r by auto. reflexivity.
Qed.

Lemma results ops : Forall op_ok ops ->
  fst (run_ops ops mem0) = expected [] ops.
Proof.
  intros Hok. destruct (run_ops_seq ops [] mem0 Hok seq_inv0) as (m1 & n1 & Hr & _). rewrite Hr. auto.
Qed.

Lemma result_at ops1 o ops2 : Forall op_ok (ops1 ++ o :: ops2) ->
  nth_error (fst (run_ops (ops1 ++ o :: ops2) mem0)) (length ops1)
  = Some (Ok (op_result o (zlen (written (op_tag o) ops1)))).
Proof.
  intros Hok. rewrite results by auto. rewrite expected_app, nth_error_app2; rewrite expected_length; auto.
  rewrite Nat.sub_diag. reflexivity.
Qed.

Lemma data_at t ops1 o ops2 : op_tag o = t ->
  zslice (zlen (written t ops1)) (zlen (written t ops1) + zlen (op_data o)) (written t (ops1 ++ o :: ops2))
  = op_data o.
Proof.
  intros Ht. rewrite written_app. simpl. rewrite Ht, tag_eqb_refl. apply zslice_mid.
Qed.

Lemma pages_discipline ops : Forall op_ok ops ->
  exists pages, disk (snd (run_ops ops mem0)) = enc_pages pages /\ Forall page_ok pages /\
    forall t, prefix (stream t pages) (written t ops).
Proof.
  intros Hok. destruct (run_ops_seq ops [] mem0 Hok seq_inv0) as (m1 & n1 & Hr & (pages & Hd & Hp & _ & _ & Hs) & _).
  rewrite Hr. exists pages. split; auto. split; auto. intros t. destruct (Hs t) as (E & _). simpl app in E. rewrite <- E. eexists; reflexivity.
Qed.

Lemma disk_append_only ops1 ops2 : Forall op_ok (ops1 ++ ops2) ->
  prefix (disk (snd (run_ops ops1 mem0))) (disk (snd (run_ops (ops1 ++ ops2) mem0))).
Proof.
  intros Hok. apply Forall_app in Hok. destruct Hok as [H1 H2].
  destruct (run_ops_seq ops1 [] mem0 H1 seq_inv0) as (m1 & n1 & Hr & Hi & _).
  destruct (run_ops_seq ops2 _ m1 H2 Hi) as (m2 & n2 & Hr2 & Hi2 & Hd2).
  assert (run_ops (ops1 ++ ops2) mem0 =
          let '(r1, m1) := run_ops ops1 mem0 in let '(r2, m2) := run_ops ops2 m1 in (r1 ++ r2, m2)) as ->.
  { clear. generalize mem0. induction ops1 as [|o ops IH]; intros m; simpl.
    - destruct (run_ops ops2 m); auto.
    - destruct (run (op_prog o) m). rewrite IH.
      destruct (run_ops ops m0), (run_ops ops2 m1). auto. }
  rewrite Hr, Hr2. simpl. rewrite Hd2. eexists; eauto.
Qed.

Lemma into_bytes_ok ops t : Forall op_ok ops ->
  into_bytes t (snd (run_ops ops mem0)) = Ok (written t ops).
Proof.
  intros Hok. destruct (run_ops_seq ops [] mem0 Hok seq_inv0) as (m & n1 & Hr & (pages & Hd & Hp & Hl & Hsh & Hs) & _).
  rewrite Hr. simpl snd. unfold into_bytes, flush, write_page.
  destruct (Hs t) as (HL & Ha & Hb).
  assert (Hps : forall ps, Forall page_ok ps -> Forall page_wf ps)
    by (intros ps H; eapply Forall_impl; [|exact H]; apply page_ok_wf).
  assert (Hpres : forall f, (match tget t (streams_of f) with Some b => b | None => [] end) = f t).
  { intros f. destruct t; simpl; unfold present; destruct (f _); auto. }
  destruct (Z.ltb_spec 0 (zlen (sbuf (tget t (sinks m))))).
  - destruct (Z.leb_spec (zlen (sbuf (tget t (sinks m)))) MAX_PAGE_SIZE); [|lia].
    set (b := sbuf (tget t (sinks m))) in *. cbn [run]. rewrite Hsh. unfold copy_bytes_with_page_tag. simpl disk.
    assert (((disk m ++ [tag_byte t]) ++ le_bytes 4 (zlen b)) ++ b = enc_pages (pages ++ [(t, b)])) as ->.
    { rewrite enc_pages_snoc, Hd. unfold enc_page. cbn [fst snd]. rewrite <- !app_assoc. auto. }
    rewrite split_pages. { cbn [bind]. rewrite Hpres, stream_snoc, tag_eqb_refl, HL. auto. }
    apply Hps. apply Forall_app; split; auto. constructor; auto. unfold page_ok; simpl. unfold MAX_PAGE_SIZE in *; lia.
  - cbn [run]. unfold copy_bytes_with_page_tag. rewrite Hd, split_pages by auto. cbn [bind]. rewrite Hpres.
    rewrite (zlen_0 (sbuf (tget t (sinks m)))), app_nil_r in HL; [rewrite HL; auto|].
    pose proof (zlen_nonneg (sbuf (tget t (sinks m)))); lia.
Qed.

(** ** [split_streams] on arbitrary input (C48) *)
Lemma split_accepts data : bytes_ok data ->
  (forall r, split_streams data = Ok r <->
     exists ps, Forall page_wf ps /\ data = enc_pages ps /\ r = streams_of (fun t => stream t ps)) /\
  (split_streams data = Panic <-> ~ exists ps, Forall page_wf ps /\ data = enc_pages ps).
Proof.
  intros Hb. split.
  - intros r; split.
    + intros H. destruct (split_loop_ok _ _ _ _ Hb H) as (ps & Hps & Hd & Hr).
      exists ps. rewrite <- add_pages_streams by auto. auto.
    + intros (ps & Hps & -> & ->). apply split_pages; auto.
  - split.
    + intros H (ps & Hps & ->). rewrite split_pages in H by auto. discriminate.
    + intros H. destruct (split_loop_no_err (length data) data (tconst None)) as [E|[r E]]; auto.
      exfalso. apply H. destruct (split_loop_ok _ _ _ _ Hb E) as (ps & Hps & Hd & Hr). eauto.
Qed.
