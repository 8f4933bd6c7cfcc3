(** C72, mmedit: what it does with the contents of a file.  Model M_Programs.v, specification S_Tools.v (truncation), S_Open.v (texts). *)
From Coq Require Import String ZArith List Lia Bool.
From Verif Require Import M_Base F_Base M_Map M_Sink S_Sink M_Header M_Open M_Path M_Crox M_Tools S_Tools S_Open M_Programs Prop_Path Prop_Open Prop_Tools.
Import ListNotations.
Open Scope Z_scope.

Definition MMPD : bytes := str "MMPD".
(** What mmedit does with the contents of a file: [inl out] is the contents of its output, [inr e] the end of a program that writes nothing. *)
Inductive edits : bytes -> bytes + ending -> Prop :=
| ed_ok v ps qs : v = 7 \/ v = 8 -> Forall page_wf ps -> truncation ps qs -> edits (MMPD ++ le_bytes 4 v ++ enc_pages ps) (inl (MMPD ++ le_bytes 4 v ++ enc_pages qs))
| ed_torn v body : v = 7 \/ v = 8 -> (forall ps, Forall page_wf ps -> body <> enc_pages ps) -> edits (MMPD ++ le_bytes 4 v ++ body) (inr Crash)
| ed_version v body : 0 <= v < 2 ^ 32 -> v <> 7 -> v <> 8 -> edits (MMPD ++ le_bytes 4 v ++ body) (inr (Failure (str "File version " ++ decimal v ++ str " is not support")))
| ed_header contents problem : bad_magic MMPD contents problem -> edits contents (inr (Failure (about (str "top-level") (str "<in-memory>") problem))).

Lemma e_read_ok v rest file tag : 0 <= v < 2 ^ 32 -> e_read_file_header (MMPD ++ le_bytes 4 v ++ rest) FILE_MAGIC_TOP_LEVEL file tag = EOk v.
Proof.
  intros Hv. unfold e_read_file_header. destruct (start_parts MMPD v rest eq_refl Hv) as (-> & -> & -> & _). reflexivity.
Qed.
Lemma read_ok v rest : 0 <= v < 2 ^ 32 -> read_file_header (MMPD ++ le_bytes 4 v ++ rest) FILE_MAGIC_TOP_LEVEL = Ok v.
Proof.
  intros Hv. unfold read_file_header. destruct (start_parts MMPD v rest eq_refl Hv) as (-> & -> & -> & _). reflexivity.
Qed.
Lemma e_truncate_known v rest : v = 7 \/ v = 8 -> e_truncate (MMPD ++ le_bytes 4 v ++ rest) = sure (truncate (MMPD ++ le_bytes 4 v ++ rest)).
Proof.
  intros Hv. unfold e_truncate, truncate. assert (0 <= v < 2 ^ 32) by lia. rewrite e_read_ok, read_ok by auto. cbn [ebind bind]. destruct Hv; subst v; reflexivity.
Qed.
Lemma e_truncate_edits c : bytes_ok c ->
  (exists o, edits c o) /\ (forall out, edits c (inl out) -> e_truncate c = EOk out) /\
  (forall e, edits c (inr e) -> (e = Crash /\ e_truncate c = EPanic) \/ (exists t, e = Failure t /\ e_truncate c = EErr t)).
Proof.
  intros B. split; [|split].
  - destruct (start_cases c B) as [L|(m & v & rest & -> & Hm & Hv)]; [eexists; eapply ed_header; constructor; exact L|].
    destruct (list_eq_dec Z.eq_dec m MMPD) as [->|N].
    2:{ eexists. eapply ed_header. apply bad_four; auto. rewrite zlen_app. pose proof (zlen_nonneg rest). replace (zlen (le_bytes 4 v)) with 4 by (unfold zlen; rewrite le_bytes_len; reflexivity). lia. }
    destruct (Z.eq_dec v 7) as [E7|N7]; [|destruct (Z.eq_dec v 8) as [E8|N8]; [|eexists; eapply ed_version; eauto]].
    all: pose proof (C39_rejects _ B) as R; destruct (truncate (MMPD ++ le_bytes 4 v ++ rest)) as [out| | |] eqn:T; try contradiction.
    all: try (exfalso; apply R; exists v, rest; split; [lia|reflexivity]).
    all: try (apply C39_truncate in T; [|exact B]; destruct T as (v' & ps & qs & Hv' & F & E & T & _); rewrite E; eexists; eapply ed_ok; eauto).
    all: destruct R as (v' & rest' & Hv' & E & R); rewrite E; eexists; eapply ed_torn; [exact Hv'|intros ps F Q; apply R; exists ps; auto].
  - intros out E. inversion E; subst. rewrite e_truncate_known by auto. replace (truncate _) with (Ok (MMPD ++ le_bytes 4 v ++ enc_pages qs)); [reflexivity|]. symmetry. apply C39_truncate; [exact B|]. exists v, ps, qs. auto.
  - intros e E. inversion E as [|v body HV HB|v body HV H7 H8|c' problem HM]; subst.
    + left. split; [reflexivity|]. rewrite e_truncate_known by auto. pose proof (C39_rejects _ B) as R. destruct (truncate _) as [out| | |] eqn:T; try contradiction; [|exfalso; apply R; eauto|reflexivity].
      exfalso. apply C39_truncate in T; [|exact B]. destruct T as (v' & ps & qs & Hv' & F & Q & T & _). apply (HB ps F). unfold paged_file in Q. change [77; 77; 80; 68] with MMPD in Q. apply app_inv_head in Q.
      apply (f_equal (zdrop 4)) in Q. rewrite !zdrop_app_eq in Q by (unfold zlen; rewrite le_bytes_len; reflexivity). exact Q.
    + right. eexists. split; [reflexivity|]. unfold e_truncate. rewrite e_read_ok by auto. cbn [ebind]. replace ((v <? 7) || (8 <? v)) with true; [reflexivity|]. symmetry. apply orb_true_iff. rewrite !Z.ltb_lt. lia.
    + right. eexists. split; [reflexivity|]. unfold e_truncate. change FILE_MAGIC_TOP_LEVEL with MMPD. rewrite (proj1 (bad_magic_read _ MMPD _ eq_refl HM (str "<in-memory>") (str "top-level"))). reflexivity.
Qed.
(** mmedit on a file with those contents. *)
Theorem C72_mmedit : forall s w dir n contents, w (in_dir dir n) = Some contents -> bytes_ok contents ->
  (exists o, edits contents o) /\
  (forall out, edits contents (inl out) -> mmedit_cmd s w (in_dir dir n) = mkRun None (create w (in_dir dir (name_stem n ++ str ".truncated.mm_profdata")) out) Success) /\
  (forall e, edits contents (inr e) -> mmedit_cmd s w (in_dir dir n) = mkRun None w e).
Proof.
  intros s w dir n c W B. destruct (e_truncate_edits c B) as (E1 & E2 & E3). split; [exact E1|]. unfold mmedit_cmd. rewrite W. split.
  - intros out H. rewrite (E2 out H). cbn [try]. unfold truncated_path. rewrite with_extension_in_dir. reflexivity.
  - intros e H. destruct (E3 e H) as [(-> & ->)|(t & -> & ->)]; reflexivity.
Qed.
Print Assumptions C72_mmedit.
(** Concrete cases: a version 8 file with two events pages; version 9; a file that is too short. *)
Example ex_C72_mmedit :
  edits (MMPD ++ le_bytes 4 8 ++ enc_pages [(TEvents, [1]); (TStrData, [2]); (TEvents, [3])]) (inl (MMPD ++ le_bytes 4 8 ++ enc_pages [(TEvents, [1]); (TStrData, [2])])) /\
  edits (MMPD ++ le_bytes 4 9 ++ [0]) (inr (Failure (str "File version 9 is not support"))) /\
  edits [77] (inr (Failure (str "Error reading top-level stream in file `<in-memory>`: Expected file to contain at least `8` bytes but found `1` bytes"))) /\
  edits (MMPD ++ le_bytes 4 8 ++ [0]) (inr Crash).
Proof.
  split; [|split; [|split]].
  - apply (ed_ok 8 [(TEvents, [1]); (TStrData, [2]); (TEvents, [3])]); [auto|repeat constructor; cbn; lia|]. right. exists [], [1], [(TStrData, [2]); (TEvents, [3])]. split; [reflexivity|]. split; [constructor|reflexivity].
  - apply (ed_version 9); lia.
  - apply (ed_header [77] (str "Expected file to contain at least `8` bytes but found `1` bytes")). apply (bad_short MMPD [77]). reflexivity.
  - apply ed_torn; [auto|]. intros [|p ps] F E; [discriminate E|]. exfalso. unfold enc_pages in E. cbn [map concat] in E. unfold enc_page in E. rewrite <- !app_assoc in E. apply (f_equal (@List.length Z)) in E. rewrite !app_length, le_bytes_len in E. cbn in E. lia.
Qed.
