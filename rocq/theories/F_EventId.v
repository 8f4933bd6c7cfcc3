(** Proofs about the event id parser. *)
From Coq Require Import ZArith List Lia Bool.
From Verif Require Import M_Base F_Base M_Utf8 S_Utf8 F_Utf8 M_Strings M_StrTable S_Strings F_Strings F_Session F_Session2 M_EventId S_EventId.
Import ListNotations.
Open Scope Z_scope.

Definition bad_byte (b : Z) : bool := is_ascii_control b && negb (is_ascii_whitespace b).
Definition goodb (t : bytes) : bool := negb (zlen t =? 0) && negb (existsb bad_byte t).

Lemma bad_byte_spec b : 0 <= b -> bad_byte b = true <-> control b /\ ~ rust_space b.
Proof.
  intros Hb. unfold bad_byte, is_ascii_control, is_ascii_whitespace, control, rust_space.
  rewrite andb_true_iff, orb_true_iff, andb_true_iff, negb_true_iff, !orb_false_iff, !Z.leb_le, !Z.eqb_eq, !Z.eqb_neq. lia.
Qed.

Lemma filter_exists t :
  existsb is_ascii_control (filter (fun x => negb (is_ascii_whitespace x)) t) = existsb bad_byte t.
Proof.
  induction t as [|b t IH]; [reflexivity|]. cbn [filter existsb]. unfold bad_byte at 1. rewrite <- IH.
  destruct (is_ascii_whitespace b); cbn [negb existsb]; rewrite ?andb_false_r, ?andb_true_r; reflexivity.
Qed.

Lemma goodb_spec t : utf8 t -> goodb t = true <-> good_text t.
Proof.
  intros Hu. unfold goodb, good_text. rewrite andb_true_iff, !negb_true_iff, Z.eqb_neq.
  assert (E1 : zlen t <> 0 <-> t <> []).
  { split; intros H; [intros ->; apply H; reflexivity|intros X; apply H, zlen_0, X]. }
  rewrite E1. assert (E2 : existsb bad_byte t = false <-> forall b, In b t -> control b -> rust_space b).
  { rewrite <- not_true_iff_false, existsb_exists. split.
    - intros H b Hin Hc. assert (Hb : 0 <= b) by (apply (utf8_max _ _ Hu) in Hin; lia).
      destruct (bad_byte b) eqn:E; [exfalso; eauto|]. unfold rust_space.
      destruct (Z.eq_dec b 9), (Z.eq_dec b 10), (Z.eq_dec b 12), (Z.eq_dec b 13), (Z.eq_dec b 32); auto.
      exfalso. rewrite <- not_true_iff_false, bad_byte_spec in E by auto. apply E. unfold rust_space. intuition lia.
    - intros H (b & Hin & Hb). assert (Hb0 : 0 <= b) by (apply (utf8_max _ _ Hu) in Hin; lia).
      apply bad_byte_spec in Hb; auto. destruct Hb as [Hc Hs]. apply Hs. apply H; auto. }
  rewrite E2. tauto.
Qed.

(** Cutting at separators. *)
Lemma cut text : exists t0 ts, text = join t0 ts /\ ~ In 30 t0 /\ Forall (fun t => ~ In 30 t) ts.
Proof.
  induction text as [|b text (t0 & ts & -> & H0 & Hs)].
  - exists [], []. repeat split; auto; constructor.
  - destruct (Z.eq_dec b 30) as [->|Hb].
    + exists [], (t0 :: ts). split; [reflexivity|]. split; [auto|constructor; auto].
    + exists (b :: t0), ts. split; [reflexivity|]. split; [intros [?|?]; congruence|auto].
Qed.

Lemma utf8_join t0 ts : utf8 (join t0 ts) -> utf8 t0 /\ Forall utf8 ts.
Proof.
  revert t0. induction ts as [|t ts IH]; intros t0 H; unfold join in H; cbn [flat_map] in H.
  - rewrite app_nil_r in H. split; auto.
  - change ((30 :: t) ++ flat_map (fun a => 30 :: a) ts) with (30 :: (t ++ flat_map (fun a => 30 :: a) ts)) in H.
    apply utf8_split_ascii in H; [|lia]. destruct H as [H0 H1]. destruct (IH t H1). split; auto.
Qed.

Definition boundary (rest : bytes) : Prop := rest = [] \/ exists r, rest = 30 :: r.

Lemma parse_text pre t rest : utf8 (pre ++ t ++ rest) -> utf8 t -> ~ In 30 t -> boundary rest ->
  parse_separator_terminated_text (mkParser (pre ++ t ++ rest) (zlen pre)) =
  (if goodb t then Ok t else Err, mkParser (pre ++ t ++ rest) (zlen (pre ++ t))).
Proof.
  intros Hfull Ht Hn Hb. unfold parse_separator_terminated_text. cbn [full_text pos].
  destruct (Z.ltb_spec (zlen (pre ++ t ++ rest)) (zlen pre)) as [H|_].
  { rewrite zlen_app in H. pose proof (zlen_nonneg (t ++ rest)). lia. }
  rewrite zdrop_app.
  assert (Eend : match memchr SEPARATOR_BYTE (t ++ rest) with
                 | Some n => n + zlen pre | None => zlen (pre ++ t ++ rest) end = zlen (pre ++ t)).
  { unfold memchr. change SEPARATOR_BYTE with 30. rewrite memchr2_app by auto. destruct Hb as [->|(r & ->)].
    - cbn [memchr2]. rewrite app_nil_r. reflexivity.
    - rewrite memchr2_here by auto. rewrite zlen_app. lia. }
  cbv zeta. rewrite Eend.
  unfold parser_err, substring. cbn [full_text pos]. rewrite (utf8_valid_true _ Hfull).
  assert (Es : zslice (zlen pre) (zlen (pre ++ t)) (pre ++ t ++ rest) = t) by (rewrite zlen_app; apply zslice_mid).
  rewrite Es, (utf8_valid_true _ Ht), filter_exists.
  unfold goodb. rewrite zlen_app. destruct (Z.eqb_spec (zlen pre) (zlen pre + zlen t)) as [E|E].
  - destruct (Z.eqb_spec (zlen t) 0); [|lia]. cbn [negb andb]. rewrite e, Z.add_0_r. reflexivity.
  - destruct (Z.eqb_spec (zlen t) 0); [lia|]. cbn [negb andb]. destruct (existsb bad_byte t); reflexivity.
Qed.

Fixpoint take_good (l : list bytes) : list bytes :=
  match l with [] => [] | t :: l' => if goodb t then t :: take_good l' else [] end.

Definition seps (ts : list bytes) : bytes := flat_map (fun a => 30 :: a) ts.

Lemma parse_args_ok ts : forall pre (fuel : nat),
  utf8 (pre ++ seps ts) -> Forall utf8 ts -> Forall (fun t => ~ In 30 t) ts ->
  (length (seps ts) < fuel)%nat ->
  parse_args fuel (mkParser (pre ++ seps ts) (zlen pre)) =
  Ok (take_good ts).
Proof.
  induction ts as [|t ts IH]; intros pre fuel Hu Hts Hn Hf; (destruct fuel as [|fuel]; [cbn in Hf; lia|]).
  - cbn [parse_args take_good]. cbn [full_text pos seps flat_map]. rewrite app_nil_r, Z.eqb_refl. reflexivity.
  - inversion Hts as [|? ? Ht Hts']; subst. inversion Hn as [|? ? Hnt Hn']; subst. clear Hts Hn.
    cbn [parse_args take_good]. cbn [full_text pos]. change (seps (t :: ts)) with ((30 :: t) ++ seps ts) in *.
    destruct (Z.eqb_spec (zlen pre) (zlen (pre ++ (30 :: t) ++ seps ts))) as [E|_].
    { rewrite !zlen_app, zlen_cons in E. pose proof (zlen_nonneg t). pose proof (zlen_nonneg (seps ts)). lia. }
    unfold parse_arg. cbn [full_text pos]. cbn [app] in *. rewrite znth_mid. change (30 =? SEPARATOR_BYTE) with true. cbv iota.
    set (R := seps ts) in *.
    replace (pre ++ 30 :: t ++ R) with ((pre ++ [30]) ++ t ++ R) in * by (rewrite <- app_assoc; reflexivity).
    replace (zlen pre + 1) with (zlen (pre ++ [30])) by (rewrite zlen_app; reflexivity).
    rewrite parse_text; auto.
    2:{ unfold R. destruct ts; [left; reflexivity|right]. cbn [seps flat_map app]. eauto. }
    destruct (goodb t); [|reflexivity].
    rewrite app_assoc in *. unfold R in *. rewrite IH; auto.
    cbn [length] in Hf. rewrite app_length in Hf. lia.
Qed.

Lemma parse_join t0 ts : utf8 (join t0 ts) -> ~ In 30 t0 -> Forall (fun t => ~ In 30 t) ts ->
  parse_event_id (join t0 ts) = Ok (if goodb t0 then (t0, take_good ts) else (PARSE_ERROR, [])).
Proof.
  intros Hu H0 Hs. destruct (utf8_join _ _ Hu) as [Hu0 Hus]. unfold parse_event_id, parse_label. cbn [pos].
  change (0 =? 0) with true. cbv iota.
  pose proof (parse_text [] t0 (flat_map (fun a => 30 :: a) ts)) as P. cbn [app] in P. change (zlen (@nil Z)) with 0 in P.
  unfold join. fold (seps ts) in P |- *. rewrite P; auto.
  2:{ destruct ts; [left; reflexivity|right]. cbn [seps flat_map app]. eauto. }
  destruct (goodb t0); [|reflexivity]. rewrite parse_args_ok; auto. rewrite app_length. lia.
Qed.

Lemma good_no_sep t : goodb t = true -> ~ In 30 t.
Proof.
  intros H Hin. unfold goodb in H. apply andb_true_iff in H. destruct H as [_ H]. rewrite negb_true_iff in H.
  rewrite <- not_true_iff_false in H. apply H. apply existsb_exists. exists 30. split; auto.
Qed.

Lemma take_good_prefix ts : exists r, ts = take_good ts ++ r /\ Forall (fun t => goodb t = true) (take_good ts) /\
  (r = [] \/ exists t r', r = t :: r' /\ goodb t = false).
Proof.
  induction ts as [|t ts (r & E & HF & Hr)]; cbn [take_good].
  - exists []. auto.
  - destruct (goodb t) eqn:Eg.
    + exists r. split; [cbn [app]; f_equal; exact E|]. split; auto.
    + exists (t :: ts). split; [reflexivity|]. split; [constructor|]. right. eauto.
Qed.

Lemma join_app t0 a b : join t0 (a ++ b) = join t0 a ++ flat_map (fun a => 30 :: a) b.
Proof. unfold join. rewrite flat_map_app, app_assoc. reflexivity. Qed.
