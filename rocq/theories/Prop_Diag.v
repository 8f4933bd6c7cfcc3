(** C77: the messages about event ids.  Model M_Diag.v, specification S_Diag.v. *)
From Coq Require Import String ZArith List Lia Bool.
From Verif Require Import M_Base F_Base M_Map M_Raw M_Header M_Utf8 S_Utf8 F_Utf8 M_Strings M_StrTable F_Strings F_Session F_Session2 M_EventId S_EventId F_EventId M_V8 M_Session M_Iter M_Run M_Sink M_Crox M_Open M_Diag S_Diag Prop_Needed M_Index Prop_Index.
From Verif Require Prop_Run Prop_Strings.
From Verif Require Import M_Conc.
Import ListNotations.
Open Scope Z_scope.

Fixpoint gripe (at_ : Z) (text : bytes) (l : list bytes) : bytes :=
  match l with
  | [] => []
  | t :: l' =>
      if zlen t =? 0 then message "Zero-length <text>" at_ text
      else if existsb bad_byte t then message "Found ASCII control character in <text>" (at_ + zlen t) text
      else gripe (at_ + zlen t + 1) text l'
  end.
Definition d_result (pre t rest : bytes) : eres bytes :=
  if zlen t =? 0 then d_err (mkParser (pre ++ t ++ rest) (zlen pre)) (str "Zero-length <text>")
  else if existsb bad_byte t then d_err (mkParser (pre ++ t ++ rest) (zlen pre + zlen t)) (str "Found ASCII control character in <text>")
  else EOk t.
Lemma d_text_ok pre t rest : utf8 (pre ++ t ++ rest) -> utf8 t -> ~ In 30 t -> boundary rest ->
  d_text (mkParser (pre ++ t ++ rest) (zlen pre)) = (d_result pre t rest, mkParser (pre ++ t ++ rest) (zlen (pre ++ t))).
Proof.
  intros Hfull Ht Hn Hb. unfold d_text. cbn [full_text pos].
  destruct (Z.ltb_spec (zlen (pre ++ t ++ rest)) (zlen pre)) as [H|_].
  { rewrite zlen_app in H. pose proof (zlen_nonneg (t ++ rest)). lia. }
  rewrite zdrop_app.
  assert (Eend : match memchr SEPARATOR_BYTE (t ++ rest) with
                 | Some n => n + zlen pre | None => zlen (pre ++ t ++ rest) end = zlen (pre ++ t)).
  { unfold memchr. change SEPARATOR_BYTE with 30. rewrite memchr2_app by auto. destruct Hb as [->|(r & ->)].
    - cbn [memchr2]. rewrite app_nil_r. reflexivity.
    - rewrite memchr2_here by auto. rewrite zlen_app. lia. }
  cbv zeta. rewrite Eend. unfold d_result, d_substring. cbn [full_text pos].
  assert (Es : zslice (zlen pre) (zlen (pre ++ t)) (pre ++ t ++ rest) = t) by (rewrite zlen_app; apply zslice_mid).
  rewrite Es, (utf8_valid_true _ Ht), filter_exists.
  rewrite zlen_app. destruct (Z.eqb_spec (zlen pre) (zlen pre + zlen t)) as [E|E].
  - destruct (Z.eqb_spec (zlen t) 0); [|lia]. rewrite e, Z.add_0_r. reflexivity.
  - destruct (Z.eqb_spec (zlen t) 0); [lia|]. destruct (existsb bad_byte t); reflexivity.
Qed.
Lemma d_err_ok {A} full at_ m : utf8 full -> @d_err A (mkParser full at_) (str m) = EErr (str "Could not parse `event_id`. " ++ str m ++ str " at " ++ decimal at_ ++ str " in """ ++ full ++ str """").
Proof. intros H. unfold d_err. cbn [full_text pos]. rewrite (utf8_valid_true _ H). reflexivity. Qed.
Lemma eprintln_message m at_ full : eprintln (str "Could not parse `event_id`. " ++ str m ++ str " at " ++ decimal at_ ++ str " in """ ++ full ++ str """") = message m at_ full.
Proof. unfold eprintln, message. rewrite <- !app_assoc. reflexivity. Qed.

Lemma d_args_ok ts : forall pre (fuel : nat),
  utf8 (pre ++ seps ts) -> Forall utf8 ts -> Forall (fun t => ~ In 30 t) ts ->
  (List.length (seps ts) < fuel)%nat ->
  d_args fuel (mkParser (pre ++ seps ts) (zlen pre)) = (Ok (take_good ts), gripe (zlen pre + 1) (pre ++ seps ts) ts).
Proof.
  induction ts as [|t ts IH]; intros pre fuel Hu Hts Hn Hf; (destruct fuel as [|fuel]; [cbn in Hf; lia|]).
  - cbn [d_args take_good gripe]. cbn [full_text pos seps flat_map]. rewrite app_nil_r, Z.eqb_refl. reflexivity.
  - inversion Hts as [|? ? Ht Hts']; subst. inversion Hn as [|? ? Hnt Hn']; subst. clear Hts Hn.
    cbn [d_args take_good gripe]. cbn [full_text pos]. change (seps (t :: ts)) with ((30 :: t) ++ seps ts) in *.
    destruct (Z.eqb_spec (zlen pre) (zlen (pre ++ (30 :: t) ++ seps ts))) as [E|_].
    { rewrite !zlen_app, zlen_cons in E. pose proof (zlen_nonneg t). pose proof (zlen_nonneg (seps ts)). lia. }
    unfold d_arg. cbn [full_text pos]. cbn [app] in *. rewrite znth_mid. change (30 =? SEPARATOR_BYTE) with true. cbv iota.
    set (R := seps ts) in *.
    replace (pre ++ 30 :: t ++ R) with ((pre ++ [30]) ++ t ++ R) in * by (rewrite <- app_assoc; reflexivity).
    replace (zlen pre + 1) with (zlen (pre ++ [30])) by (rewrite zlen_app; reflexivity).
    rewrite d_text_ok; auto.
    2:{ unfold R. destruct ts; [left; reflexivity|right]. cbn [seps flat_map app]. eauto. }
    unfold d_result, goodb. destruct (zlen t =? 0); cbn [negb andb]; [rewrite d_err_ok, eprintln_message by auto; reflexivity|].
    destruct (existsb bad_byte t); cbn [negb]; [rewrite d_err_ok, eprintln_message by auto; reflexivity|].
    rewrite app_assoc in *. unfold R in *. rewrite IH; auto.
    2:{ cbn [List.length] in Hf. rewrite app_length in Hf. lia. }
    unfold sbind, silent. cbn [fst snd]. rewrite app_nil_r. do 2 f_equal. rewrite !zlen_app. reflexivity.
Qed.
Lemma d_join t0 ts : utf8 (join t0 ts) -> ~ In 30 t0 -> Forall (fun t => ~ In 30 t) ts ->
  d_event_id (join t0 ts) = (Ok (if goodb t0 then (t0, take_good ts) else (PARSE_ERROR, [])), gripe 0 (join t0 ts) (t0 :: ts)).
Proof.
  intros Hu H0 Hs. destruct (utf8_join _ _ Hu) as [Hu0 Hus]. unfold d_event_id, d_label. cbn [pos].
  change (0 =? 0) with true. cbv iota.
  pose proof (d_text_ok [] t0 (flat_map (fun a => 30 :: a) ts)) as P. cbn [app] in P. change (zlen (@nil Z)) with 0 in P.
  unfold join in *. fold (seps ts) in P, Hu |- *. rewrite P; auto.
  2:{ destruct ts; [left; reflexivity|right]. cbn [seps flat_map app]. eauto. }
  unfold d_result, goodb. cbn [gripe app]. change (zlen (@nil Z)) with 0. destruct (zlen t0 =? 0); cbn [negb andb]; [rewrite d_err_ok, eprintln_message by auto; reflexivity|].
  destruct (existsb bad_byte t0); cbn [negb]; [rewrite d_err_ok, eprintln_message by auto; reflexivity|].
  rewrite d_args_ok; auto; [|rewrite app_length; lia]. unfold sbind, silent. cbn [fst snd]. rewrite app_nil_r. reflexivity.
Qed.

Lemma separated_join t0 ts : separated (t0 :: ts) = join t0 ts.
Proof. revert t0. induction ts as [|t ts IH]; intros t0; [unfold join; cbn; rewrite app_nil_r; reflexivity|]. change (separated (t0 :: t :: ts)) with (t0 ++ [30] ++ separated (t :: ts)). rewrite IH. reflexivity. Qed.
Lemma cut_inj a : forall b x y, ~ In 30 a -> ~ In 30 b -> a ++ 30 :: x = b ++ 30 :: y -> a = b /\ x = y.
Proof.
  induction a as [|c a IH]; intros [|d b] x y Ha Hb E; cbn [app] in E.
  - injection E as ->. auto.
  - injection E as <- _. exfalso. apply Hb. left. reflexivity.
  - injection E as -> _. exfalso. apply Ha. left. reflexivity.
  - injection E as <- E. destruct (IH b x y) as (-> & ->); auto; intros H; [apply Ha|apply Hb]; right; exact H.
Qed.
Lemma pieces_unique text : forall l l', pieces text l -> pieces text l' -> l = l'.
Proof.
  intros l l' (N & F & ->) (N' & F' & E). revert l' N' F' E. induction l as [|a l IH]; [contradiction|]. intros [|b l'] N' F' E; [contradiction|].
  inversion F as [|? ? Ha Fl]; subst. inversion F' as [|? ? Hb Fl']; subst. destruct l as [|a2 l], l' as [|b2 l'].
  - cbn in E. subst. reflexivity.
  - cbn [separated] in E. exfalso. apply Ha. rewrite E. apply in_or_app. right. left. reflexivity.
  - cbn [separated] in E. exfalso. apply Hb. rewrite <- E. apply in_or_app. right. left. reflexivity.
  - change (separated (a :: a2 :: l)) with (a ++ 30 :: separated (a2 :: l)) in E. change (separated (b :: b2 :: l')) with (b ++ 30 :: separated (b2 :: l')) in E. apply cut_inj in E; auto. destruct E as (-> & E). f_equal.
    apply IH; auto; discriminate.
Qed.
Lemma gripe_after before : forall at_ text l, Forall (fun t => goodb t = true) before -> gripe at_ text (before ++ l) = gripe (at_ + place before) text l.
Proof.
  induction before as [|t before IH]; intros at_ text l F; cbn [app place]; [f_equal; lia|]. inversion F as [|? ? G F']; subst. cbn [gripe].
  unfold goodb in G. destruct (zlen t =? 0); [discriminate|]. destruct (existsb bad_byte t); [discriminate|]. rewrite IH by auto. f_equal. lia.
Qed.
Lemma pieces_utf8 text l : utf8 text -> pieces text l -> Forall utf8 l.
Proof. intros U (N & _ & ->). destruct l as [|t0 ts]; [contradiction|]. rewrite separated_join in U. apply utf8_join in U. destruct U. constructor; auto. Qed.
Lemma good_goodb l : Forall utf8 l -> Forall good_text l -> Forall (fun t => goodb t = true) l.
Proof. intros U G. rewrite Forall_forall in *. intros t H. apply goodb_spec; auto. Qed.
Lemma goodb_good l : Forall utf8 l -> Forall (fun t => goodb t = true) l -> Forall good_text l.
Proof. intros U G. rewrite Forall_forall in *. intros t H. apply goodb_spec; auto. Qed.
Lemma complaint_gripe text l out : utf8 text -> pieces text l -> (complaint text out <-> out = gripe 0 text l).
Proof.
  intros U P. pose proof (pieces_utf8 _ _ U P) as UL. split.
  - intros [l' P' F|before after P' F|before t after b P' F I C S]; rewrite (pieces_unique _ _ _ P P') in *; clear P.
    + rewrite <- (app_nil_r l'). rewrite gripe_after by (apply good_goodb; auto). reflexivity.
    + apply Forall_app in UL. destruct UL as (UB & _). rewrite gripe_after by (apply good_goodb; auto). reflexivity.
    + apply Forall_app in UL. destruct UL as (UB & UT). rewrite gripe_after by (apply good_goodb; auto). cbn [gripe]. destruct (Z.eqb_spec (zlen t) 0) as [Z0|_]; [apply zlen_0 in Z0; subst; contradiction I|].
      replace (existsb bad_byte t) with true; [reflexivity|]. symmetry. apply existsb_exists. exists b. split; auto. inversion UT as [|? ? Ut _]; subst. pose proof (utf8_max _ _ Ut I). apply bad_byte_spec; [lia|auto].
  - intros ->. assert (K : forall rest before, l = before ++ rest -> Forall (fun t => goodb t = true) before -> complaint text (gripe (place before) text rest)).
    { induction rest as [|t rest IH]; intros before E F.
      - rewrite app_nil_r in E. subst before. eapply all_fine; [exact P|]. apply goodb_good; auto.
      - assert (UB : Forall utf8 before /\ utf8 t) by (rewrite E in UL; apply Forall_app in UL; destruct UL as (UB & UT); inversion UT; auto). destruct UB as (UB & Ut). cbn [gripe]. destruct (Z.eqb_spec (zlen t) 0) as [Z0|Z0].
        + apply zlen_0 in Z0. subst t. apply (empty_piece text before rest); [rewrite E in P; exact P|apply goodb_good; auto].
        + destruct (existsb bad_byte t) eqn:B.
          * apply existsb_exists in B. destruct B as (b & I & B). pose proof (utf8_max _ _ Ut I). apply bad_byte_spec in B; [|lia]. destruct B. apply (control_piece text before t rest b); auto; [rewrite E in P; exact P|apply goodb_good; auto].
          * replace (place before + zlen t + 1) with (place (before ++ [t])). { apply IH; [rewrite <- app_assoc; exact E|]. apply Forall_app. split; auto. constructor; [|constructor]. unfold goodb. rewrite B. destruct (Z.eqb_spec (zlen t) 0); [contradiction|reflexivity]. }
            clear. induction before as [|a before IH]; cbn [app place]; lia. }
    apply (K l []); [reflexivity|constructor].
Qed.

(** Parsing an event id returns what C20 and C21 say and prints exactly the complaint about its text. *)
Theorem C77_event_id : forall text, utf8 text ->
  fst (d_event_id text) = parse_event_id text /\ (forall out, snd (d_event_id text) = out <-> complaint text out).
Proof.
  intros text U. destruct (cut text) as (t0 & ts & E & H0 & Hs). assert (P : pieces text (t0 :: ts)) by (split; [discriminate|]; split; [constructor; auto|]; rewrite separated_join; exact E).
  split.
  - rewrite E in U |- *. rewrite d_join, parse_join by auto. reflexivity.
  - intros out. rewrite (complaint_gripe text _ out U P). rewrite E in U |- *. rewrite d_join by auto. cbn [snd]. split; auto.
Qed.
(** Nothing is printed exactly for the texts of the grammar (C21). *)
Theorem C77_quiet : forall text, utf8 text ->
  (complaint text [] <-> exists label args, good_text label /\ Forall good_text args /\ text = join label args).
Proof.
  intros text U. split.
  - intros C. inversion C as [l P F Q|before after P F Q|before t after b P F I C' S Q]. destruct P as (N & _ & ->). destruct l as [|t0 ts]; [contradiction|]. inversion F; subst. exists t0, ts. rewrite separated_join. auto.
  - intros (label & args & G & GS & ->). apply (all_fine _ (label :: args)); [|constructor; auto]. split; [discriminate|]. split; [|rewrite separated_join; reflexivity].
    assert (NS : forall t, good_text t -> ~ In 30 t). { intros t (_ & H) I. apply H in I; [unfold rust_space in I; lia|unfold control; lia]. }
    constructor; [auto|]. rewrite Forall_forall in *. auto.
Qed.

(** The text of the event id of the event at an index. *)
Definition id_text (fuel : nat) (en : endian) (d : decoder) (i : Z) : res bytes :=
  do e <- raw_at en d i; to_string fuel (stringtable d) (event_id e).
(** The same kind of failure. *)
Definition fails_like {A B} (r : res A) (r' : res B) : Prop :=
  match r, r' with Err, Err | Panic, Panic | Diverge, Diverge => True | _, _ => False end.

Lemma d_full_event_spec fuel en d i : bytes_ok (string_data (stringtable d)) ->
  fst (d_full_event fuel en d i) = decode_full_event fuel en d i /\
  (snd (d_full_event fuel en d i) = [] \/ exists t, id_text fuel en d i = Ok t /\ complaint t (snd (d_full_event fuel en d i))) /\
  (forall e, decode_full_event fuel en d i = Ok e -> exists t, id_text fuel en d i = Ok t /\ complaint t (snd (d_full_event fuel en d i))).
Proof.
  intros B. unfold d_full_event, decode_full_event, id_text, sbind, silent. cbn [fst snd]. destruct (raw_at en d i) as [e| | |]; cbn [bind fst snd app]; try (split; [reflexivity|]; split; [auto|discriminate]).
  destruct (payload_from_raw_event e _) as [p| | |]; cbn [bind fst snd app]; try (split; [reflexivity|]; split; [auto|discriminate]).
  destruct (to_string fuel (stringtable d) (event_id e)) as [id| | |] eqn:T; cbn [bind fst snd app]; try (split; [reflexivity|]; split; [auto|discriminate]).
  assert (U : utf8 id) by (eapply to_string_utf8; eauto). destruct (C77_event_id id U) as (F & S). pose proof (proj1 (S _) eq_refl) as C.
  destruct (d_event_id id) as (r, out). cbn [fst snd] in *. subst r. clear S. destruct (parse_event_id id) as [pd| | |]; cbn [bind fst snd app].
  2-4: split; [reflexivity|]; split; [right; exists id; auto|discriminate].
  destruct (to_string fuel (stringtable d) (event_kind e)) as [k| | |]; cbn [bind fst snd app].
  2-4: rewrite ?app_nil_r; split; [reflexivity|]; split; [right; exists id; auto|discriminate].
  rewrite !app_nil_r. split; [reflexivity|]. split; [right; exists id; auto|]. intros ev _. exists id. auto.
Qed.
Lemma light_full fuel en d i : match decode_lightweight_event en d i with Ok lw => lw_index lw = i | r => fails_like r (decode_full_event fuel en d i) end.
Proof.
  unfold decode_lightweight_event, decode_full_event. destruct (raw_at en d i) as [e| | |]; cbn [bind]; try exact I. destruct (payload_from_raw_event e _); cbn [bind]; try exact I. reflexivity.
Qed.
Lemma d_iter_inv fuel en d n : bytes_ok (string_data (stringtable d)) -> n < U64 -> forall calls i r out, 0 <= i <= n -> n < i + Z.of_nat calls -> d_iter_full calls fuel en d (mkIter i n) = (r, out) ->
  exists texts outs, Forall2 complaint texts outs /\ out = concat outs /\ (forall k t, nth_error texts k = Some t -> id_text fuel en d (i + Z.of_nat k) = Ok t) /\
    match r with
    | Ok es => length texts = length es /\ i + zlen es = n /\ forall k e, nth_error es k = Some e -> decode_full_event fuel en d (i + Z.of_nat k) = Ok e
    | _ => exists k, (length texts = k \/ length texts = S k) /\ i + Z.of_nat k < n /\ (forall j, (j < k)%nat -> exists e, decode_full_event fuel en d (i + Z.of_nat j) = Ok e) /\ fails_like r (decode_full_event fuel en d (i + Z.of_nat k))
    end.
Proof.
  intros B LN. induction calls as [|calls IH]; intros i r out Hi Hc E; [lia|]. cbn [d_iter_full] in E. unfold iter_next in E. cbn [forward_idx backward_idx] in E. destruct (i =? n) eqn:Q.
  - apply Z.eqb_eq in Q. unfold sbind, silent in E. cbn [fst snd app] in E. injection E as <- <-. exists [], []. split; [constructor|]. split; [reflexivity|]. split; [intros [|k] t H; discriminate H|]. split; [reflexivity|]. split; [rewrite zlen_nil; lia|]. intros [|k] e H; discriminate H.
  - apply Z.eqb_neq in Q. pose proof (light_full fuel en d i) as LF. destruct (decode_lightweight_event en d i) as [lw| | |]; cbn [bind] in E.
    2-4: unfold sbind, silent in E; cbn [fst snd app] in E; injection E as <- <-; exists [], []; split; [constructor|]; split; [reflexivity|]; split; [intros [|k] t H; discriminate H|];
      exists 0%nat; split; [left; reflexivity|]; split; [lia|]; split; [intros j Hj; lia|]; replace (i + Z.of_nat 0) with i by lia; exact LF.
    change 18446744073709551616 with U64 in E. replace (i + 1 <? U64) with true in E by (symmetry; apply Z.ltb_lt; lia). unfold sbind at 1, silent at 1 in E. cbn [fst snd app] in E. rewrite LF in E.
    destruct (d_full_event_spec fuel en d i B) as (F1 & F2 & F3). destruct (d_full_event fuel en d i) as (r1, o1). cbn [fst snd] in *.
    destruct r1 as [e| | |].
    2-4: unfold sbind in E; cbn [fst snd app] in E; injection E as <- <-.
    2-4: destruct F2 as [-> |(t & F2 & C)]; [exists [], []|exists [t], [o1]]; (split; [repeat constructor; auto|]); (split; [cbn; rewrite ?app_nil_r; reflexivity|]);
      (split; [intros [|k] t'; cbn; intros H; first [discriminate H| (injection H as <-; replace (i + Z.of_nat 0) with i by lia; exact F2)|(destruct k; discriminate H)]|]);
      exists 0%nat; (split; [auto|]); (split; [lia|]); (split; [intros j Hj; lia|]); replace (i + Z.of_nat 0) with i by lia; rewrite <- F1; exact I.
    destruct (F3 e (eq_sym F1)) as (t & T & C). unfold sbind at 1 in E. cbn [fst snd] in E. destruct (d_iter_full calls fuel en d (mkIter (i + 1) n)) as (r2, o2) eqn:D.
    destruct (IH (i + 1) r2 o2 ltac:(lia) ltac:(lia) D) as (texts & outs & I1 & I2 & I3 & I4).
    assert (SH : forall k, i + Z.of_nat (S k) = i + 1 + Z.of_nat k) by (intros; lia).
    exists (t :: texts), (o1 :: outs). split; [constructor; auto|].
    assert (O : out = o1 ++ o2) by (unfold sbind, silent in E; cbn [fst snd] in E; destruct r2; cbn [fst snd] in E; injection E as _ <-; rewrite ?app_nil_r; reflexivity).
    split; [rewrite O, I2; reflexivity|].
    split. { intros [|k] t' H; cbn [nth_error] in H; [injection H as <-; replace (i + Z.of_nat 0) with i by lia; exact T|]. rewrite SH. apply I3, H. }
    unfold sbind, silent in E. cbn [fst snd] in E. destruct r2 as [es| | |]; cbn [fst snd] in E; injection E as <- _.
    + destruct I4 as (I4 & I5 & I6). split; [cbn; congruence|]. split; [rewrite zlen_cons; lia|]. intros [|k] e' H; cbn [nth_error] in H; [injection H as <-; replace (i + Z.of_nat 0) with i by lia; auto|]. rewrite SH. apply I6, H.
    + destruct I4 as (k & K1 & K2 & K3 & K4). exists (S k). split; [cbn; lia|]. split; [lia|]. split; [|rewrite SH; exact K4]. intros [|j] Hj; [replace (i + Z.of_nat 0) with i by lia; eauto|]. rewrite SH. apply K3. lia.
    + destruct I4 as (k & K1 & K2 & K3 & K4). exists (S k). split; [cbn; lia|]. split; [lia|]. split; [|rewrite SH; exact K4]. intros [|j] Hj; [replace (i + Z.of_nat 0) with i by lia; eauto|]. rewrite SH. apply K3. lia.
    + destruct I4 as (k & K1 & K2 & K3 & K4). exists (S k). split; [cbn; lia|]. split; [lia|]. split; [|rewrite SH; exact K4]. intros [|j] Hj; [replace (i + Z.of_nat 0) with i by lia; eauto|]. rewrite SH. apply K3. lia.
Qed.
Lemma d_iter_same fuel en d : bytes_ok (string_data (stringtable d)) -> forall calls es it,
  (exists out, d_iter_full calls fuel en d it = (Ok es, out)) <->
  (do lws <- iter_collect (decode_lightweight_event en d) calls it; mapM (fun lw => decode_full_event fuel en d (lw_index lw)) lws) = Ok es.
Proof.
  intros B. induction calls as [|calls IH]; intros es it; cbn [d_iter_full iter_collect]; [split; [intros (o & H); discriminate H|discriminate]|].
  destruct (iter_next _ it) as [(o, it')| | |] eqn:N; unfold sbind, silent; cbn [fst snd bind app]; try (split; [intros (x & H); discriminate H|discriminate]).
  destruct o as [lw|]; cbn [fst snd bind mapM]; [|split; [intros (x & H); injection H as <- _; reflexivity|intros H; injection H as <-; eauto]].
  destruct (d_full_event_spec fuel en d (lw_index lw) B) as (F1 & _ & _). destruct (d_full_event fuel en d (lw_index lw)) as (r1, o1). cbn [fst snd] in *. subst r1.
  specialize (IH). split.
  - intros (out & E). destruct (decode_full_event fuel en d (lw_index lw)) as [e| | |] eqn:De; cbn [fst snd] in E; try discriminate.
    destruct (d_iter_full calls fuel en d it') as (r2, o2) eqn:D2. cbn [fst snd] in E. destruct r2 as [es2| | |]; cbn [fst snd] in E; try discriminate. injection E as <- _.
    assert (X : exists out, d_iter_full calls fuel en d it' = (Ok es2, out)) by eauto. apply IH in X. destruct (iter_collect _ calls it') as [lws| | |]; cbn [bind] in X |- *; try discriminate. cbn [mapM]. rewrite De. cbn [bind]. rewrite X. reflexivity.
  - intros E. destruct (iter_collect _ calls it') as [lws| | |] eqn:IC; cbn [bind mapM] in E; try discriminate. destruct (decode_full_event fuel en d (lw_index lw)) as [e| | |]; cbn [bind] in E; try discriminate.
    destruct (mapM _ lws) as [es2| | |] eqn:M; cbn [bind] in E; try discriminate. injection E as <-. specialize (IH es2 it'). rewrite IC in IH. cbn [bind] in IH. rewrite M in IH. destruct (proj2 IH eq_refl) as (o2 & X). rewrite X. cbn [fst snd]. eauto.
Qed.
Lemma decoder_built pm fuel data d : decoder_new pm fuel data = Ok d -> exists sd ix ev, from_separate_buffers pm fuel sd ix ev = Ok d.
Proof.
  intros H. unfold decoder_new in H. destruct (verify_file_header _ _); cbn [bind] in H; try discriminate. destruct (split_streams _) as [sp| | |] eqn:S; cbn [bind] in H; try discriminate.
  destruct (ok_or_err _); cbn [bind] in H; try discriminate. destruct (ok_or_err _); cbn [bind] in H; try discriminate. destruct (ok_or_err _); cbn [bind] in H; try discriminate. eauto.
Qed.
(** Reading all events of a file, whatever it contains: what is printed are the complaints about the event ids, one after the other, each once; if an event
    cannot be read, those about the events before it and possibly the one about its own event id. *)
Theorem C77_reading : forall pm fuel0 data d, bytes_ok data -> decoder_new pm fuel0 data = Ok d -> zlen (event_data d) < 2 ^ 63 ->
  forall fuel en n r out, num_events d = Ok n -> n < Z.of_nat fuel -> d_read fuel en d = (r, out) ->
  (forall es, r = Ok es <-> iter_full fuel en d = Ok es) /\
  exists texts outs, (forall i t, nth_error texts i = Some t -> id_text fuel en d (Z.of_nat i) = Ok t) /\ Forall2 complaint texts outs /\ out = concat outs /\
    match r with
    | Ok es => length texts = length es
    | _ => exists k, (length texts = k \/ length texts = S k) /\ Z.of_nat k < n /\ (forall j, (j < k)%nat -> exists e, decode_full_event fuel en d (Z.of_nat j) = Ok e) /\
             fails_like r (decode_full_event fuel en d (Z.of_nat k))
    end.
Proof.
  intros pm fuel0 data d B D L fuel en n r out N F R. pose proof (decoder_bytes _ _ _ _ B D) as BS.
  unfold d_read in R. rewrite N in R. unfold sbind, silent in R. cbn [fst snd app] in R.
  destruct (d_iter_full fuel fuel en d (iter_new n)) as (r1, o1) eqn:E. cbn [fst snd] in R. injection R as <- <-. 
  split.
  - intros es. unfold iter_full. rewrite N. cbn [bind]. rewrite <- (d_iter_same fuel en d BS fuel es (mkIter 0 n)). unfold iter_new in E. rewrite E. split; [intros ->; eauto|]. intros (o & H). congruence.
  - assert (NN : 0 <= n < U64).
    { destruct (decoder_built _ _ _ _ D) as (sd & ix & ev & DB). destruct (built_len _ _ _ _ _ _ DB) as (DE & L8). rewrite DE in L. unfold num_events in N. rewrite DE in N. change FILE_HEADER_SIZE with 8 in N. change RAW_EVENT_SIZE with 32 in N.
      destruct (_ =? 0); [|discriminate]. apply Ok_inj in N. subst n. unfold U64. change (2 ^ 63) with 9223372036854775808 in L. Z.to_euclidean_division_equations. lia. }
    apply (d_iter_inv fuel en d n BS ltac:(lia) fuel 0) in E; [|lia|lia]. destruct E as (texts & outs & E1 & E2 & E3 & E4). exists texts, outs. split; [exact E3|]. split; [exact E1|]. split; [exact E2|]. destruct r1; auto. apply E4.
Qed.
Print Assumptions C77_event_id.
Print Assumptions C77_quiet.
Print Assumptions C77_reading.

(** Concrete cases: event ids with an empty argument, with a control character, and a file with two events that have such an event id, of which the second has a kind that was
    never allocated. *)
Definition ex_odd : bytes :=
  file_of (disk (snd (run_ops [ODrop TEvents; ODrop TStrData; ODrop TStrIndex] (cmem (uc (urun LittleEndian
    ([UCall 1 (KAlloc (SStr [97; 27])); UTick 1] ++ repeat (UTick 1) 5 ++ [UCall 1 (KAlloc (SStr [98])); UTick 1] ++ repeat (UTick 1) 5 ++
     [UCall 1 (KInstant (16 + 100000003) (16 + 100000003) 1 5)] ++ repeat (UTick 1) 7 ++ [UCall 1 (KInstant (999 + 100000003) (16 + 100000003) 1 7)] ++
     repeat (UTick 1) 7) (mkU (Prop_Run.start_conf Prop_Strings.ex_md) []))))))).
Definition ex_md_ok (_ : bytes) : res metadata := Ok (mkMd 1000 1 []).
Example ex_C77 :
  snd (d_event_id [102; 30; 97; 30; 30; 98]) = str "Could not parse `event_id`. Zero-length <text> at 4 in """ ++ [102; 30; 97; 30; 30; 98] ++ str """" ++ [10] /\
  snd (d_event_id [102; 27]) = message "Found ASCII control character in <text>" 2 [102; 27] /\
  complaint [102; 27] (message "Found ASCII control character in <text>" 2 [102; 27]) /\
  exists d, decoder_new ex_md_ok 50 ex_odd = Ok d /\ num_events d = Ok 2 /\ d_read 50 BigEndian d = (Panic, let m := message "Found ASCII control character in <text>" 2 [97; 27] in m ++ m).
Proof.
  split; [vm_compute; reflexivity|]. split; [vm_compute; reflexivity|]. split.
  - apply (control_piece _ [] [102; 27] [] 27); [|constructor|right; left; reflexivity|unfold control; lia|unfold rust_space; lia]. split; [discriminate|]. split; [|reflexivity]. constructor; [|constructor]. intros [H|[H|[]]]; discriminate H.
  - eexists. split; [vm_compute; reflexivity|]. split; [vm_compute; reflexivity|]. vm_compute. reflexivity.
Qed.
