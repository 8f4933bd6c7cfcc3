(** Proofs about sessions, part 2: the fast path of [to_string], termination, executions. *)
From Coq Require Import ZArith List Lia Bool.
From Verif Require Import M_Base F_Base M_Sink S_Sink F_Sink F_SinkSeq M_Conc S_Conc M_Utf8 S_Utf8 F_Utf8
  M_Raw F_Raw M_Header M_V8 M_Strings M_StrTable S_Strings F_Strings M_EventId M_Session S_Session F_Session.
Import ListNotations.
Open Scope Z_scope.

Lemma memchr_spec a l :
  match memchr a l with
  | Some n => 0 <= n < zlen l /\ znth n l = Some a /\ ~ In a (ztake n l)
  | None => ~ In a l
  end.
Proof. unfold memchr. pose proof (memchr2_spec a a l) as H. destruct (memchr2 a a l); intuition. Qed.

Lemma memchr_unique a l n : 0 <= n -> znth n l = Some a -> ~ In a (ztake n l) -> memchr a l = Some n.
Proof.
  intros Hn Hz Hni. pose proof (znth_Some_lt _ _ _ Hz) as Hlt.
  assert (E : l = ztake n l ++ zdrop n l) by (symmetry; apply ztake_zdrop).
  assert (Hl : zlen (ztake n l) = n) by (apply zlen_ztake; lia).
  unfold memchr. rewrite E, memchr2_app by auto.
  destruct (zdrop n l) as [|x r] eqn:Ed.
  - exfalso. rewrite app_nil_r in E. rewrite <- E in Hl. lia.
  - assert (x = a).
    { rewrite E in Hz. rewrite <- Hl in Hz at 1. rewrite znth_mid in Hz. congruence. }
    subst x. rewrite memchr2_here by auto. rewrite Hl. f_equal. lia.
Qed.

Lemma memchr2_memchr a b l n : memchr a l = Some n -> ~ In b (ztake n l) -> memchr2 a b l = Some n.
Proof.
  intros H Hb. pose proof (memchr_spec a l) as M. rewrite H in M. destruct M as (Hn & Hz & Ha).
  assert (E : l = ztake n l ++ zdrop n l) by (symmetry; apply ztake_zdrop).
  assert (Hl : zlen (ztake n l) = n) by (apply zlen_ztake; lia).
  rewrite E, memchr2_app by auto. destruct (zdrop n l) as [|x r] eqn:Ed.
  - exfalso. rewrite app_nil_r in E. rewrite <- E in Hl. lia.
  - assert (x = a).
    { rewrite E in Hz. rewrite <- Hl in Hz at 1. rewrite znth_mid in Hz. congruence. }
    subst x. rewrite memchr2_here by auto. rewrite Hl. f_equal. lia.
Qed.

Lemma ztake_bytes_ok n b : bytes_ok b -> bytes_ok (ztake n b).
Proof. intros H. rewrite <- (ztake_zdrop n b) in H. apply bytes_ok_app in H. tauto. Qed.
Lemma zdrop_bytes_ok n b : bytes_ok b -> bytes_ok (zdrop n b).
Proof. intros H. rewrite <- (ztake_zdrop n b) in H. apply bytes_ok_app in H. tauto. Qed.
Lemma utf8_bytes_ok s : utf8 s -> bytes_ok s.
Proof. intros H. apply Forall_forall. intros b Hb. apply (utf8_max _ _ H) in Hb. unfold byte_ok. lia. Qed.
Lemma enc_bytes_ok s : sstring_ok s -> bytes_ok (enc s).
Proof.
  destruct s as [s|cs]; cbn [sstring_ok enc]; intros H; apply bytes_ok_app; (split; [|repeat constructor; unfold byte_ok; lia]).
  - apply utf8_bytes_ok, H.
  - induction H as [|c cs Hc _ IH]; [constructor|]. cbn [map concat]. apply bytes_ok_app. split; [|exact IH].
    destruct c; cbn [enc_comp comp_ok] in *; [apply utf8_bytes_ok, Hc|]. constructor; [unfold byte_ok; lia|apply le_bytes_ok].
Qed.

(** The condition under which line 68 takes the fast path. *)
Definition hits_fast (tbl : string_table) (id : Z) : Prop :=
  exists pos, get_addr tbl id = Ok pos /\ znth pos (string_data tbl) = Some 254 /\
    memchr 255 (zdrop pos (string_data tbl)) = Some (pos + 9).

Lemma zdrop_cons_nth {A} n (l : list A) x : znth n l = Some x -> exists r, zdrop n l = x :: r.
Proof.
  intros H. pose proof (znth_Some_lt _ _ _ H) as Hl.
  assert (E : l = ztake n l ++ zdrop n l) by (symmetry; apply ztake_zdrop).
  assert (Hz : zlen (ztake n l) = n) by (apply zlen_ztake; lia).
  destruct (zdrop n l) as [|y r]; [rewrite app_nil_r in E; rewrite <- E in Hz; lia|].
  rewrite E in H. rewrite <- Hz in H at 1. rewrite znth_mid in H. inversion H; subst. eauto.
Qed.

Lemma zdrop_nth_add {A} n m (l : list A) : 0 <= n -> 0 <= m -> znth m (zdrop n l) = znth (n + m) l.
Proof.
  intros Hn Hm. destruct (Z.leb_spec n (zlen l)).
  - rewrite <- (ztake_zdrop n l) at 2. rewrite znth_app_r; rewrite zlen_ztake by lia; [|lia]. f_equal. lia.
  - rewrite zdrop_all by lia. transitivity (@None A); [|symmetry]; apply znth_None; [right; rewrite zlen_nil; lia|lia].
Qed.

Lemma slow_agrees tbl id pos f s :
  bytes_ok (string_data tbl) ->
  get_addr tbl id = Ok pos -> 0 <= pos -> In 255 (zdrop pos (string_data tbl)) ->
  ~ hits_fast tbl id ->
  write_to_string f tbl id = Ok s -> to_string (S f) tbl id = Ok s.
Proof.
  intros Hbo Hg Hp Hin Hnf Hw. cbn [to_string]. rewrite Hg. cbv zeta.
  destruct (Z.ltb_spec (zlen (string_data tbl)) pos) as [Hlt|Hle].
  { rewrite zdrop_all in Hin by lia. destruct Hin. }
  pose proof (memchr_spec 255 (zdrop pos (string_data tbl))) as M. change TERMINATOR with 255.
  destruct (memchr 255 (zdrop pos (string_data tbl))) as [tp|] eqn:Em; [|tauto].
  destruct M as (Htp & Hz & Hni).
  destruct (znth_lt_Some pos (string_data tbl)) as (fb & Hfb).
  { rewrite zlen_zdrop in Htp by lia. lia. }
  rewrite Hfb. change STRING_REF_TAG with 254. change STRING_REF_ENCODED_SIZE with 9.
  destruct ((fb =? 254) && (tp =? pos + 9)) eqn:Ef.
  { exfalso. apply Hnf. apply andb_true_iff in Ef. destruct Ef as [E1 E2].
    apply Z.eqb_eq in E1. apply Z.eqb_eq in E2. subst. exists pos. auto. }
  destruct (utf8_valid (ztake tp (zdrop pos (string_data tbl)))) eqn:Eu; [|exact Hw].
  apply utf8_valid_iff in Eu; [|apply ztake_bytes_ok, zdrop_bytes_ok, Hbo].
  assert (N : ~ In 254 (ztake tp (zdrop pos (string_data tbl)))).
  { intros X. apply (utf8_max _ _ Eu) in X. lia. }
  destruct f as [|f]; [discriminate Hw|]. cbn [write_to_string] in Hw. rewrite Hg in Hw.
  destruct f as [|f]; [discriminate Hw|]. cbn [write_loop] in Hw. rewrite Hfb in Hw.
  destruct (zdrop_cons_nth _ _ _ Hfb) as (r & Er).
  destruct (Z.eqb_spec fb TERMINATOR) as [E255|N255] in Hw.
  { change TERMINATOR with 255 in E255. subst fb. inversion Hw; subst s. rewrite Er in *.
    unfold memchr in Em. rewrite memchr2_here in Em by auto. inversion Em; subst. reflexivity. }
  change TERMINATOR with 255 in N255.
  assert (Htp0 : tp <> 0).
  { intros ->. rewrite Er in Hz. change (znth 0 (fb :: r)) with (Some fb) in Hz. congruence. }
  destruct (Z.eqb_spec fb STRING_REF_TAG) as [E254|N254] in Hw.
  { change STRING_REF_TAG with 254 in E254. exfalso. apply N. rewrite Er, E254. unfold ztake.
    replace (Z.to_nat tp) with (S (Z.to_nat (tp - 1))) by lia. left. reflexivity. }
  rewrite (memchr2_memchr 255 254 _ tp Em N) in Hw.
  apply bind_ok in Hw. destruct Hw as (rest & Hr & Hs).
  destruct f as [|f]; [discriminate Hr|]. cbn [write_loop] in Hr.
  rewrite <- zdrop_nth_add in Hr by lia. rewrite Hz in Hr. change (255 =? TERMINATOR) with true in Hr. cbv iota in Hr.
  inversion Hr; subst rest. rewrite app_nil_r in Hs. rewrite lossy_id in Hs by exact Eu. exact Hs.
Qed.

Lemma fast_result tbl id pos id' f :
  get_addr tbl id = Ok pos -> 0 <= pos -> hits_fast tbl id ->
  decode_string_ref_from_data (zdrop pos (string_data tbl)) = Ok id' ->
  to_string (S f) tbl id = to_string f tbl id'.
Proof.
  intros Hg Hp (pos' & Hg' & Hb & Hm) Hd. rewrite Hg in Hg'. inversion Hg'; subst pos'. cbn [to_string]. rewrite Hg. cbv zeta.
  pose proof (znth_Some_lt _ _ _ Hb). destruct (Z.ltb_spec (zlen (string_data tbl)) pos); [lia|].
  change TERMINATOR with 255. rewrite Hm, Hb. change (254 =? STRING_REF_TAG) with true.
  change STRING_REF_ENCODED_SIZE with 9. rewrite Z.eqb_refl. cbn [andb]. rewrite Hd. reflexivity.
Qed.

(** The converse direction of agreement. *)
Lemma slow_agrees_conv tbl id pos f s :
  bytes_ok (string_data tbl) ->
  get_addr tbl id = Ok pos -> 0 <= pos -> In 255 (zdrop pos (string_data tbl)) ->
  ~ hits_fast tbl id ->
  to_string f tbl id = Ok s -> exists g, write_to_string g tbl id = Ok s.
Proof.
  intros Hbo Hg Hp Hin Hnf Ht. destruct f as [|f]; [discriminate|]. cbn [to_string] in Ht. rewrite Hg in Ht. cbv zeta in Ht.
  destruct (Z.ltb_spec (zlen (string_data tbl)) pos) as [Hlt|Hle] in Ht; [discriminate|].
  pose proof (memchr_spec 255 (zdrop pos (string_data tbl))) as M. change TERMINATOR with 255 in Ht.
  destruct (memchr 255 (zdrop pos (string_data tbl))) as [tp|] eqn:Em; [|discriminate].
  destruct M as (Htp & Hz & Hni).
  destruct (znth pos (string_data tbl)) as [fb|] eqn:Hfb; [|discriminate].
  change STRING_REF_TAG with 254 in Ht. change STRING_REF_ENCODED_SIZE with 9 in Ht.
  destruct ((fb =? 254) && (tp =? pos + 9)) eqn:Ef.
  { exfalso. apply Hnf. apply andb_true_iff in Ef. destruct Ef as [E1 E2].
    apply Z.eqb_eq in E1. apply Z.eqb_eq in E2. subst. exists pos. auto. }
  destruct (utf8_valid (ztake tp (zdrop pos (string_data tbl)))) eqn:Eu; [|eauto].
  apply utf8_valid_iff in Eu; [|apply ztake_bytes_ok, zdrop_bytes_ok, Hbo]. inversion Ht; subst s. clear Ht.
  assert (N : ~ In 254 (ztake tp (zdrop pos (string_data tbl)))).
  { intros X. apply (utf8_max _ _ Eu) in X. lia. }
  exists 3%nat. cbn [write_to_string]. rewrite Hg.
  assert (Hloop : write_loop 2 tbl pos = Ok (ztake tp (zdrop pos (string_data tbl)))); [|exact Hloop].
  destruct (Z.eq_dec tp 0) as [->|Htp0].
  - rewrite zdrop_nth_add in Hz by lia. rewrite Z.add_0_r in Hz. cbn [write_loop]. rewrite Hz. reflexivity.
  - cbn [write_loop]. rewrite Hfb. destruct (zdrop_cons_nth _ _ _ Hfb) as (r & Er).
    assert (Hfbin : In fb (ztake tp (zdrop pos (string_data tbl)))).
    { rewrite Er. unfold ztake. replace (Z.to_nat tp) with (S (Z.to_nat (tp - 1))) by lia. left. reflexivity. }
    destruct (Z.eqb_spec fb TERMINATOR) as [->|_]; [contradiction|].
    destruct (Z.eqb_spec fb STRING_REF_TAG) as [->|_]; [contradiction|].
    rewrite (memchr2_memchr 255 254 _ tp Em N). rewrite <- zdrop_nth_add by lia. rewrite Hz.
    change (255 =? TERMINATOR) with true. cbn [bind]. rewrite app_nil_r, lossy_id by exact Eu. reflexivity.
Qed.

(** *** entries of a session *)
(** [fast_path_hit p e]: an entry with encoding [e] at address [p] is mistaken for a single reference. *)
Definition fast_path_hit (p : Z) (e : bytes) : Prop :=
  znth 0 e = Some 254 /\ znth (p + 9) e = Some 255 /\ ~ In 255 (ztake (p + 9) e).

Lemma enc_last s : exists b, enc s = b ++ [255].
Proof. destruct s; cbn; eauto. Qed.

Lemma hits_fast_entry tbl id pos s pre post :
  get_addr tbl id = Ok pos -> string_data tbl = pre ++ enc s ++ post -> pos = zlen pre ->
  hits_fast tbl id <-> fast_path_hit pos (enc s).
Proof.
  intros Hg E ->. pose proof (zlen_nonneg pre) as Hpre.
  assert (Et : zdrop (zlen pre) (string_data tbl) = enc s ++ post) by (rewrite E; apply zdrop_app).
  assert (E0 : znth (zlen pre) (string_data tbl) = znth 0 (enc s)).
  { rewrite E, znth_app_r, Z.sub_diag by lia. pose proof (enc_size_pos s). apply znth_app_l. rewrite enc_size. lia. }
  split.
  - intros (p & Hg' & Hb & Hm). rewrite Hg in Hg'. inversion Hg'; subst p. rewrite Et in Hm.
    pose proof (memchr_spec 255 (enc s ++ post)) as M. rewrite Hm in M. destruct M as (Hr & Hz & Hn).
    assert (Hl : zlen pre + 9 < zlen (enc s)).
    { destruct (Z.ltb_spec (zlen pre + 9) (zlen (enc s))); auto. exfalso. apply Hn.
      rewrite ztake_app_ge by lia. apply in_app_iff. left. destruct (enc_last s) as (b & ->). apply in_app_iff. right. left. reflexivity. }
    split; [congruence|]. split; [rewrite znth_app_l in Hz by lia; exact Hz|].
    rewrite ztake_app_le in Hn by lia. exact Hn.
  - intros (Hb & Hz & Hn). pose proof (znth_Some_lt _ _ _ Hz).
    exists (zlen pre). split; auto. split; [congruence|]. rewrite Et. apply memchr_unique; [lia| |].
    + rewrite znth_app_l by lia. exact Hz.
    + rewrite ztake_app_le by lia. exact Hn.
Qed.

Lemma fast_path_short p e : 0 <= p -> zlen e <= p + 9 -> ~ fast_path_hit p e.
Proof. intros Hp He (_ & H & _). apply znth_Some_lt in H. lia. Qed.

Lemma fast_path_plain p s : utf8 s -> ~ fast_path_hit p (enc (SStr s)).
Proof.
  intros Hs (H & _). unfold enc in H. destruct s as [|b s]; cbn in H; [discriminate|].
  inversion H; subst. assert (In 254 (254 :: s)) as X by (left; auto). apply (utf8_max _ _ Hs) in X. lia.
Qed.

Section SessionText.
Variables (en : endian) (md : bytes) (r0 : Z) (K : list (call * Z)) (L : list (op * Z)).
Hypothesis HS : session en md r0 K L.
Let tbl := session_table K L.

Lemma session_get_virtual v : v <= 100000001 ->
  get_addr tbl v = match resolved r0 K v with Some c => Ok (c - FIRST_REGULAR_STRING_ID) | None => Err end.
Proof.
  intros Hv. apply (get_addr_virtual tbl (resolved r0 K)); auto. exact (session_resolve en md r0 K L HS).
Qed.

Lemma session_data_ok : bytes_ok (string_data tbl).
Proof.
  unfold tbl, session_table. cbn [string_data]. rewrite (session_written en md r0 K L HS TStrData).
  destruct (session_effects en md r0 K L HS) as (L2 & He). apply effects_accepted in He.
  apply bytes_ok_app. split; [apply Forall_forall; intros b Hb; vm_compute in Hb; unfold byte_ok; lia|].
  apply bytes_ok_app. split; [apply enc_bytes_ok, HS|].
  clear -He. induction He as [|[k r] K' [Hk _] _ IH]; [constructor|]. cbn [map concat fst]. apply bytes_ok_app. split; [|exact IH].
  destruct k; try constructor. apply enc_bytes_ok, Hk.
Qed.

Lemma entry_to_string id c s text :
  (id = c \/ id <= 100000001 /\ resolved r0 K id = Some c) -> allocated md r0 K c s ->
  ~ fast_path_hit (c - 100000003) (enc s) ->
  (exists n, forall m, (n <= m)%nat -> write_to_string m tbl id = Ok text) ->
  exists n, forall m, (n <= m)%nat -> to_string m tbl id = Ok text.
Proof.
  intros Hid Ha Hf (n & Hn).
  destruct (session_alloc en md r0 K L HS c s Ha) as (Hok & Hu & pre & post & E & Hc & H8). fold tbl in E.
  change FIRST_REGULAR_STRING_ID with 100000003 in *.
  assert (Hg : get_addr tbl id = Ok (zlen pre)).
  { destruct Hid as [->|[Hv Hr]].
    - rewrite get_addr_regular by (change FIRST_REGULAR_STRING_ID with 100000003; lia).
      change FIRST_REGULAR_STRING_ID with 100000003. f_equal. lia.
    - rewrite session_get_virtual, Hr by auto. change FIRST_REGULAR_STRING_ID with 100000003. f_equal. lia. }
  exists (S n). intros [|m] Hm; [lia|]. apply (slow_agrees tbl id (zlen pre)); auto.
  - apply session_data_ok.
  - lia.
  - rewrite E, zdrop_app. destruct (enc_last s) as (b & ->). apply in_app_iff. left. apply in_app_iff. right. left. reflexivity.
  - rewrite (hits_fast_entry tbl id (zlen pre) s pre post) by auto. replace (zlen pre) with (c - 100000003) by lia. exact Hf.
  - apply Hn. lia.
Qed.

Lemma unknown_to_string id : get_addr tbl id = Err -> forall m, to_string (S m) tbl id = Ok unknown_text.
Proof. intros H m. cbn [to_string]. rewrite H. reflexivity. Qed.
End SessionText.

(** *** executions: the results a sequence of operations gets *)
Fixpoint execute (before ops : list op) : list (op * Z) :=
  match ops with
  | [] => []
  | o :: ops' => (o, op_result o (zlen (written (op_tag o) before))) :: execute (before ++ [o]) ops'
  end.

Lemma execute_fst b ops : map fst (execute b ops) = ops.
Proof. revert b. induction ops; intros b; cbn [execute map fst]; f_equal; auto. Qed.

Lemma execute_correct b ops l1 o r l2 : execute b ops = l1 ++ (o, r) :: l2 ->
  r = op_result o (zlen (written (op_tag o) (b ++ map fst l1))).
Proof.
  revert b l1. induction ops as [|o' ops IH]; intros b l1 H; cbn [execute] in H.
  - destruct l1; discriminate.
  - destruct l1 as [|x l1]; cbn [app] in H; inversion H; subst.
    + cbn [map]. rewrite app_nil_r. reflexivity.
    + rewrite (IH _ _ H2). cbn [map fst]. rewrite <- app_assoc. reflexivity.
Qed.

Lemma execute_seq ops : sequentially_correct (execute [] ops).
Proof. intros l1 o r l2 H. apply (execute_correct [] ops l1 o r l2 H). Qed.

(** *** cyclic mappings *)
Lemma cyclic_diverges tbl v pos cs' :
  get_addr tbl v = Ok pos -> 0 <= pos -> is_u64 v ->
  zdrop pos (string_data tbl) = (254 :: le_bytes 8 v) ++ cs' ->
  forall f, write_to_string f tbl v = Diverge.
Proof.
  intros Hg Hp Hv E. induction f as [f IH] using lt_wf_ind. destruct f as [|f]; [reflexivity|].
  cbn [write_to_string]. rewrite Hg. destruct f as [|f]; [reflexivity|]. cbn [write_loop].
  assert (Hz : znth pos (string_data tbl) = Some 254).
  { replace pos with (pos + 0) by lia. rewrite <- zdrop_nth_add by lia. rewrite E. reflexivity. }
  rewrite Hz. change (254 =? TERMINATOR) with false. change (254 =? STRING_REF_TAG) with true. cbv iota.
  rewrite E, decode_ref_app by exact Hv. cbn [bind]. rewrite IH by lia. reflexivity.
Qed.

(** *** allocations get increasing addresses *)
Lemma effects_app en K1 K2 L : effects en (K1 ++ K2) L ->
  exists L1 L2, L = L1 ++ L2 /\ effects en K1 L1 /\ effects en K2 L2.
Proof.
  revert L. induction K1 as [|[k r] K1 IH]; intros L H.
  - exists [], L. repeat split; auto. constructor.
  - cbn [app] in H. inversion H as [|? ? ? ? ? Hk Hop HR]; subst. destruct (IH _ HR) as (A & B & -> & HA & HB).
    exists ((o, r) :: A), B. split; [reflexivity|]. split; [constructor; auto|auto].
Qed.

Lemma alloc_increasing en md r0 K L K1 s r K2 s' r' K3 :
  session en md r0 K L -> K = K1 ++ (KAlloc s, r) :: K2 ++ (KAlloc s', r') :: K3 -> r0 < r /\ r < r'.
Proof.
  intros (Hmd & Hsc & H & o2 & r2 & L2 & HH & H2 & He & E) ->.
  apply effects_app in He. destruct He as (A & B & -> & HA & HB). inversion HB as [|k1 x1 p1 K4 B' Hk1 Hp1 HB']; subst.
  apply effects_app in HB'. destruct HB' as (C & D & -> & HC & HD). inversion HD as [|k3 x3 p3 K5 D' Hk3 Hp3 HD']; subst.
  cbn in Hp1, Hp3. inversion Hp1; subst p1. inversion Hp3; subst p3.
  set (pre := H ++ (init_alloc md, r0) :: (o2, r2) :: A).
  assert (R : r = zlen (written TStrData (map fst pre))).
  { apply (Hsc pre (alloc_op s) r (C ++ (alloc_op s', r') :: D')). unfold pre. rewrite <- app_assoc. reflexivity. }
  assert (R' : r' = zlen (written TStrData (map fst (pre ++ (alloc_op s, r) :: C)))).
  { apply (Hsc (pre ++ (alloc_op s, r) :: C) (alloc_op s') r' D'). unfold pre. rewrite <- !app_assoc. reflexivity. }
  assert (R0 : r0 = zlen (written TStrData (map fst H))).
  { apply (Hsc H (init_alloc md) r0 ((o2, r2) :: A ++ (alloc_op s, r) :: C ++ (alloc_op s', r') :: D')).
    reflexivity. }
  split.
  - rewrite R. unfold pre. rewrite map_app, written_app, zlen_app, <- R0. cbn [map fst written].
    change (tag_eqb (op_tag (init_alloc md)) TStrData) with true. cbv iota. rewrite zlen_app. unfold init_alloc at 1.
    rewrite alloc_op_data, enc_size. pose proof (enc_size_pos (SStr md)).
    match goal with |- context [_ + (_ + zlen ?y)] => pose proof (zlen_nonneg y) end. lia.
  - rewrite R'. rewrite map_app, written_app, zlen_app, <- R. cbn [map fst written].
    change (tag_eqb (op_tag (alloc_op s)) TStrData) with true. cbv iota. rewrite zlen_app.
    rewrite alloc_op_data, enc_size. pose proof (enc_size_pos s).
    match goal with |- context [_ + (_ + zlen ?y)] => pose proof (zlen_nonneg y) end. lia.
Qed.
