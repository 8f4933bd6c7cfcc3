(** C69: what opening a profile does, and says, for every file. *)
From Coq Require Import String ZArith List Lia Bool.
From Verif Require Import M_Base F_Base F_Raw M_Map S_Utf8 M_Utf8 M_Sink S_Sink F_Sink Prop_Sink M_Header Prop_Format M_Strings M_StrTable F_Strings F_Session M_V8 M_Session M_Path Prop_Path M_Crox M_Json M_Metadata
  S_Corrupt Prop_Corrupt M_Open S_Open.
Import ListNotations.
Open Scope Z_scope.

(** ** headers *)
Lemma four_spec m : zlen m = 4 -> debug_bytes m = four m.
Proof.
  destruct m as [|a [|b [|c [|e [|x m]]]]]; intros H; rewrite ?zlen_cons, ?zlen_nil in H; try discriminate H.
  - unfold debug_bytes, four. cbn [debug_items]. rewrite <- !app_assoc. reflexivity.
  - pose proof (zlen_nonneg m). lia.
Qed.

Lemma start_cases s : bytes_ok s -> zlen s < 8 \/ exists m v rest, s = m ++ le_bytes 4 v ++ rest /\ zlen m = 4 /\ 0 <= v < 2 ^ 32.
Proof.
  intros OK. destruct (Z_lt_ge_dec (zlen s) 8) as [|L]; [left; auto|right].
  exists (zslice 0 4 s), (le_val (zslice 4 8 s)), (zdrop 8 s). split; [|split].
  - rewrite app_assoc. apply header_split; auto. lia.
  - apply zslice_len; lia.
  - pose proof (le_val_range (zslice 4 8 s) (F_Raw.zslice_bytes_ok 4 8 s OK)) as R. rewrite zslice_len in R by lia. exact R.
Qed.
Lemma start_parts m v rest : zlen m = 4 -> 0 <= v < 2 ^ 32 -> let s := m ++ le_bytes 4 v ++ rest in
  (zlen s <? FILE_HEADER_SIZE) = false /\ zslice 0 4 s = m /\ le_val (zslice 4 8 s) = v /\ zdrop 8 s = rest.
Proof.
  intros Hm Hv. cbv zeta. rewrite app_assoc. fold (header m v). rewrite header_magic, header_version by auto.
  rewrite zdrop_app_eq by (rewrite zlen_header; auto). rewrite zlen_app, zlen_header by auto. pose proof (zlen_nonneg rest).
  destruct (Z.ltb_spec (8 + zlen rest) FILE_HEADER_SIZE); [unfold FILE_HEADER_SIZE in *; lia|]. auto.
Qed.

Lemma verify_good s magic file tag : zlen magic = 4 -> good_start magic s -> e_verify_file_header s magic file tag = EOk tt.
Proof.
  intros Hm (rest & ->). unfold e_verify_file_header. destruct (start_parts magic 9 rest Hm ltac:(lia)) as (-> & -> & -> & _).
  cbv zeta. rewrite beq_refl. reflexivity.
Qed.
Lemma bad_magic_read s magic problem : zlen magic = 4 -> bad_magic magic s problem ->
  forall file tag, e_read_file_header s magic file tag = EErr (about tag file problem) /\ e_verify_file_header s magic file tag = EErr (about tag file problem).
Proof.
  intros Hm H file tag. unfold e_read_file_header, e_verify_file_header. inversion H; subst.
  - unfold FILE_HEADER_SIZE. destruct (Z.ltb_spec (zlen s) 8); [|lia]. auto.
  - rename s0 into r. assert (zslice 0 4 (m ++ r) = m) as E by (apply zslice_app_first; lia). rewrite E. rewrite zlen_app.
    unfold FILE_HEADER_SIZE. destruct (Z.ltb_spec (zlen m + zlen r) 8); [lia|]. cbv zeta. rewrite (proj2 (beq_false m magic)) by auto.
    unfold magic_text. rewrite !four_spec by auto. auto.
Qed.
Lemma verify_bad s magic problem file tag : bad_start magic s problem -> zlen magic = 4 -> e_verify_file_header s magic file tag = EErr (about tag file problem).
Proof.
  intros H Hm. inversion H; subst.
  - apply bad_magic_read; auto.
  - unfold e_verify_file_header. destruct (start_parts magic v s0 Hm ltac:(auto)) as (-> & -> & -> & _). cbv zeta. rewrite beq_refl.
    unfold CURRENT_FILE_FORMAT_VERSION. destruct (Z.eqb_spec v 9); [lia|]. reflexivity.
Qed.
Lemma magic_dec s magic : bytes_ok s -> zlen magic = 4 -> (exists problem, bad_magic magic s problem) \/ exists v rest, s = magic ++ le_bytes 4 v ++ rest /\ 0 <= v < 2 ^ 32.
Proof.
  intros OK Hm. destruct (start_cases s OK) as [L|(m & v & rest & -> & E & V)].
  - left. eexists. apply bad_short. auto.
  - destruct (beq m magic) eqn:B.
    + apply beq_true in B. subst m. right. eauto.
    + apply beq_false in B. left. eexists. apply bad_four; auto. rewrite zlen_app, zlen_le_bytes. pose proof (zlen_nonneg rest). lia.
Qed.
Lemma start_dec s magic : bytes_ok s -> zlen magic = 4 -> good_start magic s \/ exists problem, bad_start magic s problem.
Proof.
  intros OK Hm. destruct (magic_dec s magic OK Hm) as [(p & H)|(v & rest & -> & V)].
  - right. exists p. constructor; auto.
  - destruct (Z.eq_dec v 9) as [->|N]; [left; exists rest; auto|right]. eexists. apply bad_start_version; auto.
Qed.

(** ** the index *)
Lemma entries_blocks rest ix : entries rest ix -> rest = concat (map entry_bytes ix) /\ Forall (fun e => is_u64 (fst e) /\ is_u64 (snd e)) ix.
Proof.
  induction 1 as [|id a rest ix Hi Ha H (E & F)]; [auto|]. split.
  - cbn. unfold entry_bytes at 1. cbn. rewrite <- app_assoc, <- E. reflexivity.
  - constructor; auto.
Qed.

Lemma entries_exist n : forall rest, bytes_ok rest -> zlen rest = 16 * Z.of_nat n -> exists ix, entries rest ix.
Proof.
  induction n as [|n IH]; intros rest OK L.
  - assert (rest = []) as -> by (apply zlen_0; lia). exists []. constructor.
  - assert (forall a b, 0 <= a -> b = a + 8 -> b <= zlen rest -> le_bytes 8 (le_val (zslice a b rest)) = zslice a b rest /\ 0 <= le_val (zslice a b rest) < 2 ^ 64) as K.
    { intros a b Ha -> Hb. pose proof (zslice_len a (a + 8) rest ltac:(lia) ltac:(lia)) as ZL.
      pose proof (le_bytes_val (zslice a (a + 8) rest) (zslice_bytes_ok a (a + 8) rest OK)) as E.
      replace (length (zslice a (a + 8) rest)) with 8%nat in E by (unfold zlen in ZL; lia).
      pose proof (le_val_range (zslice a (a + 8) rest) (zslice_bytes_ok a (a + 8) rest OK)) as R. rewrite ZL in R.
      replace (a + 8 - a) with 8 in R by lia. split; [exact E|exact R]. }
    destruct (K 0 8 ltac:(lia) ltac:(lia) ltac:(lia)) as (E1 & R1). destruct (K 8 16 ltac:(lia) ltac:(lia) ltac:(lia)) as (E2 & R2).
    destruct (IH (zdrop 16 rest)) as (ix & H).
    { rewrite <- (ztake_zdrop 16 rest) in OK. apply bytes_ok_app in OK. tauto. }
    { rewrite zlen_zdrop by lia. lia. }
    exists ((le_val (zslice 0 8 rest), le_val (zslice 8 16 rest)) :: ix).
    assert (rest = le_bytes 8 (le_val (zslice 0 8 rest)) ++ le_bytes 8 (le_val (zslice 8 16 rest)) ++ zdrop 16 rest) as E.
    { rewrite E1, E2. rewrite <- (zslice_split 8 16), <- (zslice_split 0 8) by lia. reflexivity. }
    rewrite E at 1. constructor; auto.
Qed.

Lemma table_new s rest ix file : good_start (str "MMSD") s -> entries rest ix ->
  e_string_table_new s (str "MMSI" ++ le_bytes 4 9 ++ rest) file = EOk (mkTable s ix).
Proof.
  intros G En. unfold e_string_table_new. rewrite verify_good by auto. cbn [ebind]. rewrite verify_good by (auto; exists rest; auto). cbn [ebind].
  destruct (entries_blocks rest ix En) as (-> & F).
  destruct (start_parts (str "MMSI") 9 (concat (map entry_bytes ix)) eq_refl ltac:(lia)) as (H1 & _ & _ & H4).
  assert (zlen (str "MMSI" ++ le_bytes 4 9 ++ concat (map entry_bytes ix)) - FILE_HEADER_SIZE = zlen ix * 16) as E.
  { rewrite !zlen_app, zlen_le_bytes. rewrite (concat_len 16) by (apply Forall_map, Forall_forall; intros; apply zlen_entry).
    rewrite zlen_map. change (zlen (str "MMSI")) with 4. unfold FILE_HEADER_SIZE. lia. }
  rewrite E. unfold INDEX_ENTRY_SIZE. rewrite Z.mod_mul by lia. change (0 =? 0) with true. cbv iota.
  unfold strip_file_header. destruct (Z.leb_spec FILE_HEADER_SIZE (zlen (str "MMSI" ++ le_bytes 4 9 ++ concat (map entry_bytes ix)))) as [|B];
    [|apply Z.ltb_lt in B; congruence].
  cbn [with_text ebind]. change FILE_HEADER_SIZE with 8. rewrite H4. rewrite chunks_blocks; [|lia|apply Forall_map, Forall_forall; intros; apply zlen_entry].
  rewrite collect_entries by exact F. reflexivity.
Qed.
Lemma table_size s rest file : good_start (str "MMSD") s -> zlen rest mod 16 <> 0 ->
  e_string_table_new s (str "MMSI" ++ le_bytes 4 9 ++ rest) file = EPanic.
Proof.
  intros G En. unfold e_string_table_new. rewrite verify_good by auto. cbn [ebind]. rewrite verify_good by (auto; exists rest; auto). cbn [ebind].
  assert (zlen (str "MMSI" ++ le_bytes 4 9 ++ rest) - FILE_HEADER_SIZE = zlen rest) as ->.
  { rewrite !zlen_app, zlen_le_bytes. change (zlen (str "MMSI")) with 4. unfold FILE_HEADER_SIZE. lia. }
  unfold INDEX_ENTRY_SIZE. destruct (Z.eqb_spec (zlen rest mod 16) 0); [lia|]. reflexivity.
Qed.

(** ** the file *)
Section File.
Variables (parse : bytes -> res metadata) (json_error : bytes -> bytes) (A8 : Type) (v8 : bytes -> bytes -> eres A8) (file : bytes).
Hypothesis parse_total : forall t, (exists m, parse t = Ok m) \/ parse t = Err.

Definition metadata_of (t : bytes) : option metadata := match parse t with Ok m => Some m | _ => None end.
Definition result_of_answer (a : answer A8 metadata) : eres (A8 + decoder) :=
  match a with
  | OpenedOld a => EOk (inl a)
  | Opened e s ix md => EOk (inr (mkDecoder e (mkTable s ix) md))
  | Error t => EErr t
  | Crashed => EPanic
  end.
Definition old_answer (data : bytes) (a : answer A8 metadata) : Prop :=
  match v8 data file, a with
  | EOk x, OpenedOld y => x = y
  | EErr t, Error t' => t = t'
  | EPanic, Crashed => True
  | _, _ => False
  end.
Notation opens_ := (opens A8 metadata metadata_of json_error old_answer file).
Notation opens_current_ := (opens_current A8 metadata metadata_of json_error file).
Notation opens_streams_ := (opens_streams A8 metadata metadata_of json_error file).
Notation opens_table_ := (opens_table A8 metadata metadata_of json_error file).
Definition lift (r : eres decoder) : eres (A8 + decoder) := edo d <- r; EOk (inr d).
Notation open fuel data := (e_from_paged_buffer parse json_error fuel A8 v8 data file).
Notation streams fuel e s i := (lift (e_from_separate_buffers parse json_error fuel s i e file)).
Notation current fuel body := (lift (e_decoder_new parse json_error fuel (str "MMPD" ++ le_bytes 4 9 ++ body) file)).

Definition table_result (fuel : nat) (e s : bytes) (ix : list (Z * Z)) : eres (A8 + decoder) :=
  lift (edo text <- with_text [] (to_string fuel (mkTable s ix) 100000001);
        edo md <- with_text (json_error text) (parse text);
        EOk (mkDecoder e (mkTable s ix) md)).

Lemma streams_table fuel e s rest ix : good_start (str "MMES") e -> good_start (str "MMSD") s -> entries rest ix ->
  streams fuel e s (str "MMSI" ++ le_bytes 4 9 ++ rest) = table_result fuel e s ix.
Proof.
  intros Ge Gs En. unfold e_from_separate_buffers. rewrite verify_good by auto. cbn [ebind]. rewrite (table_new s rest ix file Gs En). reflexivity.
Qed.

Lemma result_text fuel e s ix t : to_string fuel (mkTable s ix) 100000001 = Ok t ->
  table_result fuel e s ix = match metadata_of t with Some md => EOk (inr (mkDecoder e (mkTable s ix) md)) | None => EErr (json_error t) end.
Proof.
  intros E. unfold table_result, metadata_of. rewrite E. cbn [with_text ebind]. destruct (parse_total t) as [(m & ->)| ->]; reflexivity.
Qed.

Lemma entries_file s rest ix : bytes_ok s -> entries rest ix -> from_a_file (mkTable s ix).
Proof.
  intros OK En. split; [exact OK|]. apply entries_blocks in En. destruct En as (_ & F). eapply Forall_impl; [|exact F]. intros e (_ & H). cbn. destruct H; auto.
Qed.

Definition e_eventually (r : nat -> eres (A8 + decoder)) (a : answer A8 metadata) : Prop := exists n, forall m, (n <= m)%nat -> r m = result_of_answer a.
Lemma e_always r a : (forall m, r m = result_of_answer a) -> e_eventually r a.
Proof. intros H. exists O. auto. Qed.

Lemma table_sound e s ix a : from_a_file (mkTable s ix) -> opens_table_ e s ix a -> e_eventually (fun fuel => table_result fuel e s ix) a.
Proof.
  intros F H. pose proof (C68_to_string (mkTable s ix) 100000001 F) as (C & _). cbn [string_data index] in C. inversion H; subst.
  - apply C in H0. destruct H0 as (n & Hn). exists n. intros m Hm. unfold table_result. rewrite (Hn m Hm). reflexivity.
  - apply C in H0. destruct H0 as (n & Hn). exists n. intros m Hm. rewrite (result_text m e s ix t (Hn m Hm)), H1. reflexivity.
  - apply C in H0. destruct H0 as (n & Hn). exists n. intros m Hm. rewrite (result_text m e s ix t (Hn m Hm)), H1. reflexivity.
Qed.
Lemma table_complete e s ix fuel : from_a_file (mkTable s ix) ->
  table_result fuel e s ix = EDiverge \/ exists a, opens_table_ e s ix a /\ table_result fuel e s ix = result_of_answer a.
Proof.
  intros (F1 & F2). destruct (complete_ts (mkTable s ix) F1 F2 fuel 100000001) as [E|([t|] & Ho & E)].
  - left. unfold table_result. rewrite E. reflexivity.
  - right. rewrite (result_text fuel e s ix t E). destruct (metadata_of t) as [md|] eqn:M.
    + exists (Opened e s ix md). split; [|reflexivity]. eapply ot_ok; eauto.
    + exists (Error (json_error t)). split; [|reflexivity]. eapply ot_json; eauto.
  - right. exists Crashed. split; [apply ot_crash; exact Ho|]. unfold table_result. rewrite E. reflexivity.
Qed.

Lemma streams_sound e s i a : bytes_ok s -> opens_streams_ e s i a -> e_eventually (fun fuel => streams fuel e s i) a.
Proof.
  intros OK H. inversion H; subst.
  - apply e_always. intros m. unfold e_from_separate_buffers. rewrite (verify_bad _ _ _ _ _ H0 eq_refl). reflexivity.
  - apply e_always. intros m. unfold e_from_separate_buffers. rewrite verify_good by auto. cbn [ebind]. unfold e_string_table_new.
    rewrite (verify_bad _ _ _ _ _ H1 eq_refl). reflexivity.
  - apply e_always. intros m. unfold e_from_separate_buffers. rewrite verify_good by auto. cbn [ebind]. unfold e_string_table_new.
    rewrite verify_good by auto. cbn [ebind]. rewrite (verify_bad _ _ _ _ _ H2 eq_refl). reflexivity.
  - apply e_always. intros m. unfold e_from_separate_buffers. rewrite verify_good by auto. cbn [ebind]. rewrite table_size by auto. reflexivity.
  - destruct (table_sound e s ix a (entries_file _ _ _ OK H2) H3) as (n & Hn). exists n. intros m Hm. rewrite (streams_table m e s rest ix) by auto. auto.
Qed.
Lemma streams_complete fuel e s i : bytes_ok e -> bytes_ok s -> bytes_ok i ->
  streams fuel e s i = EDiverge \/ exists a, opens_streams_ e s i a /\ streams fuel e s i = result_of_answer a.
Proof.
  intros Oe Os Oi.
  assert (forall a, opens_streams_ e s i a -> (forall m, streams m e s i = streams fuel e s i) -> exists a, opens_streams_ e s i a /\ streams fuel e s i = result_of_answer a) as K.
  { intros a H Hc. exists a. split; auto. destruct (streams_sound e s i a Os H) as (n & Hn). rewrite <- (Hc n). apply Hn. lia. }
  destruct (start_dec e (str "MMES") Oe eq_refl) as [Ge|(p & Be)].
  2:{ right. eapply K; [eapply os_events; eauto|]. intros m. unfold e_from_separate_buffers. rewrite !(verify_bad _ _ _ _ _ Be eq_refl). reflexivity. }
  destruct (start_dec s (str "MMSD") Os eq_refl) as [Gs|(p & Bs)].
  2:{ right. eapply K; [eapply os_strings; eauto|]. intros m. unfold e_from_separate_buffers. rewrite !verify_good by auto. cbn [ebind]. unfold e_string_table_new.
      rewrite !(verify_bad _ _ _ _ _ Bs eq_refl). reflexivity. }
  destruct (start_dec i (str "MMSI") Oi eq_refl) as [(rest & Gi)|(p & Bi)].
  2:{ right. eapply K; [eapply os_index; eauto|]. intros m. unfold e_from_separate_buffers. rewrite !verify_good by auto. cbn [ebind]. unfold e_string_table_new.
      rewrite !verify_good by auto. cbn [ebind]. rewrite !(verify_bad _ _ _ _ _ Bi eq_refl). reflexivity. }
  subst i. destruct (Z.eq_dec (zlen rest mod 16) 0) as [E|N].
  2:{ right. eapply K; [eapply os_index_size; eauto|]. intros m. unfold e_from_separate_buffers. rewrite !verify_good by auto. cbn [ebind]. rewrite !table_size by auto. reflexivity. }
  destruct (entries_exist (Z.to_nat (zlen rest / 16)) rest) as (ix & En).
  { apply bytes_ok_app in Oi. destruct Oi as (_ & Oi). apply bytes_ok_app in Oi. tauto. }
  { pose proof (zlen_nonneg rest). pose proof (Z.div_pos (zlen rest) 16 ltac:(lia) ltac:(lia)). rewrite Z2Nat.id by lia.
    pose proof (Z.div_mod (zlen rest) 16 ltac:(lia)). lia. }
  rewrite (streams_table fuel e s rest ix) by auto.
  destruct (table_complete e s ix fuel (entries_file _ _ _ Os En)) as [->|(a & Ha & ->)]; [left; reflexivity|].
  right. exists a. split; [|reflexivity]. eapply os_table; eauto.
Qed.

Lemma current_split fuel body : current fuel body =
  lift (edo split <- with_text [] (split_streams body);
        edo sd <- ok_or (tget TStrData split) (str "Invalid file: No string data found");
        edo ix <- ok_or (tget TStrIndex split) (str "Invalid file: No string index data found");
        edo ev <- ok_or (tget TEvents split) (str "Invalid file: No event data found");
        e_from_separate_buffers parse json_error fuel sd ix ev file).
Proof.
  unfold e_decoder_new. rewrite verify_good; [|reflexivity|exists body; auto]. cbn [ebind].
  destruct (start_parts (str "MMPD") 9 body eq_refl ltac:(lia)) as (_ & _ & _ & E). change FILE_HEADER_SIZE with 8. rewrite E. reflexivity.
Qed.
Lemma split_paged body ps : bytes_ok body -> paged body ps -> split_streams body = Ok (streams_of (fun t => stream t ps)).
Proof. intros OK (W & E). apply (proj1 (C48_split_accepts body OK)). eauto. Qed.
Lemma split_torn body : bytes_ok body -> (forall ps, ~ paged body ps) -> split_streams body = Panic.
Proof. intros OK H. apply (proj2 (C48_split_accepts body OK)). intros (ps & W & E). apply (H ps). split; auto. Qed.
Lemma paged_dec body : bytes_ok body -> (exists ps, paged body ps) \/ forall ps, ~ paged body ps.
Proof.
  intros OK. destruct (C48_split_accepts body OK) as (C1 & C2). destruct (split_streams body) as [r| | |] eqn:E.
  - left. destruct (proj1 (C1 r) eq_refl) as (ps & W & Eb & _). exists ps. split; auto.
  - right. intros ps (W & Eb). assert (@Err (tmap (option bytes)) = Ok (streams_of (fun t => stream t ps))) by (apply C1; eauto). discriminate.
  - right. intros ps (W & Eb). apply C2; eauto.
  - right. intros ps (W & Eb). assert (@Diverge (tmap (option bytes)) = Ok (streams_of (fun t => stream t ps))) by (apply C1; eauto). discriminate.
Qed.
Lemma present_some b : b <> [] -> present b = Some b.
Proof. destruct b; [tauto|reflexivity]. Qed.
Lemma stream_ok t ps : bytes_ok (enc_pages ps) -> bytes_ok (stream t ps).
Proof.
  unfold enc_pages. induction ps as [|[t' b] ps IH]; cbn [map concat stream]; [auto|]. intros H. apply bytes_ok_app in H. destruct H as (H1 & H2).
  specialize (IH H2). unfold enc_page in H1. cbn [stream]. destruct (tag_eqb t' t).
  - apply bytes_ok_app. split; [|exact IH]. repeat (apply bytes_ok_app in H1; destruct H1 as (? & H1)). auto.
  - exact IH.
Qed.

Lemma current_sound body a : bytes_ok body -> opens_current_ body a -> e_eventually (fun fuel => current fuel body) a.
Proof.
  intros OK H. inversion H; subst.
  - apply e_always. intros m. rewrite current_split, split_torn by auto. reflexivity.
  - apply e_always. intros m. rewrite current_split, (split_paged body ps) by auto. unfold streams_of. cbn [with_text ebind tget tm_sd tm_si tm_ev]. rewrite H1. reflexivity.
  - apply e_always. intros m. rewrite current_split, (split_paged body ps) by auto. unfold streams_of. cbn [with_text ebind tget tm_sd tm_si tm_ev].
    rewrite (present_some _ H1), H2. reflexivity.
  - apply e_always. intros m. rewrite current_split, (split_paged body ps) by auto. unfold streams_of. cbn [with_text ebind tget tm_sd tm_si tm_ev].
    rewrite (present_some _ H1), (present_some _ H2), H3. reflexivity.
  - assert (bytes_ok (stream TStrData ps)) as Os by (apply stream_ok; destruct H0 as (_ & <-); auto).
    destruct (streams_sound _ _ _ _ Os H4) as (n & Hn). exists n. intros m Hm. rewrite current_split, (split_paged body ps) by auto.
    unfold streams_of. cbn [with_text ebind tget tm_sd tm_si tm_ev]. rewrite (present_some _ H1), (present_some _ H2), (present_some _ H3).
    exact (Hn m Hm).
Qed.
Lemma current_complete fuel body : bytes_ok body ->
  current fuel body = EDiverge \/ exists a, opens_current_ body a /\ current fuel body = result_of_answer a.
Proof.
  intros OK.
  assert (forall a, opens_current_ body a -> (forall m, current m body = current fuel body) -> exists a, opens_current_ body a /\ current fuel body = result_of_answer a) as K.
  { intros a H Hc. exists a. split; auto. destruct (current_sound body a OK H) as (n & Hn). rewrite <- (Hc n). apply Hn. lia. }
  destruct (paged_dec body OK) as [(ps & P)|N].
  2:{ right. eapply K; [apply oc_torn; auto|]. intros m. rewrite !current_split, !split_torn by auto. reflexivity. }
  assert (forall t, bytes_ok (stream t ps)) as Os by (intros t; apply stream_ok; destruct P as (_ & <-); auto).
  assert (forall b : bytes, b = [] \/ b <> []) as D by (intros [|]; [left; auto|right; discriminate]).
  destruct (D (stream TStrData ps)) as [E1|N1].
  { right. eapply K; [eapply oc_no_strings; eauto|]. intros m. rewrite !current_split, !(split_paged body ps) by auto. unfold streams_of. cbn [with_text ebind tget tm_sd tm_si tm_ev]. rewrite E1. reflexivity. }
  destruct (D (stream TStrIndex ps)) as [E2|N2].
  { right. eapply K; [eapply oc_no_index; eauto|]. intros m. rewrite !current_split, !(split_paged body ps) by auto. unfold streams_of. cbn [with_text ebind tget tm_sd tm_si tm_ev]. rewrite (present_some _ N1), E2. reflexivity. }
  destruct (D (stream TEvents ps)) as [E3|N3].
  { right. eapply K; [eapply oc_no_events; eauto|]. intros m. rewrite !current_split, !(split_paged body ps) by auto. unfold streams_of. cbn [with_text ebind tget tm_sd tm_si tm_ev]. rewrite (present_some _ N1), (present_some _ N2), E3. reflexivity. }
  assert (current fuel body = streams fuel (stream TEvents ps) (stream TStrData ps) (stream TStrIndex ps)) as E.
  { rewrite current_split, (split_paged body ps) by auto. unfold streams_of. cbn [with_text ebind tget tm_sd tm_si tm_ev].
    rewrite (present_some _ N1), (present_some _ N2), (present_some _ N3). reflexivity. }
  rewrite E. destruct (streams_complete fuel (stream TEvents ps) (stream TStrData ps) (stream TStrIndex ps)) as [->|(a & Ha & ->)]; auto.
  right. exists a. split; [|reflexivity]. eapply oc_streams; eauto.
Qed.

Lemma open_version fuel v rest : 0 <= v < 2 ^ 32 -> let data := str "MMPD" ++ le_bytes 4 v ++ rest in
  (v = 8 -> open fuel data = edo d <- v8 data file; EOk (inl d)) /\
  (v = 9 -> open fuel data = current fuel rest) /\
  (v <> 8 -> v <> 9 -> forall suite, suite = (if 9 <? v then str "this version of measureme. Try upgrading your tools" else str "this version of the measureme tool suite. Try upgrading the tool suite") ->
     open fuel data = EErr (str "File version " ++ decimal v ++ str " is too new for " ++ suite ++ str " to the latest version.")).
Proof.
  intros Hv data. unfold data, e_from_paged_buffer, e_read_file_header.
  destruct (start_parts (str "MMPD") v rest eq_refl Hv) as (-> & -> & -> & _). cbv zeta. rewrite beq_refl. cbn [ebind].
  unfold V8_FILE_FORMAT, V9_FILE_FORMAT, CURRENT_FILE_FORMAT_VERSION.
  split; [|split].
  - intros ->. change (8 =? 8) with true. reflexivity.
  - intros ->. change (9 =? 8) with false. change (9 =? 9) with true. reflexivity.
  - intros N8 N9 suite ->. destruct (Z.eqb_spec v 8); [lia|]. destruct (Z.eqb_spec v 9); [lia|].
    destruct (Z.ltb_spec 9 v); reflexivity.
Qed.

Lemma open_sound data a : bytes_ok data -> opens_ data a -> e_eventually (fun fuel => open fuel data) a.
Proof.
  intros OK H. inversion H; subst.
  - apply e_always. intros m. unfold e_from_paged_buffer. change FILE_MAGIC_TOP_LEVEL with (str "MMPD"). rewrite (proj1 (bad_magic_read data (str "MMPD") problem eq_refl H0 file (str "top-level"))). reflexivity.
  - apply e_always. intros m. rewrite (proj2 (proj2 (open_version m v rest H0)) H1 H2 _ eq_refl). reflexivity.
  - apply e_always. intros m. rewrite (proj1 (open_version m 8 rest ltac:(lia)) eq_refl). unfold old_answer in H0.
    destruct (v8 _ file), a; try tauto; subst; reflexivity.
  - assert (bytes_ok rest) as Or by (apply bytes_ok_app in OK; destruct OK as (_ & OK); apply bytes_ok_app in OK; tauto).
    destruct (current_sound rest a Or H0) as (n & Hn). exists n. intros m Hm. rewrite (proj1 (proj2 (open_version m 9 rest ltac:(lia))) eq_refl). apply Hn, Hm.
Qed.
Lemma open_complete fuel data : bytes_ok data -> open fuel data = EDiverge \/ exists a, opens_ data a /\ open fuel data = result_of_answer a.
Proof.
  intros OK. destruct (magic_dec data (str "MMPD") OK eq_refl) as [(p & B)|(v & rest & -> & V)].
  { right. exists (Error (about (str "top-level") file p)). split; [apply op_bad; auto|]. unfold e_from_paged_buffer. change FILE_MAGIC_TOP_LEVEL with (str "MMPD").
    rewrite (proj1 (bad_magic_read data (str "MMPD") p eq_refl B file (str "top-level"))). reflexivity. }
  destruct (open_version fuel v rest V) as (V8 & V9 & VO).
  destruct (Z.eq_dec v 8) as [->|N8].
  { rewrite (V8 eq_refl). destruct (v8 _ file) as [d|t| |] eqn:E; [right|right|right|left; reflexivity].
    - exists (OpenedOld d). split; [|reflexivity]. apply op_old. unfold old_answer. rewrite E. auto.
    - exists (Error t). split; [|reflexivity]. apply op_old. unfold old_answer. rewrite E. auto.
    - exists Crashed. split; [|reflexivity]. apply op_old. unfold old_answer. rewrite E. auto. }
  destruct (Z.eq_dec v 9) as [->|N9].
  { rewrite (V9 eq_refl). assert (bytes_ok rest) as Or by (apply bytes_ok_app in OK; destruct OK as (_ & OK); apply bytes_ok_app in OK; tauto).
    destruct (current_complete fuel rest Or) as [->|(a & Ha & ->)]; [left; reflexivity|]. right. exists a. split; [|reflexivity]. apply op_current; auto. }
  right. eexists (Error _). split; [eapply op_version; eauto|]. rewrite (VO N8 N9 _ eq_refl). reflexivity.
Qed.
End File.

Lemma e_eventually_complete A8 (r : nat -> eres (A8 + decoder)) (S : answer A8 metadata -> Prop) :
  (forall m, r m = EDiverge \/ exists a, S a /\ r m = result_of_answer A8 a) -> (forall a, S a -> e_eventually A8 r a) ->
  (forall a, S a <-> exists n, forall m, (n <= m)%nat -> r m = result_of_answer A8 a) /\
  (forall a a', S a -> S a' -> a = a') /\ ((forall a, ~ S a) <-> forall m, r m = EDiverge).
Proof.
  intros C So.
  assert (forall a a', result_of_answer A8 a = result_of_answer A8 a' -> a = a') as J.
  { intros [] []; cbn; intros E; try discriminate E; congruence. }
  assert (forall a, result_of_answer A8 a <> EDiverge) as ND by (intros []; discriminate).
  assert (forall a a', e_eventually A8 r a -> e_eventually A8 r a' -> a = a') as U.
  { intros a a' (n & Hn) (n' & Hn'). specialize (Hn (Nat.max n n') ltac:(lia)). specialize (Hn' (Nat.max n n') ltac:(lia)).
    apply J. congruence. }
  split; [|split].
  - intros a. split; [apply So|]. intros (n & Hn). destruct (C n) as [E|(a' & Ha & E)].
    + rewrite Hn in E by lia. destruct (ND _ E).
    + rewrite Hn in E by lia. apply J in E. subst. auto.
  - eauto.
  - split.
    + intros N m. destruct (C m) as [|(a & Ha & _)]; [auto|]. destruct (N _ Ha).
    + intros D a Ha. destruct (So _ Ha) as (n & Hn). specialize (Hn n ltac:(lia)). rewrite D in Hn. symmetry in Hn. destruct (ND _ Hn).
Qed.

(** The file exists: what opening it gives, for every contents. *)
Theorem C69_contents : forall parse json_error A8 v8 display fs stem data,
  (forall t, (exists m, parse t = Ok m) \/ parse t = Err) -> fs (reader_path stem) = Some data -> bytes_ok data ->
  let file := display (reader_path stem) in
  let spec := opens A8 metadata (metadata_of parse) json_error (old_answer A8 v8 file) file data in
  let run fuel := profiling_data_new parse json_error fuel A8 v8 display fs stem in
  (forall a, spec a <-> exists n, forall fuel, (n <= fuel)%nat -> run fuel = result_of_answer A8 a) /\
  (forall a a', spec a -> spec a' -> a = a') /\ ((forall a, ~ spec a) <-> forall fuel, run fuel = EDiverge).
Proof.
  intros parse json_error A8 v8 display fs stem data Hp Hf OK file spec run.
  assert (forall fuel, run fuel = e_from_paged_buffer parse json_error fuel A8 v8 data file) as E.
  { intros fuel. unfold run, profiling_data_new. cbv zeta. fold (reader_path stem). rewrite Hf. reflexivity. }
  apply (e_eventually_complete A8 run spec).
  - intros m. rewrite E. apply open_complete; auto.
  - intros a Ha. destruct (open_sound parse json_error A8 v8 file Hp data a OK Ha) as (n & Hn). exists n. intros m Hm. rewrite E. apply Hn, Hm.
Qed.
Print Assumptions C69_contents.

(** The reader of the metadata gives a value or an error, so the theorem applies to it. *)
Lemma parse_metadata_total t : (exists m, parse_metadata t = Ok m) \/ parse_metadata t = Err.
Proof.
  unfold parse_metadata. destruct (match from_str t with Some v => _ v | None => None end) as [l|]; auto.
  destruct (fields (str "start_time") _) as [|[] [|]]; auto. destruct (fields (str "process_id") _) as [|[] [|]]; auto.
  destruct (fields (str "cmd") _) as [|[] [|]]; auto. destruct (_ && _); [left; eauto|auto].
Qed.

(** There is no file: the error names the file that was looked for; if there are files of the format of
    measureme 0.7 and older instead, it says so. *)
Theorem C69_missing : forall parse json_error fuel A8 v8 display fs dir n,
  let file ext := in_dir dir (name_stem n ++ str "." ++ str ext) in
  fs (file "mm_profdata"%string) = None ->
  let text := str "Could not find profiling data file `" ++ display (file "mm_profdata"%string) ++ str "`." in
  let hint := str "It looks like your profiling data has been generated by an out-dated version of measureme (0.7 or older)." in
  let old := fs (file "events"%string) <> None \/ fs (file "string_data"%string) <> None \/ fs (file "string_index"%string) <> None in
  let run := profiling_data_new parse json_error fuel A8 v8 display fs (in_dir dir n) in
  (old -> run = EErr (text ++ hint)) /\ (~ old -> run = EErr text).
Proof.
  intros parse json_error fuel A8 v8 display fs dir n file Hn text hint old run.
  assert (forall ext, with_extension (in_dir dir n) (str ext) = file ext) as W by (intros ext; rewrite with_extension_in_dir; reflexivity).
  unfold run, profiling_data_new. change FILE_EXTENSION with (str "mm_profdata"). cbv zeta. rewrite !W, Hn. fold text hint.
  unfold old. destruct (fs (file "events"%string)), (fs (file "string_data"%string)), (fs (file "string_index"%string)); cbn [orb];
    (split; [intros H|intros H]); try reflexivity; exfalso;
    try (apply H; first [left; discriminate|right; left; discriminate|right; right; discriminate]); destruct H as [H|[H|H]]; congruence.
Qed.
Print Assumptions C69_missing.

(** Files of the versions before 8 are too old, but the error says that they are too new. *)
Theorem C69_old_version_refuted : forall parse json_error fuel A8 v8 display fs stem v rest, 0 <= v < 8 ->
  fs (reader_path stem) = Some (str "MMPD" ++ le_bytes 4 v ++ rest) ->
  profiling_data_new parse json_error fuel A8 v8 display fs stem =
  EErr (str "File version " ++ decimal v ++ str " is too new for this version of the measureme tool suite. Try upgrading the tool suite to the latest version.").
Proof.
  intros parse json_error fuel A8 v8 display fs stem v rest Hv Hf. unfold profiling_data_new. cbv zeta. fold (reader_path stem). rewrite Hf.
  rewrite (proj2 (proj2 (open_version parse json_error A8 v8 (display (reader_path stem)) fuel v rest ltac:(lia))) ltac:(lia) ltac:(lia) _ eq_refl).
  destruct (Z.ltb_spec 9 v); [lia|]. reflexivity.
Qed.
Print Assumptions C69_old_version_refuted.

(** The functions with texts and those without, about which the other properties speak, are the same. *)
Definition forget {A} (r : eres A) : res A :=
  match r with EOk a => Ok a | EErr _ => Err | EPanic => Panic | EDiverge => Diverge end.
Lemma forget_bind {A B} (r : eres A) (f : A -> eres B) : forget (ebind r f) = bind (forget r) (fun a => forget (f a)).
Proof. destruct r; reflexivity. Qed.
Lemma forget_with_text {A} t (r : res A) : forget (with_text t r) = r.
Proof. destruct r; reflexivity. Qed.
Lemma forget_ok_or {A} t (o : option A) : forget (ok_or o t) = ok_or_err o.
Proof. destruct o; reflexivity. Qed.
Lemma forget_verify bs magic file tag : forget (e_verify_file_header bs magic file tag) = verify_file_header bs magic.
Proof.
  unfold e_verify_file_header, verify_file_header. destruct (zlen bs <? FILE_HEADER_SIZE); [reflexivity|]. cbv zeta.
  destruct (beq _ magic); [|reflexivity]. destruct (_ =? CURRENT_FILE_FORMAT_VERSION); reflexivity.
Qed.
Lemma bind_ext {A B} (r : res A) (f g : A -> res B) : (forall a, f a = g a) -> bind r f = bind r g.
Proof. intros H. destruct r; cbn; auto. Qed.
Theorem C69_same : forall parse json_error fuel A8 v8 data file,
  forget (e_decoder_new parse json_error fuel data file) = decoder_new parse fuel data /\
  forget (e_from_paged_buffer parse json_error fuel A8 v8 data file) =
    from_paged_buffer (fun d => do a <- forget (v8 d file); Ok (inl a)) (fun d => do a <- decoder_new parse fuel d; Ok (inr a)) data.
Proof.
  intros parse json_error fuel A8 v8 data file.
  assert (forall d, forget (e_decoder_new parse json_error fuel d file) = decoder_new parse fuel d) as K.
  { intros d. unfold e_decoder_new, decoder_new. rewrite forget_bind, forget_verify. apply bind_ext; intros _.
    rewrite forget_bind, forget_with_text. apply bind_ext; intros split. rewrite forget_bind, forget_ok_or. apply bind_ext; intros sd.
    rewrite forget_bind, forget_ok_or. apply bind_ext; intros ix. rewrite forget_bind, forget_ok_or. apply bind_ext; intros ev.
    unfold e_from_separate_buffers, from_separate_buffers. rewrite forget_bind, forget_verify. apply bind_ext; intros _.
    rewrite forget_bind. assert (forget (e_string_table_new sd ix file) = string_table_new sd ix) as ->.
    { unfold e_string_table_new, string_table_new. rewrite forget_bind, forget_verify. apply bind_ext; intros _.
      rewrite forget_bind, forget_verify. apply bind_ext; intros _. destruct (_ =? 0); [|reflexivity].
      rewrite forget_bind, forget_with_text. apply bind_ext; intros st. rewrite forget_bind, forget_with_text. apply bind_ext; intros ix'. reflexivity. }
    apply bind_ext; intros tbl. rewrite forget_bind, forget_with_text. apply bind_ext; intros text. rewrite forget_bind, forget_with_text. apply bind_ext; intros md. reflexivity. }
  split; [apply K|].
  unfold e_from_paged_buffer, from_paged_buffer. rewrite forget_bind.
  assert (forget (e_read_file_header data FILE_MAGIC_TOP_LEVEL file (str "top-level")) = read_file_header data FILE_MAGIC_TOP_LEVEL) as ->.
  { unfold e_read_file_header, read_file_header. destruct (zlen data <? FILE_HEADER_SIZE); [reflexivity|]. cbv zeta. destruct (beq _ _); reflexivity. }
  apply bind_ext; intros v. destruct (v =? V8_FILE_FORMAT); [rewrite forget_bind; reflexivity|].
  destruct (v =? V9_FILE_FORMAT); [rewrite forget_bind, K; reflexivity|]. destruct (_ <? v); reflexivity.
Qed.
Print Assumptions C69_same.

(** ** Examples *)
Definition ex_md : bytes := str "{ ""start_time"": 1, ""process_id"": 2, ""cmd"": ""rustc"" }".
Definition ex_file (v : Z) (sd : bytes) : bytes :=
  str "MMPD" ++ le_bytes 4 v ++ enc_pages [(TEvents, str "MMES" ++ le_bytes 4 9); (TStrData, str "MMSD" ++ le_bytes 4 9 ++ sd); (TStrIndex, str "MMSI" ++ le_bytes 4 9 ++ le_bytes 8 100000001 ++ le_bytes 8 8)].
Definition ex_stem : path := in_dir [] (str "a").
Definition ex_fs (data : bytes) (p : path) : option bytes := match file_name p with Some n => if beq n (str "a.mm_profdata") then Some data else None | None => None end.
Definition ex_display (p : path) : bytes := match file_name p with Some n => n | None => [] end.
Definition ex_open (data : bytes) (fuel : nat) : eres (unit + decoder) :=
  profiling_data_new parse_metadata (fun _ => str "json") fuel unit (fun _ _ => EErr (str "old")) ex_display (ex_fs data) ex_stem.
Example ex_C69_opened : opens unit metadata (metadata_of parse_metadata) (fun _ => str "json") (old_answer unit (fun _ _ => EErr (str "old")) (str "a.mm_profdata")) (str "a.mm_profdata")
  (ex_file 9 (ex_md ++ [255])) (Opened (str "MMES" ++ le_bytes 4 9) (str "MMSD" ++ le_bytes 4 9 ++ ex_md ++ [255]) [(100000001, 8)] (mkMd 1 2 (str "rustc"))).
Proof.
  pose proof (C69_contents parse_metadata (fun _ => str "json") unit (fun _ _ => EErr (str "old")) ex_display (ex_fs (ex_file 9 (ex_md ++ [255]))) ex_stem (ex_file 9 (ex_md ++ [255]))
    parse_metadata_total eq_refl (bytes_check (ex_file 9 (ex_md ++ [255])) ltac:(vm_compute; reflexivity))) as (C & _). apply C.
  exists 2%nat. intros fuel Hf. destruct fuel as [|[|fuel]]; [lia|lia|]. vm_compute. reflexivity.
Qed.
Example ex_C69_errors :
  ex_open (str "MMPD") 9 = EErr (str "Error reading top-level stream in file `a.mm_profdata`: Expected file to contain at least `8` bytes but found `4` bytes") /\
  ex_open (str "ABCDEFGH") 9 = EErr (str "Error reading top-level stream in file `a.mm_profdata`: Expected file magic `[77, 77, 80, 68]` but found `[65, 66, 67, 68]`") /\
  ex_open (ex_file 10 []) 9 = EErr (str "File version 10 is too new for this version of measureme. Try upgrading your tools to the latest version.") /\
  ex_open (ex_file 5 []) 9 = EErr (str "File version 5 is too new for this version of the measureme tool suite. Try upgrading the tool suite to the latest version.") /\
  ex_open (ex_file 8 []) 9 = EErr (str "old") /\
  ex_open (ex_file 9 []) 9 = EPanic /\ ex_open (ex_file 9 [123; 255]) 9 = EErr (str "json") /\
  ex_open (str "MMPD" ++ le_bytes 4 9) 9 = EErr (str "Invalid file: No string data found") /\
  ex_open (str "MMPD" ++ le_bytes 4 9 ++ [0]) 9 = EPanic.
Proof. vm_compute. repeat split. Qed.
Example ex_C69_missing :
  profiling_data_new parse_metadata (fun _ => []) 9 unit (fun _ _ => EErr []) ex_display (fun p => if beq (ex_display p) (str "a.events") then Some [] else None) ex_stem =
  EErr (str "Could not find profiling data file `a.mm_profdata`.It looks like your profiling data has been generated by an out-dated version of measureme (0.7 or older).").
Proof. vm_compute. reflexivity. Qed.
