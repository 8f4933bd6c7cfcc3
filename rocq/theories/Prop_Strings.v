(** Properties C13-C18, C47: the string table.  Model: M_Strings.v (writing), M_StrTable.v (reading),
    M_Session.v (which calls write what).  Vocabulary: S_Strings.v ([denotes]: the text an id stands
    for), S_Session.v ([session], [allocated], [resolved]). *)
From Coq Require Import ZArith List Lia Bool.
From Verif Require Import M_Base F_Base M_Sink S_Sink F_Sink M_Conc S_Conc M_Utf8 S_Utf8 F_Utf8 M_Raw M_Header
  M_Strings M_StrTable S_Strings F_Strings M_EventId M_Session S_Session F_Session F_Session2.
Import ListNotations.
Open Scope Z_scope.

(** The table the reader builds from the streams of a session. *)
Definition read_table (L : list (op * Z)) : res string_table :=
  string_table_new (written TStrData (map fst L)) (written TStrIndex (map fst L)).

(** A concrete session used to show that the hypotheses below can be met: metadata, two plain
    strings, an event id composed of them, two virtual ids, one of them mapped twice. *)
Definition ex_md : bytes := [123; 34; 97; 34; 58; 49; 125].
Definition ex_A : Z := 16 + 100000003.
Definition ex_B : Z := 18 + 100000003.
Definition ex_K : list call :=
  [KAlloc (SStr [97]); KAlloc (SStr [195; 169]); KAlloc (label_and_args ex_A [ex_B; 7]); KMap 7 ex_A; KBulk [7; 8] ex_B;
   KInterval ex_A (21 + 100000003) 3 5 9; KMap 8 ex_A; KInstant 8 ex_A 3 10].
Definition run_session (md : bytes) (ks : list call) : list (op * Z) :=
  execute [] (init_headers ++ [init_alloc md; index_op METADATA_STRING_ID 8] ++
    flat_map (fun k => match call_op LittleEndian k with Ok o => [o] | _ => [] end) ks).
Definition with_results (md : bytes) (ks : list call) : list (call * Z) :=
  combine ks (map snd (skipn 8 (run_session md ks))).
Example ex_utf8 : utf8 [97] /\ utf8 [195; 169] /\ utf8 ex_md /\ utf8 [30].
Proof. repeat split; apply utf8_valid_iff; try reflexivity; repeat constructor; unfold byte_ok; lia. Qed.
Example ex_session : session LittleEndian ex_md 8 (with_results ex_md ex_K) (run_session ex_md ex_K).
Proof.
  split; [apply ex_utf8|]. split; [apply execute_seq|].
  exists (firstn 6 (run_session ex_md ex_K)), (index_op METADATA_STRING_ID 8), 8, (skipn 8 (run_session ex_md ex_K)).
  split; [reflexivity|]. split; [reflexivity|]. split; [|reflexivity].
  unfold ex_K. cbv [with_results]. 
  match goal with |- effects _ (combine _ ?r) ?l => let r' := eval vm_compute in r in change r with r' end.
  cbn [combine]. 
  match goal with |- effects _ ?K ?l => change l with (map (fun k => (match call_op LittleEndian (fst k) with Ok o => o | _ => ODrop TEvents end, snd k)) K) end.
  cbn [map fst snd]. repeat (apply ef_cons; [|reflexivity|]); [..|apply ef_nil].
  all: cbn [call_ok sstring_ok label_and_args push_args app]; unfold is_u64, is_u32, ex_A, ex_B.
  all: repeat match goal with
    | |- _ /\ _ => split
    | |- Forall _ _ => constructor
    | |- comp_ok _ => unfold comp_ok, is_u64
    | |- utf8 _ => apply ex_utf8
    | |- _ => lia
    end.
Qed.

(** ** C13 *)
(** The id space: user virtual ids are 0..100000000, then metadata, invalid, then allocated ids. *)
Theorem C13_new_virtual : forall id, is_u64 id ->
  (id <= 100000000 -> new_virtual id = Ok id) /\ (100000000 < id -> new_virtual id = Panic).
Proof.
  intros id _. unfold new_virtual. change MAX_USER_VIRTUAL_STRING_ID with 100000000.
  split; intros; destruct (Z.leb_spec id 100000000); auto; lia.
Qed.
Print Assumptions C13_new_virtual.

Theorem C13_addr_id_bijection :
  (forall addr id, 0 <= addr -> from_addr addr = Ok id ->
     is_u64 id /\ to_addr id = Ok addr /\ is_virtual id = false /\ id <> INVALID_STRING_ID) /\
  (forall id addr, is_u64 id -> to_addr id = Ok addr -> 0 <= addr /\ from_addr addr = Ok id) /\
  (forall id, is_u64 id -> to_addr id = Panic <-> is_virtual id = true \/ id = INVALID_STRING_ID) /\
  (forall id, id <= 100000000 -> new_virtual id = Ok id -> is_virtual id = true /\ id <> METADATA_STRING_ID).
Proof.
  unfold from_addr, to_addr, is_virtual, is_u64, new_virtual. change FIRST_REGULAR_STRING_ID with 100000003.
  change INVALID_STRING_ID with 100000002. change METADATA_STRING_ID with 100000001. split; [|split; [|split]].
  - intros addr id Ha H. destruct (Z.ltb_spec (addr + 100000003) 18446744073709551616); [|discriminate].
    inversion H; subst. split; [lia|]. destruct (Z.leb_spec 100000003 (addr + 100000003)); [|lia].
    split; [f_equal; lia|]. destruct (Z.leb_spec (addr + 100000003) 100000001); [lia|]. split; [auto|lia].
  - intros id addr Hid H. destruct (Z.leb_spec 100000003 id); [|discriminate]. inversion H; subst. split; [lia|].
    replace (id - 100000003 + 100000003) with id by lia. destruct (Z.ltb_spec id 18446744073709551616); [auto|lia].
  - intros id Hid. destruct (Z.leb_spec 100000003 id), (Z.leb_spec id 100000001); split; intros; try discriminate; auto; try lia.
  - intros id Hid _. destruct (Z.leb_spec id 100000001); [split; [auto|lia]|lia].
Qed.
Print Assumptions C13_addr_id_bijection.

(** Ids returned by allocation in a session: above everything virtual, and never the same id twice. *)
Theorem C13_alloc_ids : forall en md r0 K L, session en md r0 K L ->
  (forall s r id, In (KAlloc s, r) K -> alloc_result r = Ok id ->
     is_u64 id /\ is_virtual id = false /\ id <> INVALID_STRING_ID) /\
  (forall K1 s r K2 s' r' K3 id id',
     K = K1 ++ (KAlloc s, r) :: K2 ++ (KAlloc s', r') :: K3 ->
     alloc_result r = Ok id -> alloc_result r' = Ok id' -> id <> id').
Proof.
  intros en md r0 K L HS. split.
  - intros s r id Hin Hr. destruct (session_alloc en md r0 K L HS id s) as (_ & Hu & pre & post & _ & -> & H8).
    { right. eauto. }
    change FIRST_REGULAR_STRING_ID with 100000003 in *. split; auto. unfold is_virtual.
    change METADATA_STRING_ID with 100000001. change INVALID_STRING_ID with 100000002.
    destruct (Z.leb_spec (zlen pre + 100000003) 100000001); [lia|]. split; [auto|lia].
  - intros K1 s r K2 s' r' K3 id id' E Hr Hr'. destruct (alloc_increasing _ _ _ _ _ _ _ _ _ _ _ _ HS E) as [_ Hlt].
    unfold alloc_result, from_addr in *.
    destruct (r + FIRST_REGULAR_STRING_ID <? 18446744073709551616); [|discriminate].
    destruct (r' + FIRST_REGULAR_STRING_ID <? 18446744073709551616); [|discriminate].
    inversion Hr; inversion Hr'; subst. lia.
Qed.
Print Assumptions C13_alloc_ids.
Example ex_C13 : map snd (with_results ex_md ex_K) = [16; 18; 21; 24; 40; 8; 72; 40].
Proof. vm_compute. reflexivity. Qed.

(** ** C14 *)
(** The reader always accepts the string streams of a session, and every id expands to the text it
    denotes (recursion depth is not limited: for some fuel and every larger one). *)
Theorem C14_roundtrip : forall en md r0 K L, session en md r0 K L ->
  exists tbl, read_table L = Ok tbl /\
    forall id text, denotes (allocated md r0 K) (resolved r0 K) id text ->
      exists n, forall m, (n <= m)%nat -> write_to_string m tbl id = Ok text.
Proof.
  intros en md r0 K L HS. exists (session_table K L). split; [apply (session_table_new en md r0 K L HS)|].
  apply (session_expansion en md r0 K L HS).
Qed.
Print Assumptions C14_roundtrip.

(** C14, plain strings: the text allocated is the text read. *)
Theorem C14_plain : forall en md r0 K L s r id, session en md r0 K L ->
  In (KAlloc (SStr s), r) K -> alloc_result r = Ok id ->
  exists tbl, read_table L = Ok tbl /\ exists n, forall m, (n <= m)%nat -> write_to_string m tbl id = Ok s.
Proof.
  intros en md r0 K L s r id HS Hin Hr. destruct (C14_roundtrip _ _ _ _ _ HS) as (tbl & Ht & H).
  exists tbl. split; auto. apply H. apply d_str. right. eauto.
Qed.
Print Assumptions C14_plain.

(** The hypotheses are met, and the text is what one expects: "a\x1Eé\x1Eé" (virtual id 7 was mapped
    last to the second string). *)
Example ex_C14 : denotes (allocated ex_md 8 (with_results ex_md ex_K)) (resolved 8 (with_results ex_md ex_K))
    (21 + 100000003) [97; 30; 195; 169; 30; 195; 169]
  /\ (do tbl <- read_table (run_session ex_md ex_K); write_to_string 20 tbl (21 + 100000003)) = Ok [97; 30; 195; 169; 30; 195; 169].
Proof.
  split; [|vm_compute; reflexivity].
  assert (A : forall s r, In (KAlloc s, r) (with_results ex_md ex_K) -> alloc_result r = Ok (r + 100000003) ->
    allocated ex_md 8 (with_results ex_md ex_K) (r + 100000003) s) by (intros; right; eauto).
  apply d_comps with (cs := [CRef ex_A; CValue [30]; CRef ex_B; CValue [30]; CRef 7]).
  { apply (A (label_and_args ex_A [ex_B; 7]) 21); vm_compute; auto 10. }
  apply (da_ref _ _ ex_A _ [97] [30; 195; 169; 30; 195; 169]).
  { apply d_str. apply (A (SStr [97]) 16); vm_compute; auto 10. }
  apply (da_value _ _ [30] _ [195; 169; 30; 195; 169]). apply (da_ref _ _ ex_B _ [195; 169] [30; 195; 169]).
  { apply d_str. apply (A (SStr [195; 169]) 18); vm_compute; auto 10. }
  apply (da_value _ _ [30] _ [195; 169]). apply (da_ref _ _ 7 _ [195; 169] []); [|constructor].
  apply d_mapped with (c := ex_B); [lia|vm_compute; reflexivity|].
  apply d_str. apply (A (SStr [195; 169]) 18); vm_compute; auto 10.
Qed.

(** ** C15 *)
(** The two ways of expanding agree, in every table, for every id whose entry is terminated, except
    exactly when the entry begins with a reference and its first terminator byte is at distance
    address + 9 (line 68 compares a relative with an absolute position). *)
Theorem C15_agree : forall tbl id pos text,
  bytes_ok (string_data tbl) -> get_addr tbl id = Ok pos -> 0 <= pos -> In 255 (zdrop pos (string_data tbl)) ->
  ~ (znth pos (string_data tbl) = Some 254 /\
     znth (2 * pos + 9) (string_data tbl) = Some 255 /\
     ~ In 255 (zslice pos (2 * pos + 9) (string_data tbl))) ->
  (exists n, to_string n tbl id = Ok text) <-> (exists n, write_to_string n tbl id = Ok text).
Proof.
  intros tbl id pos text Hb Hg Hp Hin Hnf.
  assert (Hnf' : ~ hits_fast tbl id).
  { intros (p & Hg' & H1 & H2). rewrite Hg in Hg'. inversion Hg'; subst p. apply Hnf. split; auto.
    pose proof (memchr_spec 255 (zdrop pos (string_data tbl))) as M. rewrite H2 in M. destruct M as (Hr & Hz & Hn).
    split.
    - rewrite zdrop_nth_add in Hz by lia. replace (2 * pos + 9) with (pos + (pos + 9)) by lia. exact Hz.
    - unfold zslice. replace (2 * pos + 9 - pos) with (pos + 9) by lia. exact Hn. }
  split; intros (n & H).
  - eapply slow_agrees_conv; eauto.
  - exists (S n). eapply slow_agrees; eauto.
Qed.
Print Assumptions C15_agree.

(** In the exceptional case [to_string] returns the text of the first reference only. *)
Theorem C15_fast_path_drops_rest : forall tbl id pos first f,
  get_addr tbl id = Ok pos -> 0 <= pos ->
  znth pos (string_data tbl) = Some 254 -> memchr 255 (zdrop pos (string_data tbl)) = Some (pos + 9) ->
  is_u64 first -> zslice (pos + 1) (pos + 9) (string_data tbl) = le_bytes 8 first ->
  to_string (S f) tbl id = to_string f tbl first.
Proof.
  intros tbl id pos first f Hg Hp H1 H2 Hf Hs. apply (fast_result tbl id pos); auto; [exists pos; auto|].
  pose proof (memchr_spec 255 (zdrop pos (string_data tbl))) as M. rewrite H2 in M. destruct M as (Hr & _ & _).
  destruct (zdrop_cons_nth _ _ _ H1) as (r & Er). unfold decode_string_ref_from_data. rewrite Er.
  change (254 =? STRING_REF_TAG) with true. cbv iota. rewrite <- Er. destruct (Z.leb_spec 9 (zlen (zdrop pos (string_data tbl)))); [|lia].
  f_equal. replace (zslice 1 9 (zdrop pos (string_data tbl))) with (le_bytes 8 first).
  { apply le_val_bytes_small. exact Hf. }
  rewrite <- Hs. unfold zslice. rewrite zdrop_zdrop by lia. replace (1 + pos) with (pos + 1) by lia.
  f_equal. lia.
Qed.
Print Assumptions C15_fast_path_drops_rest.

(** In a session: an id whose entry does not hit the exceptional case reads back correctly through
    [to_string] as well; in particular every entry of at most (address + 9) bytes. *)
Theorem C15_session : forall en md r0 K L, session en md r0 K L ->
  exists tbl, read_table L = Ok tbl /\
    forall id c s text, denotes (allocated md r0 K) (resolved r0 K) id text ->
      (id = c \/ (id <= 100000001 /\ resolved r0 K id = Some c)) -> allocated md r0 K c s ->
      ~ fast_path_hit (c - 100000003) (enc s) ->
      exists n, forall m, (n <= m)%nat -> to_string m tbl id = Ok text.
Proof.
  intros en md r0 K L HS. exists (session_table K L). split; [apply (session_table_new en md r0 K L HS)|].
  intros id c s text Hd Hid Ha Hf. apply (entry_to_string en md r0 K L HS id c s text); auto.
  apply (session_expansion en md r0 K L HS). exact Hd.
Qed.
Print Assumptions C15_session.

Theorem C15_short_entries_safe : forall en md r0 K L c s, session en md r0 K L -> allocated md r0 K c s ->
  (zlen (enc s) <= c - 100000003 + 9 \/ exists t, s = SStr t) -> ~ fast_path_hit (c - 100000003) (enc s).
Proof.
  intros en md r0 K L c s HS Ha H. destruct (session_alloc en md r0 K L HS c s Ha) as (Hok & Hu & pre & post & E & Hc & H8).
  change FIRST_REGULAR_STRING_ID with 100000003 in *. destruct H as [H|(t & ->)].
  - apply fast_path_short; lia.
  - apply fast_path_plain. exact Hok.
Qed.
Print Assumptions C15_short_entries_safe.

(** C15 is false: a session using only the public API in which [to_string] loses the arguments of
    an event id.  The metadata is the text the profiler writes for the command line
    "rustc --crate-name main src/main.rs xxx" ; the event id has 23 arguments. *)
Definition bug_md : bytes := [123; 32; 34; 115; 116; 97; 114; 116; 95; 116; 105; 109; 101; 34; 58; 32; 49; 55; 48; 48; 48; 48; 48; 48; 48; 48; 49; 50; 51; 52; 53; 54; 55; 56; 57; 44; 32; 34; 112; 114; 111; 99; 101; 115; 115; 95; 105; 100; 34; 58; 32; 52; 50; 52; 50; 44; 32; 34; 99; 109; 100; 34; 58; 32; 34; 114; 117; 115; 116; 99; 32; 45; 45; 99; 114; 97; 116; 101; 45; 110; 97; 109; 101; 32; 109; 97; 105; 110; 32; 115; 114; 99; 47; 109; 97; 105; 110; 46; 114; 115; 32; 120; 120; 120; 32; 34; 44; 32; 34; 99; 111; 117; 110; 116; 101; 114; 34; 58; 32; 123; 32; 34; 110; 97; 109; 101; 34; 58; 32; 34; 119; 97; 108; 108; 45; 116; 105; 109; 101; 34; 44; 32; 34; 117; 110; 105; 116; 115; 34; 58; 32; 91; 91; 34; 110; 115; 34; 44; 32; 49; 93; 44; 32; 91; 34; 206; 188; 115; 34; 44; 32; 49; 48; 48; 48; 93; 44; 32; 91; 34; 109; 115; 34; 44; 32; 49; 48; 48; 48; 48; 48; 48; 93; 44; 32; 91; 34; 115; 34; 44; 32; 49; 48; 48; 48; 48; 48; 48; 48; 48; 48; 93; 93; 32; 125; 32; 125].
Definition bug_K : list call :=
  [KAlloc (SStr [97]); KAlloc (SStr [98]); KAlloc (label_and_args (226 + 100000003) (repeat (228 + 100000003) 23))].
Definition bug_id : Z := 230 + 100000003.
Example bug_session : session LittleEndian bug_md 8 (with_results bug_md bug_K) (run_session bug_md bug_K).
Proof.
  assert (U : utf8 bug_md /\ utf8 [97] /\ utf8 [98] /\ utf8 [30]).
  { repeat split; apply utf8_valid_iff; try reflexivity; repeat constructor; unfold byte_ok; lia. }
  split; [apply U|]. split; [apply execute_seq|].
  exists (firstn 6 (run_session bug_md bug_K)), (index_op METADATA_STRING_ID 8), 8, (skipn 8 (run_session bug_md bug_K)).
  split; [reflexivity|]. split; [reflexivity|]. split; [|reflexivity].
  unfold bug_K. cbv [with_results].
  match goal with |- effects _ (combine _ ?r) ?l => let r' := eval vm_compute in r in change r with r' end.
  cbn [combine].
  match goal with |- effects _ ?K ?l => change l with (map (fun k => (match call_op LittleEndian (fst k) with Ok o => o | _ => ODrop TEvents end, snd k)) K) end.
  cbn [map fst snd]. repeat (apply ef_cons; [|reflexivity|]); [..|apply ef_nil].
  all: cbn [call_ok sstring_ok label_and_args push_args app repeat]; unfold is_u64, is_u32.
  all: repeat match goal with
    | |- _ /\ _ => split
    | |- Forall _ _ => constructor
    | |- comp_ok _ => unfold comp_ok, is_u64
    | |- utf8 _ => apply U
    | |- _ => lia
    end.
Qed.
Theorem C15_to_string_refuted :
  exists en md r0 K L tbl id slow fast,
    session en md r0 K L /\ read_table L = Ok tbl /\
    (forall m, (100 <= m)%nat -> write_to_string m tbl id = Ok slow) /\
    (forall m, (100 <= m)%nat -> to_string m tbl id = Ok fast) /\
    slow = [97] ++ concat (repeat [30; 98] 23) /\ fast = [97].
Proof.
  destruct (read_table (run_session bug_md bug_K)) as [tbl| | |] eqn:E; try (vm_compute in E; discriminate).
  exists LittleEndian, bug_md, 8, (with_results bug_md bug_K), (run_session bug_md bug_K), tbl, bug_id,
    ([97] ++ concat (repeat [30; 98] 23)), [97].
  split; [exact bug_session|]. split; [exact E|].
  assert (tbl = match read_table (run_session bug_md bug_K) with Ok t => t | _ => mkTable [] [] end) as -> by (rewrite E; reflexivity).
  split; [|split; [|split; reflexivity]].
  - intros m Hm. apply (wts_mono _ 100); [lia|]. vm_compute. reflexivity.
  - intros m Hm. apply (ts_mono _ 100); [lia|]. vm_compute. reflexivity.
Qed.
Print Assumptions C15_to_string_refuted.

(** ** C16 *)
(** A virtual id is read exactly like the id it was last mapped to, whatever was written before or
    after the mapping; an unmapped virtual id and the invalid id read "<unknown>". *)
Theorem C16_last_mapping : forall en md r0 K L, session en md r0 K L ->
  exists tbl, read_table L = Ok tbl /\
    (forall ms1 v c ms2, mappings K = ms1 ++ (v, c) :: ms2 -> ~ In v (map fst ms2) ->
       forall m, write_to_string m tbl v = write_to_string m tbl c) /\
    (forall v, v <= 100000000 -> ~ In v (map fst (mappings K)) ->
       forall m, write_to_string (S m) tbl v = Ok unknown_text /\ to_string (S m) tbl v = Ok unknown_text) /\
    (forall m, write_to_string (S m) tbl INVALID_STRING_ID = Ok unknown_text /\
               to_string (S m) tbl INVALID_STRING_ID = Ok unknown_text).
Proof.
  intros en md r0 K L HS. exists (session_table K L). split; [apply (session_table_new en md r0 K L HS)|].
  split; [|split].
  - intros ms1 v c ms2 E Hn m.
    assert (Hl : last_mapping v (mappings K) None = Some c).
    { rewrite E. clear E. induction ms2 as [|[v' c'] ms2 IH] using rev_ind.
      - rewrite last_mapping_snoc. cbn [fst snd]. rewrite Z.eqb_refl. reflexivity.
      - rewrite map_app, in_app_iff in Hn. cbn [map fst In] in Hn.
        rewrite app_comm_cons, app_assoc, last_mapping_snoc. cbn [fst snd].
        destruct (Z.eqb_spec v' v); [tauto|]. apply IH. tauto. }
    pose proof (session_mappings en md r0 K L HS) as HM. rewrite Forall_forall in HM.
    pose proof (last_mapping_in _ _ _ Hl) as Hin. apply HM in Hin. cbn [fst snd] in Hin.
    destruct m as [|m]; [reflexivity|]. cbn [write_to_string].
    rewrite (session_get_virtual en md r0 K L HS) by lia. unfold resolved.
    destruct (Z.eqb_spec v 100000001); [lia|]. rewrite Hl.
    rewrite get_addr_regular by (change FIRST_REGULAR_STRING_ID with 100000003; lia). reflexivity.
  - intros v Hv Hn m.
    assert (Hg : get_addr (session_table K L) v = Err).
    { rewrite (session_get_virtual en md r0 K L HS) by lia. unfold resolved.
      destruct (Z.eqb_spec v 100000001); [lia|]. rewrite last_mapping_none by exact Hn. reflexivity. }
    split; [cbn [write_to_string]|cbn [to_string]]; rewrite Hg; reflexivity.
  - intros m. split; reflexivity.
Qed.
Print Assumptions C16_last_mapping.

(** Mapping [v] does not change how any other id is read. *)
Theorem C16_other_ids_unaffected : forall en md r0 K L K' L' k r v, session en md r0 K L ->
  session en md r0 K' L' -> K' = K ++ [(k, r)] -> (exists c, k = KMap v c) ->
  exists tbl tbl', read_table L = Ok tbl /\ read_table L' = Ok tbl' /\
    string_data tbl' = string_data tbl /\
    forall v', v' <> v -> get_addr tbl' v' = get_addr tbl v'.
Proof.
  intros en md r0 K L K' L' k r v HS HS' -> (c & ->).
  exists (session_table K L), (session_table (K ++ [(KMap v c, r)]) L').
  split; [apply (session_table_new en md r0 K L HS)|]. split; [apply (session_table_new en md r0 _ L' HS')|]. split.
  - cbn [session_table string_data]. rewrite (session_written _ _ _ _ _ HS TStrData), (session_written _ _ _ _ _ HS' TStrData).
    rewrite map_app, concat_app. cbn [map concat fst call_bytes]. rewrite !app_nil_r. reflexivity.
  - intros v' Hne. destruct (Z.leb_spec v' 100000001).
    + rewrite (session_get_virtual _ _ _ _ _ HS), (session_get_virtual _ _ _ _ _ HS') by auto. unfold resolved.
      destruct (v' =? 100000001); [reflexivity|]. unfold mappings. rewrite flat_map_app. cbn [flat_map fst call_mappings app].
      rewrite last_mapping_snoc. cbn [fst snd]. destruct (Z.eqb_spec v v'); [congruence|]. reflexivity.
    + unfold get_addr, is_virtual. change METADATA_STRING_ID with 100000001. destruct (Z.leb_spec v' 100000001); [lia|]. reflexivity.
Qed.
Print Assumptions C16_other_ids_unaffected.
Example ex_C16 : mappings (with_results ex_md ex_K) = [(7, ex_A); (7, ex_B); (8, ex_B); (8, ex_A)].
Proof. reflexivity. Qed.

(** ** C17 *)
(** A bulk mapping is accepted iff each of its parts is, and writes to the index exactly what the
    individual mappings write. *)
Theorem C17_bulk : forall vs c,
  (forall o, bulk_map_op vs c = Ok o ->
     op_tag o = TStrIndex /\
     exists os, Forall2 (fun v o' => map_virtual_op v c = Ok o') vs os /\
       op_data o = written TStrIndex os) /\
  (bulk_map_op vs c = Panic <-> to_addr c = Panic \/ exists v, In v vs /\ map_virtual_op v c = Panic) /\
  (bulk_map_op vs c = Panic \/ exists o, bulk_map_op vs c = Ok o).
Proof.
  intros vs c. unfold bulk_map_op, map_virtual_op. destruct (to_addr c) as [a| | |] eqn:Ea; cbn [bind].
  2:{ unfold to_addr in Ea. destruct (FIRST_REGULAR_STRING_ID <=? c); discriminate. }
  3:{ unfold to_addr in Ea. destruct (FIRST_REGULAR_STRING_ID <=? c); discriminate. }
  2:{ split; [discriminate|]. split; [tauto|auto]. }
  destruct (Forall_Exists_dec (fun v => v <= MAX_USER_VIRTUAL_STRING_ID)
    (fun v => Z_le_dec v MAX_USER_VIRTUAL_STRING_ID) vs) as [HF|HE].
  - rewrite bulk_bytes_ok by exact HF. cbn [bind]. split; [|split].
    + intros o E. inversion E; subst o. split; [reflexivity|]. exists (map (fun v => index_op v a) vs). split.
      * clear E. induction HF as [|v vs Hv _ IH]; constructor; auto. destruct (Z.leb_spec v MAX_USER_VIRTUAL_STRING_ID); [reflexivity|lia].
      * cbn [op_data]. clear. induction vs as [|v vs IH]; [reflexivity|]. cbn [map concat written].
        change (tag_eqb (op_tag (index_op v a)) TStrIndex) with true. cbv iota. rewrite index_op_data, IH. reflexivity.
    + split; [discriminate|]. intros [E|(v & Hin & E)]; [discriminate|]. rewrite Forall_forall in HF. apply HF in Hin.
      destruct (Z.leb_spec v MAX_USER_VIRTUAL_STRING_ID); [discriminate|lia].
    + eauto.
  - rewrite bulk_bytes_panic by (eapply Exists_impl; [|exact HE]; intros v Hv; cbn in Hv; lia). cbn [bind].
    split; [discriminate|]. split; [|auto]. split; [intros _; right|auto].
    apply Exists_exists in HE. destruct HE as (v & Hin & Hv). exists v. split; auto.
    destruct (Z.leb_spec v MAX_USER_VIRTUAL_STRING_ID); [lia|reflexivity].
Qed.
Print Assumptions C17_bulk.

(** At the level of sessions: replacing a bulk mapping by the individual mappings gives the same
    table. *)
Theorem C17_same_table : forall en md r0 K1 vs c r K2 L rs L',
  session en md r0 (K1 ++ (KBulk vs c, r) :: K2) L ->
  session en md r0 (K1 ++ combine (map (fun v => KMap v c) vs) rs ++ K2) L' -> length rs = length vs ->
  exists tbl, read_table L = Ok tbl /\ read_table L' = Ok tbl.
Proof.
  intros en md r0 K1 vs c r K2 L rs L' HS HS' Hlen. unfold read_table.
  assert (EM : mappings (combine (map (fun v => KMap v c) vs) rs) = map (fun v => (v, c)) vs).
  { clear -Hlen. revert rs Hlen. induction vs as [|v vs IH]; intros [|x rs] H; try discriminate; [reflexivity|].
    cbn [map combine]. unfold mappings in *. cbn [flat_map fst call_mappings app]. f_equal. apply IH. cbn in H. lia. }
  assert (ED : concat (map (fun k : call * Z => call_bytes TStrData (fst k)) (combine (map (fun v => KMap v c) vs) rs)) = []).
  { clear. revert rs. induction vs as [|v vs IH]; intros [|x rs]; try reflexivity. cbn [map combine concat fst]. apply IH. }
  exists (session_table (K1 ++ (KBulk vs c, r) :: K2) L). split; [apply (session_table_new _ _ _ _ _ HS)|].
  rewrite <- (session_table_new _ _ _ _ _ HS).
  rewrite !(session_written _ _ _ _ _ HS), !(session_written _ _ _ _ _ HS').
  f_equal.
  - rewrite !map_app, !concat_app. cbn [map concat fst]. rewrite ED. reflexivity.
  - assert (Em : mappings (K1 ++ combine (map (fun v => KMap v c) vs) rs ++ K2) = mappings (K1 ++ (KBulk vs c, r) :: K2)).
    { unfold mappings in *. rewrite !flat_map_app. cbn [flat_map fst call_mappings]. rewrite EM. reflexivity. }
    rewrite Em. reflexivity.
Qed.
Print Assumptions C17_same_table.
Example ex_C17 : exists o, bulk_map_op [1; 2; 100000000] ex_A = Ok o /\ zlen (op_data o) = 48.
Proof. eexists. split; [reflexivity|]. vm_compute. reflexivity. Qed.

(** ** C18 *)
(** Whatever the user allocates and maps, the metadata id reads back the metadata text (both ways of
    expanding), and mapping an id above the user range is rejected. *)
Theorem C18_metadata : forall en md r0 K L, session en md r0 K L ->
  exists tbl, read_table L = Ok tbl /\
    exists n, forall m, (n <= m)%nat ->
      metadata_string m tbl = Ok md /\ write_to_string m tbl METADATA_STRING_ID = Ok md.
Proof.
  intros en md r0 K L HS. exists (session_table K L). split; [apply (session_table_new en md r0 K L HS)|].
  assert (R : alloc_result r0 = Ok (r0 + 100000003)) by (rewrite (session_r0 _ _ _ _ _ HS); reflexivity).
  assert (A : allocated md r0 K (r0 + 100000003) (SStr md)) by (left; auto).
  assert (W : exists n, forall m, (n <= m)%nat -> write_to_string m (session_table K L) METADATA_STRING_ID = Ok md).
  { apply (session_expansion en md r0 K L HS). apply d_mapped with (c := r0 + 100000003).
    - unfold METADATA_STRING_ID, MAX_USER_VIRTUAL_STRING_ID; lia.
    - reflexivity.
    - apply d_str. exact A. }
  destruct (entry_to_string en md r0 K L HS METADATA_STRING_ID (r0 + 100000003) (SStr md) md) as (n1 & H1); auto.
  - right. split; [unfold METADATA_STRING_ID, MAX_USER_VIRTUAL_STRING_ID; lia|reflexivity].
  - apply fast_path_plain. apply HS.
  - destruct W as (n2 & H2). exists (Nat.max n1 n2). intros m Hm. split; [apply H1|apply H2]; lia.
Qed.
Print Assumptions C18_metadata.

Theorem C18_rejected : forall en v c vs1 vs2, 100000000 < v ->
  call_op en (KMap v c) = Panic /\ call_op en (KBulk (vs1 ++ v :: vs2) c) = Panic.
Proof.
  intros en v c vs1 vs2 Hv. assert (map_virtual_op v c = Panic) as E.
  { unfold map_virtual_op. change MAX_USER_VIRTUAL_STRING_ID with 100000000. destruct (Z.leb_spec v 100000000); [lia|reflexivity]. }
  split; [exact E|]. apply C17_bulk. right. exists v. split; [apply in_app_iff; right; left; auto|exact E].
Qed.
Print Assumptions C18_rejected.

(** ** C47 *)
(** Expansion terminates when every reference goes to a string allocated before, to the invalid id,
    or to a virtual id that is unmapped or mapped to a string allocated before the referring one
    (ids of allocated strings grow with time, C13). *)
Theorem C47_terminates : forall en md r0 K L, session en md r0 K L ->
  (forall id cs ref, allocated md r0 K id (SComps cs) -> In (CRef ref) cs ->
     ref = INVALID_STRING_ID \/
     (exists s, allocated md r0 K ref s /\ ref < id) \/
     (ref <= METADATA_STRING_ID /\
      (resolved r0 K ref = None \/
       exists c s, resolved r0 K ref = Some c /\ allocated md r0 K c s /\ c < id))) ->
  exists tbl, read_table L = Ok tbl /\
    forall id s, allocated md r0 K id s ->
      exists text n, denotes (allocated md r0 K) (resolved r0 K) id text /\
        forall m, (n <= m)%nat -> write_to_string m tbl id = Ok text.
Proof.
  intros en md r0 K L HS HO. exists (session_table K L). split; [apply (session_table_new en md r0 K L HS)|].
  assert (D : forall k : nat, forall id s, Z.to_nat id = k -> allocated md r0 K id s ->
    exists text, denotes (allocated md r0 K) (resolved r0 K) id text).
  { induction k as [k IH] using lt_wf_ind. intros id s Hk Ha.
    assert (Hpos : forall i x, allocated md r0 K i x -> 0 <= i).
    { intros i x Hx. destruct (session_alloc en md r0 K L HS i x Hx) as (_ & Hu & _). apply Hu. }
    destruct s as [t|cs]; [exists t; apply d_str; auto|].
    assert (exists text, denotes_all (allocated md r0 K) (resolved r0 K) cs text) as (text & Ht).
    { specialize (HO id cs). assert (HO' : forall ref, In (CRef ref) cs -> exists text, denotes (allocated md r0 K) (resolved r0 K) ref text).
      { intros ref Hin. destruct (HO ref Ha Hin) as [->|[(x & Hx & Hlt)|(Hv & [Hn|(c & x & Hr & Hx & Hlt)])]].
        - exists unknown_text. apply d_invalid.
        - apply (IH (Z.to_nat ref)) with (s := x); auto. pose proof (Hpos _ _ Hx). pose proof (Hpos _ _ Ha). lia.
        - exists unknown_text. apply d_unmapped; auto.
        - destruct (IH (Z.to_nat c)) with (id := c) (s := x) as (text & Ht); auto.
          { pose proof (Hpos _ _ Hx). pose proof (Hpos _ _ Ha). lia. }
          exists text. eapply d_mapped; eauto. }
      clear HO Ha. induction cs as [|[v|ref] cs IHc].
      - eexists. constructor.
      - destruct IHc as (t & Ht). { intros r Hr. apply HO'. right. auto. } eexists. constructor. eauto.
      - destruct IHc as (t & Ht). { intros r Hr. apply HO'. right. auto. }
        destruct (HO' ref) as (t1 & Ht1); [left; auto|]. eexists. econstructor; eauto. }
    exists text. eapply d_comps; eauto. }
  intros id s Ha. destruct (D _ id s eq_refl Ha) as (text & Ht).
  destruct (session_expansion en md r0 K L HS id text Ht) as (n & Hn). eauto.
Qed.
Print Assumptions C47_terminates.

(** It does not terminate when a string begins with a virtual id that is mapped to that string. *)
Theorem C47_cycle_refuted : forall en md r0 K L v c cs, session en md r0 K L ->
  0 <= v <= 100000000 -> resolved r0 K v = Some c -> allocated md r0 K c (SComps (CRef v :: cs)) ->
  exists tbl, read_table L = Ok tbl /\ forall m, write_to_string m tbl v = Diverge.
Proof.
  intros en md r0 K L v c cs HS Hv Hr Ha. exists (session_table K L). split; [apply (session_table_new en md r0 K L HS)|].
  destruct (session_alloc en md r0 K L HS c _ Ha) as (Hok & Hu & pre & post & E & Hc & H8).
  apply (cyclic_diverges _ v (zlen pre) (concat (map enc_comp cs) ++ [255] ++ post)).
  - rewrite (session_get_virtual en md r0 K L HS) by lia. rewrite Hr. f_equal. lia.
  - lia.
  - unfold is_u64; lia.
  - rewrite E, zdrop_app. unfold enc. cbn [map concat enc_comp]. rewrite <- !app_assoc. reflexivity.
Qed.
Print Assumptions C47_cycle_refuted.
Definition cyc_K : list call := [KAlloc (SComps [CRef 5]); KMap 5 (16 + 100000003)].
Example ex_C47 : session LittleEndian ex_md 8 (with_results ex_md cyc_K) (run_session ex_md cyc_K) /\
  resolved 8 (with_results ex_md cyc_K) 5 = Some (16 + 100000003) /\
  allocated ex_md 8 (with_results ex_md cyc_K) (16 + 100000003) (SComps [CRef 5]).
Proof.
  split; [|split; [reflexivity|right; exists 16; split; [vm_compute; auto|reflexivity]]].
  split; [apply ex_utf8|]. split; [apply execute_seq|].
  exists (firstn 6 (run_session ex_md cyc_K)), (index_op METADATA_STRING_ID 8), 8, (skipn 8 (run_session ex_md cyc_K)).
  split; [reflexivity|]. split; [reflexivity|]. split; [|reflexivity].
  unfold cyc_K. cbv [with_results].
  match goal with |- effects _ (combine _ ?r) ?l => let r' := eval vm_compute in r in change r with r' end.
  cbn [combine].
  match goal with |- effects _ ?K ?l => change l with (map (fun k => (match call_op LittleEndian (fst k) with Ok o => o | _ => ODrop TEvents end, snd k)) K) end.
  cbn [map fst snd]. repeat (apply ef_cons; [|reflexivity|]); [..|apply ef_nil].
  all: cbn [call_ok sstring_ok]; unfold is_u64, is_u32.
  all: repeat match goal with
    | |- _ /\ _ => split
    | |- Forall _ _ => constructor
    | |- comp_ok _ => unfold comp_ok, is_u64
    | |- _ => lia
    end.
Qed.
