(** Proofs about sessions: what ends up in the three streams and how it is read back. *)
From Coq Require Import ZArith List Lia Bool.
From Verif Require Import M_Base F_Base M_Sink S_Sink F_Sink F_SinkSeq M_Conc S_Conc M_Utf8 S_Utf8 F_Utf8
  M_Raw F_Raw M_Header M_V8 M_Strings M_StrTable S_Strings F_Strings M_EventId M_Session S_Session.
Import ListNotations.
Open Scope Z_scope.

Lemma chunks_fuel_blocks {A} n (chs : list (list A)) : 0 < n -> Forall (fun c => zlen c = n) chs ->
  forall fuel, (length (concat chs) <= fuel)%nat -> chunks_fuel fuel n (concat chs) = chs.
Proof.
  intros Hn H. induction H as [|c chs Hc _ IH]; intros fuel Hf.
  - destruct fuel; reflexivity.
  - cbn [concat] in *. rewrite app_length in Hf.
    assert (length c <> 0)%nat by (unfold zlen in Hc; lia).
    destruct fuel as [|fuel]; [lia|]. cbn [chunks_fuel].
    destruct (c ++ concat chs) as [|x l] eqn:E.
    { apply app_eq_nil in E. destruct E as [-> _]. cbn in *. lia. }
    rewrite <- E. rewrite ztake_app_eq, zdrop_app_eq by auto. f_equal. apply IH. lia.
Qed.
Lemma chunks_blocks {A} n (chs : list (list A)) : 0 < n -> Forall (fun c => zlen c = n) chs ->
  chunks n (concat chs) = chs.
Proof. intros. unfold chunks. apply chunks_fuel_blocks; auto. Qed.

Definition hdr (magic : bytes) : bytes := magic ++ le_bytes 4 9.
Definition entry_bytes (e : Z * Z) : bytes := le_bytes 8 (fst e) ++ le_bytes 8 (snd e).

Lemma zlen_entry e : zlen (entry_bytes e) = 16.
Proof. unfold entry_bytes. rewrite zlen_app, !zlen_le_bytes. reflexivity. Qed.

Lemma verify_hdr magic rest : zlen magic = 4 -> verify_file_header (hdr magic ++ rest) magic = Ok tt.
Proof.
  intros Hm. unfold verify_file_header, hdr. rewrite !zlen_app, zlen_le_bytes, Hm. pose proof (zlen_nonneg rest).
  change FILE_HEADER_SIZE with 8. destruct (Z.ltb_spec (4 + Z.of_nat 4 + zlen rest) 8); [lia|].
  rewrite <- app_assoc. rewrite zslice_app_first by auto. rewrite beq_refl.
  rewrite zslice_mid_eq by (rewrite ?zlen_le_bytes; lia). reflexivity.
Qed.

Lemma zlen_hdr magic : zlen magic = 4 -> zlen (hdr magic) = 8.
Proof. intros H. unfold hdr. rewrite zlen_app, H, zlen_le_bytes. reflexivity. Qed.

Lemma collect_entries es : Forall (fun e => is_u64 (fst e) /\ is_u64 (snd e)) es ->
  collect_index (map entry_bytes es) = Ok es.
Proof.
  induction 1 as [|[a b] es [Ha Hb] _ IH]; [reflexivity|]. cbn [map collect_index].
  unfold deserialize_index_entry. rewrite zlen_entry. change (16 <=? 16) with true. cbv iota. cbn [bind].
  rewrite IH. cbn [bind]. unfold entry_bytes. cbn [fst snd].
  rewrite zslice_app_first by (rewrite zlen_le_bytes; reflexivity).
  rewrite le_val_bytes_small by exact Ha.
  rewrite <- (app_nil_r (le_bytes 8 b)), zslice_mid_eq by (rewrite ?zlen_le_bytes; reflexivity).
  rewrite le_val_bytes_small by exact Hb. reflexivity.
Qed.

Lemma concat_len {A} n (l : list (list A)) : Forall (fun c => zlen c = n) l -> zlen (concat l) = zlen l * n.
Proof.
  induction 1 as [|c l Hc _ IH]; [reflexivity|]. cbn [concat]. rewrite zlen_app, zlen_cons, IH, Hc. lia.
Qed.

Lemma string_table_new_ok sd es :
  Forall (fun e => is_u64 (fst e) /\ is_u64 (snd e)) es ->
  string_table_new (hdr FILE_MAGIC_STRINGTABLE_DATA ++ sd)
                   (hdr FILE_MAGIC_STRINGTABLE_INDEX ++ concat (map entry_bytes es))
  = Ok (mkTable (hdr FILE_MAGIC_STRINGTABLE_DATA ++ sd) es).
Proof.
  intros H. unfold string_table_new. rewrite !verify_hdr by reflexivity. cbn [bind].
  assert (HB : Forall (fun c => zlen c = 16) (map entry_bytes es)).
  { apply Forall_map, Forall_forall. intros. apply zlen_entry. }
  rewrite zlen_app, zlen_hdr by reflexivity. rewrite (concat_len 16) by exact HB.
  change FILE_HEADER_SIZE with 8. change INDEX_ENTRY_SIZE with 16.
  match goal with |- context [8 + ?n * 16 - 8] => replace (8 + n * 16 - 8) with (n * 16) by lia end.
  rewrite Z.mod_mul by lia. change (0 =? 0) with true. cbv iota.
  unfold strip_file_header. change FILE_HEADER_SIZE with 8.
  destruct (Z.leb_spec 8 (zlen (hdr FILE_MAGIC_STRINGTABLE_INDEX ++ concat (map entry_bytes es)))) as [_|Hl].
  2:{ rewrite zlen_app, zlen_hdr in Hl by reflexivity. pose proof (zlen_nonneg (concat (map entry_bytes es))). lia. }
  cbn [bind]. rewrite zdrop_app_eq by reflexivity. rewrite chunks_blocks by (auto; lia).
  rewrite collect_entries by exact H. reflexivity.
Qed.

(** *** the data written by accepted calls *)
Definition want_raw (e : Z * Z * Z * want) : raw_event :=
  match e with
  | (kind, id, tid, WInstant t) => pack_values kind id tid t INSTANT_MARKER
  | (kind, id, tid, WInteger v) => pack_values kind id tid v INTEGER_MARKER
  | (kind, id, tid, WInterval s e) => pack_values kind id tid s e
  end.
Definition addr_entry (m : Z * Z) : Z * Z := (fst m, snd m - FIRST_REGULAR_STRING_ID).
Definition call_bytes (t : tag) (k : call) : bytes :=
  match t with
  | TStrData => match k with KAlloc s => enc s | _ => [] end
  | TStrIndex => concat (map entry_bytes (map addr_entry (call_mappings k)))
  | TEvents => match call_event k with Some e => raw_bytes (want_raw e) | None => [] end
  end.

Lemma record_op_data en e : op_data (record_raw_event en e) = raw_bytes e.
Proof.
  unfold record_raw_event, op_data. rewrite serialize_eq. reflexivity.
Qed.
Lemma record_op_ok en e : op_ok (record_raw_event en e).
Proof.
  unfold record_raw_event, op_ok. rewrite serialize_eq. change RAW_EVENT_SIZE with 32.
  change (zlen (zeros 32) =? 32) with true. cbv iota. cbn [fst snd]. rewrite zlen_raw_bytes. repeat split; lia.
Qed.

Lemma bulk_bytes_inv vs a b : bulk_bytes vs a = Ok b ->
  Forall (fun v => v <= MAX_USER_VIRTUAL_STRING_ID) vs /\
  b = concat (map (fun v => le_bytes 8 v ++ le_bytes 8 a) vs).
Proof.
  revert b. induction vs as [|v vs IH]; intros b H.
  - inversion H; subst. split; [constructor|reflexivity].
  - cbn [bulk_bytes] in H. destruct (Z.leb_spec v MAX_USER_VIRTUAL_STRING_ID); [|discriminate].
    apply bind_ok in H. destruct H as (b' & H1 & H2). destruct (IH _ H1) as [HF ->].
    inversion H2; subst. split; [constructor; auto|]. cbn [map concat]. rewrite <- app_assoc. reflexivity.
Qed.

(** What acceptance of a call tells. *)
Definition accepted (k : call) : Prop :=
  match k with
  | KMap v c => v <= 100000000 /\ 100000003 <= c
  | KBulk vs c => Forall (fun v => v <= 100000000) vs /\ 100000003 <= c
  | KInstant _ _ _ now => now <= MAX_SINGLE_VALUE
  | KInteger _ _ _ v => v <= MAX_SINGLE_VALUE
  | KInterval _ _ _ s e => s <= e /\ e <= MAX_INTERVAL_VALUE
  | KAlloc _ => True
  end.

Lemma call_op_accepted en k o : call_op en k = Ok o -> accepted k.
Proof.
  destruct k; cbn [call_op accepted]; intros H; auto.
  - unfold map_virtual_op, to_addr in H. destruct (Z.leb_spec virtual_id MAX_USER_VIRTUAL_STRING_ID); [|discriminate].
    destruct (Z.leb_spec FIRST_REGULAR_STRING_ID concrete_id); [|discriminate]. split; auto.
  - unfold bulk_map_op, to_addr in H. destruct (Z.leb_spec FIRST_REGULAR_STRING_ID concrete_id); [|discriminate].
    cbn [bind] in H. apply bind_ok in H. destruct H as (b & H1 & _). apply bulk_bytes_inv in H1. split; [apply H1|auto].
  - unfold new_instant in H. destruct (Z.leb_spec now MAX_SINGLE_VALUE); [auto|discriminate].
  - unfold new_integer in H. destruct (Z.leb_spec v MAX_SINGLE_VALUE); [auto|discriminate].
  - unfold new_interval in H. destruct (Z.leb_spec start now); [|discriminate].
    destruct (Z.leb_spec now MAX_INTERVAL_VALUE); [auto|discriminate].
Qed.

Lemma bulk_entries vs c :
  concat (map (fun v => le_bytes 8 v ++ le_bytes 8 (c - FIRST_REGULAR_STRING_ID)) vs)
  = concat (map entry_bytes (map addr_entry (map (fun v => (v, c)) vs))).
Proof. rewrite !map_map. reflexivity. Qed.

Lemma call_op_data en k o : call_op en k = Ok o ->
  op_ok o /\ op_data o = call_bytes (op_tag o) k /\ (forall t, t <> op_tag o -> call_bytes t k = []).
Proof.
  destruct k; cbn [call_op]; intros H.
  - inversion H; subst. split; [apply alloc_op_ok|]. split; [apply alloc_op_data|]. intros [] Ht; auto; cbn in Ht; congruence.
  - unfold map_virtual_op, to_addr in H. destruct (Z.leb_spec virtual_id MAX_USER_VIRTUAL_STRING_ID); [|discriminate].
    destruct (Z.leb_spec FIRST_REGULAR_STRING_ID concrete_id); [|discriminate]. cbn [bind] in H. inversion H; subst.
    split; [apply index_op_ok|]. split; [rewrite index_op_data|intros [] Ht; auto; cbn in Ht; congruence].
    cbn. rewrite app_nil_r. reflexivity.
  - unfold bulk_map_op, to_addr in H. destruct (Z.leb_spec FIRST_REGULAR_STRING_ID concrete_id); [|discriminate].
    cbn [bind] in H. apply bind_ok in H. destruct H as (b & H1 & H2). apply bulk_bytes_inv in H1.
    destruct H1 as [_ ->]. inversion H2; subst. split; [exact I|]. split; [apply bulk_entries|].
    intros [] Ht; auto; cbn in Ht; congruence.
  - unfold new_instant in H. destruct (now <=? MAX_SINGLE_VALUE); [|discriminate]. cbn [bind] in H. inversion H; subst.
    split; [apply record_op_ok|]. split; [apply record_op_data|]. intros [] Ht; auto; cbn in Ht; congruence.
  - unfold new_integer in H. destruct (v <=? MAX_SINGLE_VALUE); [|discriminate]. cbn [bind] in H. inversion H; subst.
    split; [apply record_op_ok|]. split; [apply record_op_data|]. intros [] Ht; auto; cbn in Ht; congruence.
  - unfold new_interval in H. destruct (start <=? now); [|discriminate].
    destruct (now <=? MAX_INTERVAL_VALUE); [|discriminate]. cbn [bind] in H. inversion H; subst.
    split; [apply record_op_ok|]. split; [apply record_op_data|]. intros [] Ht; auto; cbn in Ht; congruence.
Qed.

Lemma effects_written en t K L : effects en K L ->
  written t (map fst L) = concat (map (fun k => call_bytes t (fst k)) K).
Proof.
  induction 1 as [|k r o K L Hok Hop _ IH]; [reflexivity|]. cbn [map fst written concat]. rewrite IH. f_equal.
  destruct (call_op_data _ _ _ Hop) as (_ & Hd & Ho). destruct (tag_eqb (op_tag o) t) eqn:E.
  - apply tag_eqb_eq in E. subst t. exact Hd.
  - apply tag_eqb_neq in E. symmetry. apply Ho. auto.
Qed.

Lemma index_bytes K : concat (map (fun k : call * Z => call_bytes TStrIndex (fst k)) K)
  = concat (map entry_bytes (map addr_entry (mappings K))).
Proof.
  induction K as [|[k r] K IH]; [reflexivity|]. cbn [map concat fst mappings flat_map]. rewrite IH.
  unfold mappings. rewrite !map_app, concat_app. reflexivity.
Qed.

Lemma event_bytes K : concat (map (fun k : call * Z => call_bytes TEvents (fst k)) K)
  = concat (map raw_bytes (map want_raw (recorded K))).
Proof.
  induction K as [|[k r] K IH]; [reflexivity|]. cbn [map concat fst recorded]. rewrite IH.
  unfold call_bytes at 1. destruct (call_event k); reflexivity.
Qed.

Lemma effects_accepted en K L : effects en K L ->
  Forall (fun k => call_ok (fst k) /\ accepted (fst k)) K.
Proof. induction 1; constructor; auto. split; auto. eapply call_op_accepted; eauto. Qed.

Lemma effects_in en K L k r : effects en K L -> In (k, r) K -> exists o, call_op en k = Ok o /\ In (o, r) L.
Proof.
  induction 1 as [|k' r' o K L Hok Hop _ IH]; intros Hin; [destruct Hin|]. destruct Hin as [E|Hin].
  - inversion E; subst. exists o. split; auto. left; auto.
  - destruct (IH Hin) as (o' & ? & ?). exists o'. split; auto. right; auto.
Qed.

Lemma mappings_ok K : Forall (fun k => call_ok (fst k) /\ accepted (fst k)) K ->
  Forall (fun m => is_u64 (fst m) /\ fst m <= 100000000 /\ is_u64 (snd m) /\ 100000003 <= snd m) (mappings K).
Proof.
  induction 1 as [|[k r] K [H1 H2] _ IH]; [constructor|]. unfold mappings. cbn [flat_map fst]. apply Forall_app.
  split; [|exact IH]. cbn [fst] in *. destruct k; cbn [call_mappings call_ok accepted] in *; try constructor; auto.
  - cbn [fst snd]. tauto.
  - destruct H1 as [H1 H1'], H2 as [H2 H2']. apply Forall_map. rewrite Forall_forall in *. intros v Hv. cbn [fst snd].
    split; auto.
Qed.

(** *** lookup *)
Lemma last_mapping_snoc v ms m d :
  last_mapping v (ms ++ [m]) d = if fst m =? v then Some (snd m) else last_mapping v ms d.
Proof.
  revert d. induction ms as [|[v' c] ms IH]; intros d; destruct m as [v'' c'']; cbn [app last_mapping fst snd].
  - reflexivity.
  - apply IH.
Qed.

Lemma lookup_snoc v ix e : lookup v (ix ++ [e]) = if fst e =? v then Some (snd e) else lookup v ix.
Proof.
  unfold lookup. rewrite rev_app_distr. cbn [rev app find]. destruct (fst e =? v); reflexivity.
Qed.

Lemma lookup_mappings v ix ms : lookup v (ix ++ map addr_entry ms)
  = match last_mapping v ms None with
    | Some c => Some (c - FIRST_REGULAR_STRING_ID)
    | None => lookup v ix
    end.
Proof.
  induction ms as [|m ms IH] using rev_ind.
  - cbn [map]. rewrite app_nil_r. reflexivity.
  - rewrite map_app, app_assoc. cbn [map]. rewrite lookup_snoc, last_mapping_snoc. unfold addr_entry at 1 3. cbn [fst snd].
    destruct (fst m =? v); auto.
Qed.

Lemma last_mapping_in v ms c : last_mapping v ms None = Some c -> In (v, c) ms.
Proof.
  induction ms as [|[v' c'] ms IH] using rev_ind; [discriminate|]. rewrite last_mapping_snoc. cbn [fst snd].
  rewrite in_app_iff. destruct (Z.eqb_spec v' v).
  - intros E. inversion E; subst. right. left. reflexivity.
  - intros E. left. auto.
Qed.

Lemma last_mapping_none v ms : ~ In v (map fst ms) -> last_mapping v ms None = None.
Proof.
  destruct (last_mapping v ms None) eqn:E; auto. intros H. apply last_mapping_in in E. exfalso. apply H.
  apply in_map_iff. exists (v, z). auto.
Qed.

(** *** the three streams of a session *)
Section SessionFacts.
Variables (en : endian) (md : bytes) (r0 : Z) (K : list (call * Z)) (L : list (op * Z)).
Hypothesis HS : session en md r0 K L.

Lemma session_r0 : r0 = 8.
Proof.
  destruct HS as (_ & Hsc & H & o2 & r2 & L2 & HH & _ & _ & E).
  rewrite (Hsc H (init_alloc md) r0 ((o2, r2) :: L2) E). rewrite HH. reflexivity.
Qed.

Lemma session_o2 o2 : init_op2 r0 = Ok o2 -> o2 = index_op METADATA_STRING_ID 8.
Proof. rewrite session_r0. intros H. vm_compute in H. inversion H. reflexivity. Qed.

Lemma session_written t : written t (map fst L) =
  match t with
  | TEvents => hdr FILE_MAGIC_EVENT_STREAM ++ concat (map raw_bytes (map want_raw (recorded K)))
  | TStrData => hdr FILE_MAGIC_STRINGTABLE_DATA ++ enc (SStr md) ++ concat (map (fun k => call_bytes TStrData (fst k)) K)
  | TStrIndex => hdr FILE_MAGIC_STRINGTABLE_INDEX ++
      concat (map entry_bytes ((METADATA_STRING_ID, 8) :: map addr_entry (mappings K)))
  end.
Proof.
  destruct HS as (_ & Hsc & H & o2 & r2 & L2 & HH & H2 & He & E). rewrite (session_o2 _ H2) in *.
  rewrite E, map_app. cbn [map fst]. rewrite HH, written_app. cbn [written]. rewrite (effects_written en t K L2 He).
  unfold init_alloc. rewrite alloc_op_data, index_op_data. destruct t.
  - rewrite <- event_bytes. reflexivity.
  - reflexivity.
  - cbn [map concat]. rewrite <- index_bytes. reflexivity.
Qed.

Lemma session_effects : exists L2, effects en K L2.
Proof. destruct HS as (_ & _ & H & o2 & r2 & L2 & _ & _ & He & _). eauto. Qed.

Lemma session_mappings :
  Forall (fun m => is_u64 (fst m) /\ fst m <= 100000000 /\ is_u64 (snd m) /\ 100000003 <= snd m) (mappings K).
Proof. destruct session_effects as (L2 & He). apply mappings_ok. eapply effects_accepted; eauto. Qed.

Definition session_table : string_table :=
  mkTable (written TStrData (map fst L)) ((METADATA_STRING_ID, 8) :: map addr_entry (mappings K)).

Lemma session_table_new :
  string_table_new (written TStrData (map fst L)) (written TStrIndex (map fst L)) = Ok session_table.
Proof.
  unfold session_table. rewrite (session_written TStrData), (session_written TStrIndex). apply string_table_new_ok.
  constructor; [split; cbn; unfold is_u64, METADATA_STRING_ID, MAX_USER_VIRTUAL_STRING_ID; lia|].
  apply Forall_map. eapply Forall_impl; [|apply session_mappings]. unfold addr_entry, is_u64. cbn [fst snd].
  change FIRST_REGULAR_STRING_ID with 100000003. intros a; lia.
Qed.

Lemma session_alloc id s : allocated md r0 K id s ->
  sstring_ok s /\ is_u64 id /\
  exists pre post, string_data session_table = pre ++ enc s ++ post /\ id = zlen pre + FIRST_REGULAR_STRING_ID /\ 8 <= zlen pre.
Proof.
  intros HA. destruct HS as (Hmd & Hsc & H & o2 & r2 & L2 & HH & H2 & He & E).
  assert (Hin : exists r, In (alloc_op s, r) L /\ alloc_result r = Ok id /\ sstring_ok s /\
     exists l1 l2, L = l1 ++ (alloc_op s, r) :: l2 /\ 8 <= zlen (written TStrData (map fst l1))).
  { destruct HA as [[-> Hr]|(r & Hin & Hr)].
    - exists r0. split; [rewrite E; apply in_app_iff; right; left; reflexivity|]. split; auto. split; auto.
      exists H, ((o2, r2) :: L2). split; [exact E|]. rewrite HH. vm_compute. discriminate.
    - destruct (effects_in _ _ _ _ _ He Hin) as (o & Ho & HinL). cbn in Ho. inversion Ho; subst o. exists r.
      split; [rewrite E; apply in_app_iff; right; right; right; auto|]. split; auto. split.
      + apply effects_accepted in He. rewrite Forall_forall in He. apply He in Hin. apply Hin.
      + apply in_split in HinL. destruct HinL as (l1 & l2 & ->).
        exists (H ++ (init_alloc md, r0) :: (o2, r2) :: l1), l2. split; [rewrite E, <- app_assoc; reflexivity|].
        rewrite map_app, written_app, HH, zlen_app.
        pose proof (zlen_nonneg (written TStrData (map fst ((init_alloc md, r0) :: (o2, r2) :: l1)))).
        change (zlen (written TStrData init_headers)) with 8. lia. }
  destruct Hin as (r & Hin & Hr & Hok & l1 & l2 & EL & H8).
  assert (Hr' : r = zlen (written TStrData (map fst l1))) by (apply (Hsc l1 (alloc_op s) r l2 EL)).
  unfold alloc_result, from_addr in Hr.
  destruct (Z.ltb_spec (r + FIRST_REGULAR_STRING_ID) 18446744073709551616); [|discriminate]. inversion Hr; subst id.
  split; auto. split; [unfold is_u64; change FIRST_REGULAR_STRING_ID with 100000003 in *; lia|].
  exists (written TStrData (map fst l1)), (written TStrData (map fst l2)). split; [|split; [subst r; auto|auto]].
  cbn [session_table string_data]. rewrite EL, map_app, written_app. cbn [map fst written].
  change (tag_eqb (op_tag (alloc_op s)) TStrData) with true. cbv iota. rewrite alloc_op_data. reflexivity.
Qed.

Lemma session_resolve v : v <= METADATA_STRING_ID ->
  match resolved r0 K v with
  | Some c => FIRST_REGULAR_STRING_ID <= c /\ lookup v (index session_table) = Some (c - FIRST_REGULAR_STRING_ID)
  | None => lookup v (index session_table) = None
  end.
Proof.
  intros Hv. unfold resolved. rewrite session_r0. cbn [session_table index].
  change ((METADATA_STRING_ID, 8) :: map addr_entry (mappings K)) with ([(METADATA_STRING_ID, 8)] ++ map addr_entry (mappings K)).
  rewrite lookup_mappings. pose proof session_mappings as HM. rewrite Forall_forall in HM.
  destruct (Z.eqb_spec v 100000001) as [->|Hne].
  - destruct (last_mapping 100000001 (mappings K) None) as [c|] eqn:El.
    { apply last_mapping_in, HM in El. cbn [fst snd] in El. lia. }
    split; [unfold FIRST_REGULAR_STRING_ID, INVALID_STRING_ID, METADATA_STRING_ID, MAX_USER_VIRTUAL_STRING_ID; lia|]. reflexivity.
  - destruct (last_mapping v (mappings K) None) as [c|] eqn:El.
    + apply last_mapping_in, HM in El. cbn [fst snd] in El. split; [apply El|reflexivity].
    + unfold lookup. cbn [rev app find fst]. change METADATA_STRING_ID with 100000001.
      destruct (Z.eqb_spec 100000001 v); [congruence|]. reflexivity.
Qed.

Lemma session_expansion id s : denotes (allocated md r0 K) (resolved r0 K) id s ->
  exists n, forall m, (n <= m)%nat -> write_to_string m session_table id = Ok s.
Proof.
  apply (expansion session_table (allocated md r0 K) (resolved r0 K)).
  - intros i x Hx. destruct (session_alloc _ _ Hx) as (H1 & H2 & pre & post & H3 & H4 & _). eauto 6.
  - exact session_resolve.
Qed.
End SessionFacts.
