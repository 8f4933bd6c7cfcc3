(** C11 file headers, C12 version dispatch, C24 event iteration, C49 old format conversion. *)
From Coq Require Import ZArith List Lia Bool.
From Verif Require Import M_Base F_Base M_Raw F_Raw M_Header M_V8 M_Iter.
Import ListNotations.
Open Scope Z_scope.

(** ** C11.  [header magic v] is the documented header: magic, then the version in little endian. *)
Definition header (magic : bytes) (v : Z) : bytes := magic ++ le_bytes 4 v.

Lemma header_split bs : bytes_ok bs -> 8 <= zlen bs ->
  bs = (zslice 0 4 bs ++ le_bytes 4 (le_val (zslice 4 8 bs))) ++ zdrop 8 bs.
Proof.
  intros Hb Hl.
  assert (E : le_bytes 4 (le_val (zslice 4 8 bs)) = zslice 4 8 bs).
  { pose proof (le_bytes_val (zslice 4 8 bs) (zslice_bytes_ok 4 8 bs Hb)) as E.
    replace (length (zslice 4 8 bs)) with 4%nat in E; auto.
    pose proof (zslice_len 4 8 bs ltac:(lia) ltac:(lia)). unfold zlen in H. lia. }
  rewrite E, <- app_assoc. rewrite <- (zslice_split 4 8), <- (zslice_split 0 4) by lia. reflexivity.
Qed.

Lemma header_magic magic v rest : zlen magic = 4 -> zslice 0 4 (header magic v ++ rest) = magic.
Proof. intros H. unfold header. rewrite <- app_assoc. apply zslice_app_first; lia. Qed.

Lemma header_version magic v rest : zlen magic = 4 -> 0 <= v < 2 ^ 32 ->
  le_val (zslice 4 8 (header magic v ++ rest)) = v.
Proof.
  intros H Hv. unfold header. rewrite <- app_assoc, zslice_app_skip by lia.
  replace (4 - zlen magic) with 0 by lia. replace (8 - zlen magic) with 4 by lia.
  rewrite zslice_app_first by (rewrite zlen_le_bytes; lia). apply le_val_bytes_small. exact Hv.
Qed.

Lemma zlen_header magic v : zlen magic = 4 -> zlen (header magic v) = 8.
Proof. intros. unfold header. rewrite zlen_app, zlen_le_bytes. lia. Qed.

(** The check accepts exactly the byte strings that begin with the header for the expected magic and
    the current version (9), and otherwise returns an error: it never panics. *)
Theorem C11_verify_exact : forall bs magic, bytes_ok bs -> zlen magic = 4 ->
  (verify_file_header bs magic = Ok tt <-> exists rest, bs = header magic 9 ++ rest) /\
  (verify_file_header bs magic <> Ok tt -> verify_file_header bs magic = Err).
Proof.
  intros bs magic Hb Hm. split.
  - unfold verify_file_header. change FILE_HEADER_SIZE with 8.
    change CURRENT_FILE_FORMAT_VERSION with 9. split.
    + destruct (Z.ltb_spec (zlen bs) 8); [discriminate|].
      destruct (beq (zslice 0 4 bs) magic) eqn:E; [|discriminate].
      destruct (Z.eqb_spec (le_val (zslice 4 8 bs)) 9); [|discriminate]. intros _.
      apply beq_true in E. exists (zdrop 8 bs). unfold header. rewrite <- E, <- e. apply header_split; auto.
    + intros [rest ->]. rewrite zlen_app, zlen_header by auto. pose proof (zlen_nonneg rest).
      destruct (Z.ltb_spec (8 + zlen rest) 8); [lia|].
      rewrite header_magic, beq_refl, header_version by (auto; lia). reflexivity.
  - unfold verify_file_header.
    repeat match goal with |- context [if ?b then _ else _] => destruct b end; congruence.
Qed.
Print Assumptions C11_verify_exact.

(** What the writer writes is accepted for the same magic, whatever follows it, and rejected for
    every other magic of the format. *)
Theorem C11_write_verify : forall magic magic' rest,
  zlen magic = 4 -> zlen magic' = 4 ->
  verify_file_header (concat (header_writes magic) ++ rest) magic' =
  if beq magic magic' then Ok tt else Err.
Proof.
  intros magic magic' rest H H'. unfold header_writes. cbn [concat].
  rewrite app_nil_r. fold (header magic CURRENT_FILE_FORMAT_VERSION).
  unfold verify_file_header. change FILE_HEADER_SIZE with 8. change CURRENT_FILE_FORMAT_VERSION with 9.
  rewrite zlen_app, zlen_header by auto. pose proof (zlen_nonneg rest).
  destruct (Z.ltb_spec (8 + zlen rest) 8); [lia|].
  rewrite header_magic, header_version by (auto; lia). destruct (beq magic magic'); reflexivity.
Qed.
Print Assumptions C11_write_verify.

(** The four magics are "MMPD", "MMES", "MMSD", "MMSI": pairwise different, 4 bytes each. *)
Theorem C11_magics_distinct :
  [FILE_MAGIC_TOP_LEVEL; FILE_MAGIC_EVENT_STREAM; FILE_MAGIC_STRINGTABLE_DATA;
   FILE_MAGIC_STRINGTABLE_INDEX] =
    [[77; 77; 80; 68]; [77; 77; 69; 83]; [77; 77; 83; 68]; [77; 77; 83; 73]] /\
  NoDup [FILE_MAGIC_TOP_LEVEL; FILE_MAGIC_EVENT_STREAM; FILE_MAGIC_STRINGTABLE_DATA;
         FILE_MAGIC_STRINGTABLE_INDEX] /\
  Forall (fun m => zlen m = 4 /\ bytes_ok m)
    [FILE_MAGIC_TOP_LEVEL; FILE_MAGIC_EVENT_STREAM; FILE_MAGIC_STRINGTABLE_DATA;
     FILE_MAGIC_STRINGTABLE_INDEX].
Proof.
  split; [reflexivity|]. split.
  - repeat constructor; cbn; intuition discriminate.
  - repeat constructor; cbn; lia.
Qed.
Print Assumptions C11_magics_distinct.

(** Reading the header returns exactly the version that follows the expected magic, and an error for
    everything else. *)
Theorem C11_read_exact : forall bs magic v, bytes_ok bs -> zlen magic = 4 ->
  (read_file_header bs magic = Ok v <-> 0 <= v < 2 ^ 32 /\ exists rest, bs = header magic v ++ rest) /\
  ((exists v, read_file_header bs magic = Ok v) \/ read_file_header bs magic = Err).
Proof.
  intros bs magic v Hb Hm. unfold read_file_header. change FILE_HEADER_SIZE with 8.
  destruct (Z.ltb_spec (zlen bs) 8) as [L|L].
  - split; [|right; reflexivity]. split; [discriminate|]. intros (_ & rest & ->).
    rewrite zlen_app, zlen_header in L by auto. pose proof (zlen_nonneg rest). lia.
  - destruct (beq (zslice 0 4 bs) magic) eqn:E.
    + apply beq_true in E. split; [|left; eauto]. split.
      * intros H. inversion H as [Hv]. split.
        -- pose proof (le_val_range (zslice 4 8 bs) (zslice_bytes_ok 4 8 bs Hb)) as R.
           rewrite zslice_len in R by lia. replace (256 ^ (8 - 4)) with (2 ^ 32) in R by reflexivity. exact R.
        -- exists (zdrop 8 bs). rewrite <- E. apply header_split; auto.
      * intros (Hv & rest & ->). rewrite header_version by auto. reflexivity.
    + split; [|right; reflexivity]. split; [discriminate|]. intros (_ & rest & ->).
      rewrite header_magic, beq_refl in E by auto. discriminate.
Qed.
Print Assumptions C11_read_exact.

(** Stripping the header inverts prepending it; it panics exactly on inputs without one. *)
Theorem C11_strip : forall bs,
  (forall magic v, zlen magic = 4 -> strip_file_header (header magic v ++ bs) = Ok bs) /\
  (strip_file_header bs = Panic <-> zlen bs < 8).
Proof.
  intros bs. split.
  - intros magic v H. unfold strip_file_header. change FILE_HEADER_SIZE with 8.
    rewrite zlen_app, zlen_header by auto. pose proof (zlen_nonneg bs).
    destruct (Z.leb_spec 8 (8 + zlen bs)); [|lia]. f_equal. apply zdrop_app_eq. rewrite zlen_header; auto.
  - unfold strip_file_header. change FILE_HEADER_SIZE with 8.
    destruct (Z.leb_spec 8 (zlen bs)); split; intros; try discriminate; try lia; auto.
Qed.
Print Assumptions C11_strip.

Example ex_C11 : verify_file_header ([77; 77; 80; 68; 9; 0; 0; 0] ++ [1]) FILE_MAGIC_TOP_LEVEL = Ok tt
  /\ verify_file_header [77; 77; 80; 68; 8; 0; 0; 0] FILE_MAGIC_TOP_LEVEL = Err
  /\ verify_file_header [77; 77; 80; 68; 9; 0; 0] FILE_MAGIC_TOP_LEVEL = Err.
Proof. vm_compute; auto. Qed.

(** ** C12.  [v8], [v9] stand for the two decoders. *)
Theorem C12_dispatch : forall A (v8 v9 : bytes -> res A) v rest, 0 <= v < 2 ^ 32 ->
  let data := header [77; 77; 80; 68] v ++ rest in
  (v = 8 -> from_paged_buffer v8 v9 data = v8 data) /\
  (v = 9 -> from_paged_buffer v8 v9 data = v9 data) /\
  (v <> 8 -> v <> 9 -> from_paged_buffer v8 v9 data = Err).
Proof.
  intros A v8 v9 v rest Hv data.
  assert (E : read_file_header data FILE_MAGIC_TOP_LEVEL = Ok v).
  { unfold read_file_header, data. change FILE_HEADER_SIZE with 8.
    rewrite zlen_app, zlen_header by reflexivity. pose proof (zlen_nonneg rest).
    destruct (Z.ltb_spec (8 + zlen rest) 8); [lia|].
    rewrite header_magic, beq_refl, header_version by (auto; reflexivity). reflexivity. }
  unfold from_paged_buffer. rewrite E. cbn [bind].
  change V8_FILE_FORMAT with 8. change V9_FILE_FORMAT with 9.
  destruct (Z.eqb_spec v 8), (Z.eqb_spec v 9); repeat split; intros; auto; lia.
Qed.
Print Assumptions C12_dispatch.

(** Everything else - too short, or a different magic - is reported as an error. *)
Theorem C12_not_a_profile : forall A (v8 v9 : bytes -> res A) data, bytes_ok data ->
  (forall v rest, 0 <= v < 2 ^ 32 -> data <> header [77; 77; 80; 68] v ++ rest) ->
  from_paged_buffer v8 v9 data = Err.
Proof.
  intros A v8 v9 data Hb H. unfold from_paged_buffer, read_file_header. change FILE_HEADER_SIZE with 8.
  destruct (Z.ltb_spec (zlen data) 8); [reflexivity|].
  destruct (beq (zslice 0 4 data) FILE_MAGIC_TOP_LEVEL) eqn:E; [|reflexivity].
  exfalso. apply beq_true in E. apply (H (le_val (zslice 4 8 data)) (zdrop 8 data)).
  - pose proof (le_val_range (zslice 4 8 data) (zslice_bytes_ok 4 8 data Hb)) as R.
    rewrite zslice_len in R by lia. exact R.
  - unfold header. change [77; 77; 80; 68] with FILE_MAGIC_TOP_LEVEL. rewrite <- E. apply header_split; auto.
Qed.
Print Assumptions C12_not_a_profile.

Example ex_C12 : from_paged_buffer (fun _ => Ok 8) (fun _ => Ok 9) [77; 77; 80; 68; 8; 0; 0; 0; 5] = Ok 8
  /\ from_paged_buffer (fun _ => Ok 8) (fun _ => Ok 9) [77; 77; 80; 68; 8; 1; 0; 0; 5] = Err.
Proof. vm_compute; auto. Qed.

(** ** C24.  The iterator is a double-ended queue holding all events: [next] takes from the front,
    [next_back] from the back, the size hint is the number of events left, and an empty queue stays
    empty.  [deque_run] is that specification. *)
Fixpoint deque_run {A} (calls : list bool) (q : list A) : list (Z * option A) :=
  match calls with
  | [] => []
  | true :: calls' => (zlen q, hd_error q) :: deque_run calls' (tl q)
  | false :: calls' => (zlen q, hd_error (rev q)) :: deque_run calls' (removelast q)
  end.

Section Iteration.
Context {A : Type} (evs : list A) (decode : Z -> res A).
Hypothesis decode_ok : forall i a, nth_error evs i = Some a -> decode (Z.of_nat i) = Ok a.
Hypothesis fits : zlen evs < 2 ^ 64.

(** The queue between two indices. *)
Definition window (f b : nat) : list A := firstn (b - f) (skipn f evs).

Lemma window_len f b : (f <= b)%nat -> (b <= length evs)%nat -> length (window f b) = (b - f)%nat.
Proof. intros. unfold window. rewrite firstn_length, skipn_length. lia. Qed.

Lemma window_front f b : (f < b)%nat -> (b <= length evs)%nat ->
  exists a, nth_error evs f = Some a /\ window f b = a :: window (S f) b.
Proof.
  intros Hf Hb. destruct (nth_error evs f) as [a|] eqn:E.
  - exists a. split; auto. unfold window. replace (b - f)%nat with (S (b - S f)) by lia.
    assert (skipn f evs = a :: skipn (S f) evs) as ->; auto.
    clear - E. revert f E. induction evs as [|x l IH]; intros [|f] E; try discriminate; cbn in *.
    + congruence.
    + apply IH; auto.
  - apply nth_error_None in E. lia.
Qed.

Lemma window_back f b : (f < S b)%nat -> (S b <= length evs)%nat ->
  exists a, nth_error evs b = Some a /\ window f (S b) = window f b ++ [a].
Proof.
  intros Hf Hb. destruct (nth_error evs b) as [a|] eqn:E.
  - exists a. split; auto. unfold window. replace (S b - f)%nat with (S (b - f)) by lia.
    assert (nth_error (skipn f evs) (b - f) = Some a) as E2.
    { replace b with (f + (b - f))%nat in E by lia. revert E. generalize (b - f)%nat as n.
      intros n. clear. revert f. induction evs as [|x l IH]; intros [|f] E; cbn in *; auto.
      destruct n; discriminate. }
    revert E2. generalize (skipn f evs) as l, (b - f)%nat as n. clear.
    induction l as [|x l IH]; intros [|n] E; try discriminate; cbn in *.
    + congruence.
    + rewrite (IH n) by auto. reflexivity.
  - apply nth_error_None in E. lia.
Qed.

Lemma iter_deque calls : forall f b, (f <= b)%nat -> (b <= length evs)%nat ->
  iter_run decode calls (mkIter (Z.of_nat f) (Z.of_nat b)) = Ok (deque_run calls (window f b)).
Proof.
  unfold zlen in fits. change (2 ^ 64) with 18446744073709551616 in fits.
  induction calls as [|c calls IH]; intros f b Hf Hb; [reflexivity|].
  cbn [iter_run]. unfold iter_size_hint. cbn [forward_idx backward_idx].
  destruct (Z.leb_spec (Z.of_nat f) (Z.of_nat b)); [|lia]. cbn [bind fst snd].
  assert (L : zlen (window f b) = Z.of_nat b - Z.of_nat f) by (unfold zlen; rewrite window_len; lia).
  destruct c; cbn [deque_run]; rewrite L.
  - unfold iter_next. cbn [forward_idx backward_idx].
    destruct (Z.eqb_spec (Z.of_nat f) (Z.of_nat b)).
    + assert (f = b) by lia. subst. cbn [bind fst snd]. rewrite IH by lia. cbn [bind].
      rewrite Z.eqb_refl. unfold window. rewrite Nat.sub_diag. reflexivity.
    + destruct (window_front f b) as (a&E1&E2); try lia. rewrite (decode_ok _ _ E1). cbn [bind].
      destruct (Z.ltb_spec (Z.of_nat f + 1) 18446744073709551616); [|lia]. cbn [bind fst snd].
      replace (Z.of_nat f + 1) with (Z.of_nat (S f)) by lia. rewrite IH by lia. cbn [bind].
      rewrite Z.eqb_refl. rewrite E2. reflexivity.
  - unfold iter_next_back. cbn [forward_idx backward_idx].
    destruct (Z.eqb_spec (Z.of_nat f) (Z.of_nat b)).
    + assert (f = b) by lia. subst. cbn [bind fst snd]. rewrite IH by lia. cbn [bind].
      rewrite Z.eqb_refl. unfold window. rewrite Nat.sub_diag. reflexivity.
    + destruct (Z.ltb_spec 0 (Z.of_nat b)); [|lia]. destruct b as [|b']; [lia|].
      destruct (window_back f b') as (a&E1&E2); try lia.
      replace (Z.of_nat (S b') - 1) with (Z.of_nat b') by lia.
      rewrite (decode_ok _ _ E1). cbn [bind fst snd]. rewrite IH by lia. cbn [bind].
      rewrite Z.eqb_refl. rewrite E2, rev_app_distr. rewrite removelast_last. reflexivity.
Qed.

Lemma window_all : window 0 (length evs) = evs.
Proof. unfold window. cbn. rewrite Nat.sub_0_r. apply firstn_all. Qed.

Lemma collect_window n : forall f b, (b - f < n)%nat -> (f <= b)%nat -> (b <= length evs)%nat ->
  iter_collect decode n (mkIter (Z.of_nat f) (Z.of_nat b)) = Ok (window f b).
Proof.
  unfold zlen in fits. change (2 ^ 64) with 18446744073709551616 in fits.
  induction n as [|n IH]; intros f b Hn Hf Hb; [lia|]. cbn [iter_collect].
  unfold iter_next. cbn [forward_idx backward_idx].
  destruct (Z.eqb_spec (Z.of_nat f) (Z.of_nat b)).
  - assert (f = b) by lia. subst. unfold window. rewrite Nat.sub_diag. reflexivity.
  - destruct (window_front f b) as (a&E1&E2); try lia. rewrite (decode_ok _ _ E1). cbn [bind].
    destruct (Z.ltb_spec (Z.of_nat f + 1) 18446744073709551616); [|lia]. cbn [bind fst snd].
    replace (Z.of_nat f + 1) with (Z.of_nat (S f)) by lia. rewrite IH by lia. rewrite E2. reflexivity.
Qed.

Lemma collect_back_window n : forall f b, (b - f < n)%nat -> (f <= b)%nat -> (b <= length evs)%nat ->
  iter_collect_back decode n (mkIter (Z.of_nat f) (Z.of_nat b)) = Ok (rev (window f b)).
Proof.
  induction n as [|n IH]; intros f b Hn Hf Hb; [lia|]. cbn [iter_collect_back].
  unfold iter_next_back. cbn [forward_idx backward_idx].
  destruct (Z.eqb_spec (Z.of_nat f) (Z.of_nat b)).
  - assert (f = b) by lia. subst. unfold window. rewrite Nat.sub_diag. reflexivity.
  - destruct (Z.ltb_spec 0 (Z.of_nat b)); [|lia]. destruct b as [|b']; [lia|].
    destruct (window_back f b') as (a&E1&E2); try lia.
    replace (Z.of_nat (S b') - 1) with (Z.of_nat b') by lia. rewrite (decode_ok _ _ E1). cbn [bind fst snd].
    rewrite IH by lia. rewrite E2, rev_app_distr. reflexivity.
Qed.
End Iteration.

(** Any interleaving of calls behaves like the queue of all events; no call panics. *)
Theorem C24_deque : forall A (evs : list A) decode,
  (forall i a, nth_error evs i = Some a -> decode (Z.of_nat i) = Ok a) -> zlen evs < 2 ^ 64 ->
  forall calls, iter_run decode calls (iter_new (zlen evs)) = Ok (deque_run calls evs).
Proof.
  intros A evs decode H Hf calls. rewrite <- (window_all evs) at 2. unfold iter_new, zlen.
  change 0 with (Z.of_nat 0). apply iter_deque; auto; lia.
Qed.
Print Assumptions C24_deque.

(** In particular a [for] loop sees all events in order, and a reversed one in reverse order. *)
Theorem C24_collect : forall A (evs : list A) decode,
  (forall i a, nth_error evs i = Some a -> decode (Z.of_nat i) = Ok a) -> zlen evs < 2 ^ 64 ->
  forall n, (length evs < n)%nat ->
  iter_collect decode n (iter_new (zlen evs)) = Ok evs /\
  iter_collect_back decode n (iter_new (zlen evs)) = Ok (rev evs).
Proof.
  intros A evs decode H Hf n Hn. unfold iter_new, zlen. change 0 with (Z.of_nat 0). split.
  - rewrite (collect_window evs decode H Hf) by lia. rewrite window_all. reflexivity.
  - rewrite (collect_back_window evs decode H) by lia. rewrite window_all. reflexivity.
Qed.
Print Assumptions C24_collect.

Example ex_C24 : iter_run (fun i => Ok (i * 10)) [true; false; false; true] (iter_new 3)
  = Ok [(3, Some 0); (2, Some 20); (1, Some 10); (0, None)].
Proof. reflexivity. Qed.

(** ** C49.  Corresponding values, stated by case. *)
Definition same_payload (o : old_payload) (p : payload) : Prop :=
  match o, p with
  | OldTimestamp (OldInterval s e), Timestamp (Interval s' e') => s = s' /\ e = e'
  | OldTimestamp (OldInstant t), Timestamp (Instant t') => t = t'
  | OldInteger v, Integer v' => v = v'
  | _, _ => False
  end.

Theorem C49_events : forall o, let e := v8_event_as_current o in
  ev_kind e = old_kind o /\ ev_label e = old_label o /\ ev_args e = old_args o /\
  ev_thread e = old_thread o /\ same_payload (old_payload_ o) (ev_payload e).
Proof. intros [k l a [[s e|t]|v] t']; cbn; auto 10. Qed.
Print Assumptions C49_events.

Theorem C49_lightweight : forall o, let e := v8_lightweightevent_as_current o in
  lw_index e = old_index o /\ lw_thread e = old_lw_thread o /\
  same_payload (old_lw_payload o) (lw_payload e).
Proof. intros [k l [[s e|t]|v]]; cbn; auto 10. Qed.
Print Assumptions C49_lightweight.

Theorem C49_metadata : forall o, let m := v8_metadata_as_current o in
  md_start_time m = old_start_time o /\ md_process_id m = old_process_id o /\ md_cmd m = old_cmd o.
Proof. intros []; cbn; auto. Qed.
Print Assumptions C49_metadata.

(** Hence different old events stay different. *)
Theorem C49_injective : forall o o', v8_event_as_current o = v8_event_as_current o' -> o = o'.
Proof. intros [k l a [[s e|t]|v] t'] [k2 l2 a2 [[s2 e2|t2]|v2] t2']; cbn; intros E; inversion E; reflexivity. Qed.
Print Assumptions C49_injective.

Example ex_C49 : v8_event_payload_as_current (OldTimestamp (OldInterval 3 7)) = Timestamp (Interval 3 7).
Proof. reflexivity. Qed.
