(** Properties C01-C05, C42, C48: the paged container.  The model is M_Sink.v / M_Conc.v, the
    vocabulary of the statements S_Sink.v / S_Conc.v. *)
From Coq Require Import ZArith List Lia Bool.
From Verif Require Import M_Base F_Base M_Sink S_Sink M_Conc S_Conc F_Sink F_SinkSeq F_Conc F_Conc2.
Import ListNotations.
Open Scope Z_scope.

(** C01: once all sinks are dropped (in any order, possibly repeatedly), splitting the stored bytes
    gives for each tag exactly the concatenation of the byte strings written to it; a tag is absent
    iff nothing was written to it ([streams_of]). *)
Theorem C01_roundtrip : forall ops drops,
  Forall op_ok ops -> Forall is_drop drops -> (forall t, In (ODrop t) drops) ->
  split_streams (disk (snd (run_ops (ops ++ drops) mem0)))
  = Ok (streams_of (fun t => written t ops)).
Proof. exact roundtrip. Qed.
Print Assumptions C01_roundtrip.

(** C01, in-memory variant: [into_bytes] of a sink returns what was written to it. *)
Theorem C01_into_bytes : forall ops t,
  Forall op_ok ops -> into_bytes t (snd (run_ops ops mem0)) = Ok (written t ops).
Proof. exact into_bytes_ok. Qed.
Print Assumptions C01_into_bytes.

(** A non-trivial case: 300000 bytes in one go, a 3-byte callback write and a flush in between. *)
Definition ex_ops : list op :=
  [OWriteBytes TEvents (zeros 300000); OWriteAtomic TStrData 3 (fun _ => ([7; 8; 9], false));
   OStdFlush TStrData; OStdWrite TEvents [1; 2]; OWriteAtomic TStrData 2 (fun _ => ([4; 5], false))].
Example ex_ops_ok : Forall op_ok ex_ops.
Proof.
  unfold ex_ops. repeat (constructor; simpl; auto); unfold zlen; simpl; lia.
Qed.
Example ex_C01 :
  match split_streams (disk (snd (run_ops (ex_ops ++ [ODrop TStrIndex; ODrop TEvents; ODrop TStrData]) mem0))) with
  | Ok (TM (Some e) (Some d) None) =>
      (zlen e =? 300002) && beq d [7; 8; 9; 4; 5] && beq (zdrop 300000 e) [1; 2]
  | _ => false
  end = true.
Proof. vm_compute. reflexivity. Qed.

(** C02: every write returns the number of bytes written before to the same sink (the adapter
    returns the length of the slice, flush and drop nothing) ... *)
Theorem C02_address : forall ops1 o ops2,
  Forall op_ok (ops1 ++ o :: ops2) ->
  nth_error (fst (run_ops (ops1 ++ o :: ops2) mem0)) (length ops1)
  = Some (Ok (op_result o (zlen (written (op_tag o) ops1)))).
Proof. exact result_at. Qed.
Print Assumptions C02_address.

(** ... and in the finally reconstructed stream the bytes at that address are the data written. *)
Theorem C02_data_at_address : forall ops1 o ops2 drops a,
  Forall op_ok (ops1 ++ o :: ops2) -> Forall is_drop drops -> (forall t, In (ODrop t) drops) ->
  (exists t n cb, o = OWriteAtomic t n cb) \/ (exists t bs, o = OWriteBytes t bs) ->
  nth_error (fst (run_ops (ops1 ++ o :: ops2) mem0)) (length ops1) = Some (Ok a) ->
  op_data o <> [] ->
  exists s, split_streams (disk (snd (run_ops ((ops1 ++ o :: ops2) ++ drops) mem0))) = Ok s /\
    exists stream, tget (op_tag o) s = Some stream /\
      0 <= a /\ a + zlen (op_data o) <= zlen stream /\
      zslice a (a + zlen (op_data o)) stream = op_data o.
Proof.
  intros ops1 o ops2 drops a Hok Hd Hin Hw Ha Hne.
  rewrite roundtrip by auto. eexists; split; [reflexivity|].
  rewrite result_at in Ha by auto. inversion Ha as [Ea]; clear Ha.
  assert (op_result o (zlen (written (op_tag o) ops1)) = zlen (written (op_tag o) ops1)) as Er
    by (destruct Hw as [(t & n & cb & ->)|(t & bs & ->)]; reflexivity).
  rewrite Er.
  exists (written (op_tag o) (ops1 ++ o :: ops2)).
  assert (Ew : written (op_tag o) (ops1 ++ o :: ops2)
               = written (op_tag o) ops1 ++ op_data o ++ written (op_tag o) ops2)
    by (rewrite written_app; simpl; rewrite tag_eqb_refl; auto).
  split; [|split; [apply zlen_nonneg|split]].
  - assert (forall f t, tget t (streams_of f) = present (f t)) as E by (intros f []; reflexivity).
    rewrite E, Ew. unfold present.
    destruct (written (op_tag o) ops1); [destruct (op_data o); [congruence|reflexivity]|reflexivity].
  - rewrite Ew, !zlen_app. pose proof (zlen_nonneg (written (op_tag o) ops2)). lia.
  - apply data_at; auto.
Qed.
Print Assumptions C02_data_at_address.
Example ex_C02 : fst (run_ops ex_ops mem0) = [Ok 0; Ok 0; Ok 0; Ok 2; Ok 3].
Proof. vm_compute. reflexivity. Qed.

(** C03: at any moment the backing storage is a sequence of well-formed pages, none empty, none
    larger than 256 KiB, holding a prefix of each stream; calls never panic (the page-size assertion
    does not fire) and the storage only ever grows at the end. *)
Theorem C03_pages : forall ops, Forall op_ok ops ->
  exists pages, disk (snd (run_ops ops mem0)) = enc_pages pages /\ Forall page_ok pages /\
    forall t, prefix (stream t pages) (written t ops).
Proof. exact pages_discipline. Qed.
Print Assumptions C03_pages.

Theorem C03_no_panic : forall ops, Forall op_ok ops ->
  Forall (fun r => exists a, r = Ok a) (fst (run_ops ops mem0)).
Proof.
  intros ops H. rewrite results by auto. clear H. generalize (@nil op).
  induction ops; intros b; simpl; constructor; eauto.
Qed.
Print Assumptions C03_no_panic.

Theorem C03_append_only : forall ops1 ops2, Forall op_ok (ops1 ++ ops2) ->
  prefix (disk (snd (run_ops ops1 mem0))) (disk (snd (run_ops (ops1 ++ ops2) mem0))).
Proof. exact disk_append_only. Qed.
Print Assumptions C03_append_only.

(** C04: for every schedule there is a way to insert one linearization point per call, between its
    invocation and its return, such that the results returned are those of executing the calls one
    after the other in that order; no call panics; and once all calls have returned and the sinks
    are dropped the streams are the concatenation of the data in that same order. *)
Theorem C04_linearizable : forall acts, acts_ok acts ->
  let c := exec acts conf0 in
  exists g, erase g = hist c /\
    (forall tid, exists s, protocol tid (proj tid g) s) /\
    sequentially_correct (lins g) /\
    (forall tid, ~ In (HPanic tid) (hist c)) /\
    (all_idle c ->
       (forall tid, protocol tid (proj tid g) TIdle) /\
       forall drops, Forall is_drop drops -> (forall t, In (ODrop t) drops) ->
         split_streams (disk (snd (run_ops drops (cmem c))))
         = Ok (streams_of (fun t => written t (lin_ops g)))).
Proof.
  intros acts Hok c.
  assert (Hc : cinv (fun _ => False) c)
    by (apply cinv_exec; [apply acts_ok_good; auto|apply cinv0]).
  pose proof Hc as (pages & part & g & Hd & Hp & Hh & Hsc & Hth & Hrest).
  assert (HP : forall g tid, ~ In (HPanic tid) (erase g)).
  { clear. intros g tid. induction g as [|[] g IH]; simpl; auto; intros [?|?]; try discriminate; auto. }
  exists g. split; auto. split; [intros tid; destruct (Hth tid) as (s & ? & _); eauto|].
  split; auto. split; [rewrite <- Hh; auto|].
  intros Hi.
  assert (Hnone : forall x, holds_none (cmem c) x /\ protocol x (proj x g) TIdle).
  { intros x. destruct (Hth x) as (s & Hpr & Hti). rewrite Hi in Hti.
    destruct s; simpl in Hti; [tauto|destruct Hti; discriminate|].
    destruct Hti as [[? ?]|(q & cur & ? & _)]; discriminate. }
  split; [intros; apply Hnone|].
  intros drops Hdr Hin.
  assert (Hinv : seq_inv (lin_ops g) (cmem c)).
  { destruct Hrest as (Hfree & Hsh & _).
    assert (Hl : forall t, tget t (slk (cmem c)) = None).
    { intros t. destruct (tget t (slk (cmem c))) as [x|] eqn:E; auto.
      destruct (Hnone x) as [[H _] _]. exfalso; eapply H; eauto. }
    assert (Hs : shl (cmem c) = None).
    { destruct (shl (cmem c)) as [x|] eqn:E; auto. destruct (Hnone x) as [[_ H] _]. congruence. }
    exists pages. rewrite Hd, (Hsh Hs), app_nil_r. repeat (split; auto).
    apply tmap_ext. intros t. rewrite tget_tconst. auto. }
  pose proof (run_drops drops _ _ Hdr Hinv) as Hb.
  destruct (run_ops_seq drops _ _ (drops_ok _ Hdr) Hinv) as (m2 & n2 & Hr2 & Hi2 & _).
  rewrite Hr2 in *. simpl in *. rewrite (seq_inv_closed _ _ Hi2) by auto.
  f_equal. unfold streams_of. rewrite !written_app, !(written_drops _ drops), !app_nil_r by auto. reflexivity.
Qed.
Print Assumptions C04_linearizable.

(** C04, contiguity: in a sequentially correct order every write's bytes sit at the address that the
    write returned. *)
Theorem C04_contiguous : forall l o r,
  sequentially_correct l -> In (o, r) l ->
  (exists t n cb, o = OWriteAtomic t n cb) \/ (exists t bs, o = OWriteBytes t bs) ->
  zslice r (r + zlen (op_data o)) (written (op_tag o) (map fst l)) = op_data o.
Proof.
  intros l o r Hs Hin Hw. apply in_split in Hin. destruct Hin as (l1 & l2 & ->).
  rewrite (Hs l1 o r l2 eq_refl).
  replace (op_result o (zlen (written (op_tag o) (map fst l1)))) with (zlen (written (op_tag o) (map fst l1)))
    by (destruct Hw as [(t & n & cb & ->)|(t & bs & ->)]; reflexivity).
  rewrite map_app. simpl. apply data_at; auto.
Qed.
Print Assumptions C04_contiguous.

(** C04, no deadlock: from every reachable state the calls in progress can all be completed without
    any new call being made. *)
Theorem C04_no_deadlock : forall acts, acts_ok acts ->
  exists l, ticks l /\ all_idle (exec (acts ++ l) conf0).
Proof. exact completion. Qed.
Print Assumptions C04_no_deadlock.

(** A schedule with two threads racing for the same sink while a third writes a large chunk. *)
Definition ex_acts : list action :=
  [Invoke 1 (OWriteBytes TEvents [1; 2; 3]); Invoke 2 (OWriteBytes TEvents [4]);
   Invoke 3 (OWriteBytes TStrData (zeros 300000)); Tick 3; Tick 3; Tick 2; Tick 1; Tick 3; Tick 2; Tick 1;
   Tick 2; Tick 1; Tick 3; Invoke 2 (OStdFlush TEvents)].
Example ex_acts_ok : acts_ok ex_acts.
Proof. intros tid o H. simpl in H. repeat (destruct H as [H|H]; [inversion H; subst; simpl; auto; fail|]). destruct H. Qed.
Example ex_C04 : hist (exec (firstn 3 ex_acts ++ repeat (Tick 2) 3 ++ repeat (Tick 1) 3) conf0)
  = [HInv 1 (OWriteBytes TEvents [1; 2; 3]); HInv 2 (OWriteBytes TEvents [4]);
     HInv 3 (OWriteBytes TStrData (zeros 300000)); HRet 2 0; HRet 1 1].
Proof. reflexivity. Qed.

(** C05: whenever the process dies, the file (any prefix [b] of what has been handed to the OS, so
    also in the middle of a [write_all]) is a sequence of complete pages followed by a proper prefix
    of one page, and the streams in the complete pages are prefixes of what was written. *)
Theorem C05_crash_prefix : forall acts b, acts_ok acts ->
  prefix b (disk (cmem (exec acts conf0))) ->
  exists g pages rest,
    erase g = hist (exec acts conf0) /\
    (forall tid, exists s, protocol tid (proj tid g) s) /\
    sequentially_correct (lins g) /\
    b = enc_pages pages ++ rest /\ Forall page_ok pages /\
    (rest = [] \/ exists p, page_ok p /\ prefix rest (enc_page p) /\ zlen rest < zlen (enc_page p)) /\
    (forall t, prefix (stream t pages) (written t (lin_ops g))).
Proof.
  intros acts b Hok Hb.
  destruct (crash (fun _ => False) acts b (acts_ok_good _ Hok) Hb)
    as (g & pages & rest & H1 & H2 & H3 & H4 & H5 & H6 & H7 & _).
  exists g, pages, rest. repeat (split; auto).
Qed.
Print Assumptions C05_crash_prefix.
Example ex_C05 : (* thread 3 is in the middle of a page: tag and size are out, the payload is not *)
  disk (cmem (exec ex_acts conf0)) = [1] ++ le_bytes 4 131072 /\
  acts_ok ex_acts.
Proof. split; [vm_compute; reflexivity|exact ex_acts_ok]. Qed.

(** C48: [split_streams] succeeds exactly on concatenations of well-formed pages ... *)
Theorem C48_split_accepts : forall data, bytes_ok data ->
  (forall r, split_streams data = Ok r <->
     exists ps, Forall page_wf ps /\ data = enc_pages ps /\ r = streams_of (fun t => stream t ps)) /\
  (split_streams data = Panic <-> ~ exists ps, Forall page_wf ps /\ data = enc_pages ps).
Proof. exact split_accepts. Qed.
Print Assumptions C48_split_accepts.

(** ... and is a homomorphism: the streams of a concatenation are the appended streams. *)
Theorem C48_split_append : forall a b ra rb, bytes_ok a -> bytes_ok b ->
  split_streams a = Ok ra -> split_streams b = Ok rb ->
  exists r, split_streams (a ++ b) = Ok r /\
    forall t, tget t r = match tget t ra, tget t rb with
                         | Some x, Some y => Some (x ++ y)
                         | Some x, None => Some x
                         | None, y => y
                         end.
Proof.
  intros a b ra rb Ha Hb Sa Sb.
  destruct (proj1 (proj1 (split_accepts a Ha) ra) Sa) as (pa & Pa & -> & ->).
  destruct (proj1 (proj1 (split_accepts b Hb) rb) Sb) as (pb & Pb & -> & ->).
  rewrite <- enc_pages_app, split_pages by (apply Forall_app; auto).
  eexists; split; [reflexivity|]. intros t.
  assert (forall f t, tget t (streams_of f) = present (f t)) as E by (intros f []; reflexivity).
  rewrite !E, stream_app. unfold present.
  destruct (stream t pa), (stream t pb); simpl; auto. rewrite app_nil_r. auto.
Qed.
Print Assumptions C48_split_append.

(** C48, crash files: a file that ends in a partial page is not accepted but makes the reader panic
    (not return an error). *)
Theorem C48_partial_page_panics : forall ps rest p,
  Forall page_wf ps -> bytes_ok rest -> page_wf p -> rest <> [] ->
  prefix rest (enc_page p) -> zlen rest < zlen (enc_page p) ->
  split_streams (enc_pages ps ++ rest) = Panic.
Proof.
  intros ps rest p Hps Hrb Hp Hr [z Hz] Hl. unfold split_streams.
  rewrite split_loop_pages; auto; [|rewrite app_length; lia].
  pose proof (length_enc_pages_ge ps).
  destruct (length (enc_pages ps ++ rest) - length ps)%nat as [|f] eqn:Ef.
  { rewrite app_length in Ef. destruct rest; [congruence|simpl in Ef; lia]. }
  destruct rest as [|tb rest]; [congruence|]. cbn [split_loop].
  destruct p as [t b]. unfold page_wf in Hp. cbn [snd] in Hp.
  rewrite enc_page_len in Hl. unfold enc_page in Hz. cbn [fst snd app] in Hz, Hl.
  assert (Htb : tb = page_tag t) by congruence. subst tb. rewrite tag_of_byte_byte.
  assert (Hz' : le_bytes 4 (zlen b) ++ b = rest ++ z) by (inversion Hz; auto). clear Hz.
  rewrite zlen_cons in Hl.
  destruct (Z.ltb_spec (zlen rest) 4); auto.
  assert (E4 : ztake 4 rest = le_bytes 4 (zlen b)).
  { apply (f_equal (ztake 4)) in Hz'. rewrite ztake_app_eq in Hz' by (rewrite zlen_le_bytes; auto).
    rewrite ztake_app_le in Hz' by lia. auto. }
  rewrite E4, le_val_bytes_small by (simpl Z.of_nat; lia).
  destruct (Z.leb_spec (zlen b) 0); auto.
  destruct (Z.ltb_spec (zlen (zdrop 4 rest)) (zlen b)); auto.
  rewrite zlen_zdrop in * by lia. lia.
Qed.
Print Assumptions C48_partial_page_panics.
Example ex_C48 : split_streams ([0; 2; 0; 0; 0; 7; 8] ++ [1; 1; 0; 0; 0; 9]) = Ok (TM (Some [7; 8]) (Some [9]) None)
  /\ split_streams [0; 2; 0; 0; 0; 7] = Panic /\ split_streams [3; 1; 0; 0; 0; 7] = Panic
  /\ split_streams [0; 0; 0; 0; 0] = Panic.
Proof. vm_compute. auto. Qed.

(** C42 is false: after a caught panic of the callback the sink has kept the bytes of the failed
    write but not advanced its address, so every later address is too small. *)
Theorem C42_panicking_callback_refuted :
  exists ops drops a s,
    ops = [OWriteAtomic TEvents 4 (fun z => (z, true)); OWriteBytes TEvents [1; 2]] /\
    drops = [ODrop TEvents; ODrop TStrData; ODrop TStrIndex] /\
    fst (run_ops ops mem0) = [Panic; Ok a] /\
    split_streams (disk (snd (run_ops (ops ++ drops) mem0))) = Ok (TM (Some s) None None) /\
    zslice a (a + 2) s <> [1; 2].
Proof.
  do 4 eexists. split; [reflexivity|]. split; [reflexivity|]. split; [vm_compute; reflexivity|].
  split; [vm_compute; reflexivity|]. vm_compute. congruence.
Qed.
Print Assumptions C42_panicking_callback_refuted.
