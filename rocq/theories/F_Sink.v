(** Proofs about single sink operations and [split_streams]. *)
From Coq Require Import ZArith List Lia Bool.
From Verif Require Import M_Base F_Base M_Sink S_Sink.
Import ListNotations.
Open Scope Z_scope.

Lemma tag_eqb_refl t : tag_eqb t t = true.
Proof. destruct t; reflexivity. Qed.
Lemma tag_eqb_eq a b : tag_eqb a b = true <-> a = b.
Proof. destruct a, b; simpl; split; congruence. Qed.
Lemma tag_eqb_neq a b : tag_eqb a b = false <-> a <> b.
Proof. destruct a, b; simpl; split; congruence. Qed.
Lemma tag_eq_dec (a b : tag) : {a = b} + {a <> b}.
Proof. decide equality. Qed.

Lemma tget_tset_same {A} t (v : A) m : tget t (tset t v m) = v.
Proof. destruct t; reflexivity. Qed.
Lemma tget_tset_other {A} t t' (v : A) m : t' <> t -> tget t' (tset t v m) = tget t' m.
Proof. destruct t, t'; simpl; congruence. Qed.
Lemma tget_tconst {A} t (v : A) : tget t (tconst v) = v.
Proof. destruct t; reflexivity. Qed.
Lemma tmap_ext {A} (a b : tmap A) : (forall t, tget t a = tget t b) -> a = b.
Proof.
  intros H. destruct a, b. pose proof (H TEvents); pose proof (H TStrData); pose proof (H TStrIndex).
  simpl in *; congruence.
Qed.

Lemma tag_of_byte_byte t : tag_of_byte (page_tag t) = Some t.
Proof. destruct t; reflexivity. Qed.
Lemma tag_of_byte_some b t : tag_of_byte b = Some t -> b = page_tag t.
Proof.
  unfold tag_of_byte. destruct (Z.eqb_spec b 0); [intros E; inversion E; auto|].
  destruct (Z.eqb_spec b 1); [intros E; inversion E; auto|].
  destruct (Z.eqb_spec b 2); [intros E; inversion E; auto|]. discriminate.
Qed.

Lemma stream_app t a b : stream t (a ++ b) = stream t a ++ stream t b.
Proof.
  induction a as [|[t' x] a IH]; simpl; auto. rewrite IH, app_assoc. reflexivity.
Qed.
Lemma stream_snoc t ps t' b :
  stream t (ps ++ [(t', b)]) = stream t ps ++ (if tag_eqb t' t then b else []).
Proof. rewrite stream_app. simpl. rewrite app_nil_r. reflexivity. Qed.
Lemma enc_pages_app a b : enc_pages (a ++ b) = enc_pages a ++ enc_pages b.
Proof. unfold enc_pages. rewrite map_app, concat_app. reflexivity. Qed.
Lemma enc_pages_snoc a p : enc_pages (a ++ [p]) = enc_pages a ++ enc_page p.
Proof. rewrite enc_pages_app. unfold enc_pages at 2. simpl. rewrite app_nil_r. reflexivity. Qed.

Lemma written_app t a b : written t (a ++ b) = written t a ++ written t b.
Proof. induction a; simpl; auto. rewrite IHa, app_assoc. reflexivity. Qed.
Lemma written_snoc t a o :
  written t (a ++ [o]) = written t a ++ (if tag_eqb (op_tag o) t then op_data o else []).
Proof. rewrite written_app. simpl. rewrite app_nil_r. reflexivity. Qed.

(** ** chunks *)
Lemma chunks_fuel_concat {A} fuel n (l : list A) :
  0 < n -> (length l <= fuel)%nat -> concat (chunks_fuel fuel n l) = l.
Proof.
  intros Hn. revert l. induction fuel; intros l Hl.
  - destruct l; simpl in *; auto; lia.
  - destruct l as [|x l]; auto. cbn [chunks_fuel concat].
    rewrite IHfuel; [apply ztake_zdrop|].
    unfold zdrop. rewrite skipn_length. simpl length in *. lia.
Qed.

Lemma chunks_concat {A} n (l : list A) : 0 < n -> concat (chunks n l) = l.
Proof. intros; apply chunks_fuel_concat; auto. Qed.

(** all chunks but the last are of size [n]; the last has between 1 and [n] elements *)
Inductive chunked {A} (n : Z) : list (list A) -> Prop :=
| ck_nil : chunked n []
| ck_last c : 0 < zlen c <= n -> chunked n [c]
| ck_cons c cs : zlen c = n -> chunked n cs -> chunked n (c :: cs).

Lemma chunks_fuel_chunked {A} fuel n (l : list A) : 0 < n -> chunked n (chunks_fuel fuel n l).
Proof.
  intros Hn. revert l. induction fuel; intros l; [constructor|].
  destruct l as [|x l]; [constructor|]. cbn [chunks_fuel].
  destruct (Z_le_gt_dec (zlen (x :: l)) n).
  - rewrite (zdrop_all n (x :: l)) by auto. rewrite ztake_all by auto.
    assert (chunks_fuel fuel n (@nil A) = []) as -> by (destruct fuel; reflexivity).
    apply ck_last. rewrite zlen_cons in *. pose proof (zlen_nonneg l). lia.
  - apply ck_cons; [|apply IHfuel]. apply zlen_ztake. lia.
Qed.

Lemma chunks_chunked {A} n (l : list A) : 0 < n -> chunked n (chunks n l).
Proof. intros; apply chunks_fuel_chunked; auto. Qed.

(** ** Residual programs of a call that has taken the sink lock

    [okp t L Q F r P cur p]: the thread holds the lock of sink [t]; [P] is what complete pages hold of
    stream [t]; [cur] is the page being written (payload, bytes of it already on disk) if the thread
    holds the shared lock; running [p] leads to a state where the pages and the buffer together hold
    [L] (with [F] true of the buffer), every page is written when [Q] holds of the new [P], and the
    call returns [r]. *)
Inductive okp (t : tag) (L : bytes) (Q F : bytes -> Prop) (r : Z)
  : bytes -> option (bytes * bytes) -> prog -> Prop :=
| ok_fin P s :
    P ++ sbuf s = L -> saddr s = zlen L -> zlen (sbuf s) <= MAX_PAGE_SIZE -> F (sbuf s) ->
    okp t L Q F r P None (UnlockSink t s (Done r))
| ok_lock P pl k : okp t L Q F r P (Some (pl, [])) k -> okp t L Q F r P None (LockShared k)
| ok_write P pl part bs k :
    prefix (part ++ bs) (enc_page (t, pl)) ->
    okp t L Q F r P (Some (pl, part ++ bs)) k ->
    okp t L Q F r P (Some (pl, part)) (WriteAll bs k)
| ok_page P pl part k :
    part = enc_page (t, pl) -> page_ok (t, pl) -> Q (P ++ pl) ->
    okp t L Q F r (P ++ pl) None k ->
    okp t L Q F r P (Some (pl, part)) (UnlockShared k)
| ok_nopage P k :
    okp t L Q F r P None k -> okp t L Q F r P (Some ([], [])) (UnlockShared k).

Lemma okp_prefix t L Q F r P cur p :
  okp t L Q F r P cur p -> prefix (P ++ match cur with Some (pl, _) => pl | None => [] end) L.
Proof.
  induction 1.
  - exists (sbuf s). rewrite app_nil_r. auto.
  - destruct IHokp as [c ->]. exists (pl ++ c). rewrite app_nil_r, app_assoc. auto.
  - auto.
  - destruct IHokp as [c ->]. exists c. rewrite app_nil_r. auto.
  - auto.
Qed.

Lemma okp_mono t L (Q Q' F : bytes -> Prop) r P cur p :
  (forall x, Q x -> Q' x) -> okp t L Q F r P cur p -> okp t L Q' F r P cur p.
Proof.
  intros HQ. induction 1; try (econstructor; eauto; fail).
Qed.

Lemma okp_write_page t L (Q F : bytes -> Prop) r P bs k :
  zlen bs <= MAX_PAGE_SIZE -> (0 < zlen bs -> Q (P ++ bs)) ->
  okp t L Q F r (P ++ bs) None k -> okp t L Q F r P None (write_page t bs k).
Proof.
  intros Hle HQ Hk. unfold write_page. destruct (Z.ltb_spec 0 (zlen bs)).
  - destruct (Z.leb_spec (zlen bs) MAX_PAGE_SIZE); [|lia].
    apply ok_lock with (pl := bs).
    apply ok_write. { eexists. reflexivity. }
    apply ok_write. { eexists. unfold enc_page. simpl fst; simpl snd. simpl app. rewrite <- ?app_assoc. reflexivity. }
    apply ok_write. { exists []. rewrite app_nil_r. unfold enc_page. simpl. reflexivity. }
    apply ok_page; auto.
    unfold page_ok; simpl. unfold MAX_PAGE_SIZE in *. lia.
  - assert (bs = []) as -> by (apply zlen_0; pose proof (zlen_nonneg bs); lia).
    rewrite app_nil_r in Hk. auto.
Qed.

Lemma write_chunks_ok t L (Q F : bytes -> Prop) r (chs : list bytes) : forall P buf k,
  chunked MAX_PAGE_SIZE chs -> buf = [] ->
  (forall x, Q x) ->
  (forall P' buf', P' ++ buf' = P ++ concat chs -> zlen buf' <= MAX_PAGE_SIZE ->
     okp t L Q F r P' None (k buf')) ->
  okp t L Q F r P None (write_chunks t chs buf k).
Proof.
  intros P buf k H. revert P buf k. induction H as [|c Hc|c cs Hc _ IH]; intros P buf k -> HQ Hk.
  - simpl. apply Hk; auto. unfold zlen; simpl. unfold MAX_PAGE_SIZE; lia.
  - simpl. destruct (Z.eqb_spec (zlen c) MAX_PAGE_SIZE).
    { apply okp_write_page; [lia| auto|]. apply Hk; simpl; rewrite ?app_nil_r; auto. unfold zlen; simpl; unfold MAX_PAGE_SIZE; lia. }
    destruct (Z.leb_spec MIN_PAGE_SIZE (zlen c)).
    { apply okp_write_page; [lia| auto|]. apply Hk; simpl; rewrite ?app_nil_r; auto. unfold zlen; simpl; unfold MAX_PAGE_SIZE; lia. }
    apply Hk; simpl; rewrite ?app_nil_r; auto. lia.
  - cbn [write_chunks]. rewrite Hc, Z.eqb_refl.
    apply okp_write_page; [lia|auto|].
    apply IH; auto. intros P' buf' E. apply Hk. rewrite E. simpl. rewrite app_assoc. auto.
Qed.

(** What holds of a sink whose lock is free: pages plus buffer are the bytes written so far. *)
Definition sink_ok (P L : bytes) (s : sink) : Prop :=
  P ++ sbuf s = L /\ saddr s = zlen L /\ zlen (sbuf s) <= MAX_PAGE_SIZE.

Lemma write_bytes_large_ok t d (F : bytes -> Prop) r :
  forall k, write_bytes_large t d k = LockSink t (fun s => match write_bytes_large t d k with LockSink _ f => f s | _ => Fail end) /\
  forall P L s (Q : bytes -> Prop), sink_ok P L s -> (forall x, Q x) -> (forall x, F x) -> k (zlen L) = Done r ->
    okp t (L ++ d) Q F r P None (match write_bytes_large t d k with LockSink _ f => f s | _ => Fail end).
Proof.
  intros k; split; [reflexivity|]. intros P L s Q (HL & Ha & Hb) HQ HF Hk. cbn.
  set (n := if zlen (sbuf s) <? MIN_PAGE_SIZE then Z.min (MIN_PAGE_SIZE - zlen (sbuf s)) (zlen d) else 0).
  assert (Hn : 0 <= n <= zlen d).
  { unfold n. pose proof (zlen_nonneg d). destruct (Z.ltb_spec (zlen (sbuf s)) MIN_PAGE_SIZE); lia. }
  assert (Hlen : zlen (sbuf s ++ ztake n d) <= MAX_PAGE_SIZE).
  { rewrite zlen_app, zlen_ztake by auto. unfold n.
    assert (MIN_PAGE_SIZE <= MAX_PAGE_SIZE) by (vm_compute; congruence).
    destruct (Z.ltb_spec (zlen (sbuf s)) MIN_PAGE_SIZE); lia. }
  rewrite Ha, Hk.
  destruct (Z.eqb_spec (zlen (zdrop n d)) 0) as [E|E].
  - apply zlen_0 in E. apply ok_fin; simpl; auto.
    + rewrite <- HL. rewrite <- (ztake_zdrop n d) at 2. rewrite E, app_nil_r, app_assoc. auto.
    + rewrite zlen_app. auto.
  - unfold flush. apply okp_write_page; auto.
    apply write_chunks_ok; auto.
    + apply chunks_chunked. unfold MAX_PAGE_SIZE; lia.
    + intros P' buf' HP' Hb'. rewrite chunks_concat in HP' by (unfold MAX_PAGE_SIZE; lia).
      apply ok_fin; simpl; auto.
      * rewrite HP', <- !app_assoc, ztake_zdrop, app_assoc, HL. reflexivity.
      * rewrite zlen_app. auto.
Qed.

(** The program of an admissible call first takes the lock of its sink. *)
Definition starts_ok (t : tag) (d : bytes) (ret : Z -> Z) (unsplit fl : Prop) (F : bytes -> Prop) (p : prog) : Prop :=
  exists k, p = LockSink t k /\
    forall P L s (Q : bytes -> Prop), sink_ok P L s ->
      (unsplit \/ (forall x, Q x)) -> (fl \/ MAX_PAGE_SIZE < zlen L + zlen d -> Q L) ->
      okp t (L ++ d) Q F (ret (zlen L)) P None (k s).

Lemma write_atomic_ok t n cb ret (U : Prop) (F : bytes -> Prop) k :
  0 <= n -> zlen (fst (cb (zeros n))) = n -> snd (cb (zeros n)) = false ->
  (U -> n <= MAX_PAGE_SIZE) -> (forall a, k a = Done (ret a)) -> (forall x, F x) ->
  starts_ok t (fst (cb (zeros n))) ret U False F (write_atomic t n cb k).
Proof.
  intros H0 Hlen Hp HU Hk HF. unfold write_atomic. destruct (cb (zeros n)) as [d pan]. simpl in *. subst pan.
  destruct (Z.ltb_spec MAX_PAGE_SIZE n).
  - unfold starts_ok. destruct (write_bytes_large_ok t d F 0 k) as [E _]. eexists; split; [exact E|].
    intros P L s Q Hs [HUQ|HUQ] HQ; [apply HU in HUQ; lia|].
    destruct (write_bytes_large_ok t d F (ret (zlen L)) k) as [_ H']. apply H'; auto.
  - eexists; split; [reflexivity|]. intros P L s Q (HL & Ha & Hb) HUQ HQ. cbv beta.
    destruct (Z.ltb_spec MAX_PAGE_SIZE (zlen (sbuf s) + n)).
    + unfold flush. apply okp_write_page; [auto| rewrite HL; intros _; apply HQ; right; rewrite <- HL, zlen_app; pose proof (zlen_nonneg P); lia|]. rewrite Ha, Hk.
      rewrite HL. apply ok_fin; simpl; auto; try lia. rewrite zlen_app. lia.
    + rewrite Ha, Hk. apply ok_fin; simpl; auto.
      * rewrite app_assoc, HL. auto.
      * rewrite zlen_app; lia.
      * rewrite zlen_app; lia.
Qed.

Lemma write_bytes_atomic_ok t d ret (U : Prop) (F : bytes -> Prop) k :
  (U -> zlen d <= 128) -> (forall a, k a = Done (ret a)) -> (forall x, F x) ->
  starts_ok t d ret U False F (write_bytes_atomic t d k).
Proof.
  intros HU Hk HF. unfold write_bytes_atomic. destruct (Z.leb_spec (zlen d) 128).
  - apply (write_atomic_ok t (zlen d) (fun _ => (d, false)) ret U F k); auto.
    + apply zlen_nonneg.
    + intros _. unfold MAX_PAGE_SIZE; lia.
  - destruct (write_bytes_large_ok t d F 0 k) as [E _]. eexists; split; [exact E|].
    intros P L s Q Hs [HUQ|HUQ] HQ; [apply HU in HUQ; lia|].
    destruct (write_bytes_large_ok t d F (ret (zlen L)) k) as [_ H']. apply H'; auto.
Qed.

Lemma op_prog_starts o : op_ok o ->
  starts_ok (op_tag o) (op_data o) (op_result o)
    (match o with
     | OWriteAtomic _ n _ => n <= 256 * 1024
     | OWriteBytes _ bs | OStdWrite _ bs => zlen bs <= 128
     | OStdFlush _ | ODrop _ => True
     end)
    (op_flushes o)
    (fun b => match o with OStdFlush _ | ODrop _ => b = [] | _ => True end) (op_prog o).
Proof.
  destruct o as [t n cb|t d|t d|t|t]; simpl; intros Hok.
  - destruct Hok as (H0 & H1 & H2). apply write_atomic_ok; auto.
  - apply write_bytes_atomic_ok; auto.
  - apply write_bytes_atomic_ok with (ret := fun _ => zlen d); auto.
  - eexists; split; [reflexivity|]. intros P L s Q (HL & Ha & Hb) HUQ HQ. unfold flush.
    apply okp_write_page; auto; rewrite HL; auto. apply ok_lock with (pl := []). apply ok_nopage.
    apply ok_fin; simpl; rewrite ?app_nil_r; auto. unfold zlen; simpl; unfold MAX_PAGE_SIZE; lia.
  - eexists; split; [reflexivity|]. intros P L s Q (HL & Ha & Hb) HUQ HQ. unfold flush.
    apply okp_write_page; auto; rewrite HL; auto.
    apply ok_fin; simpl; rewrite ?app_nil_r; auto. unfold zlen; simpl; unfold MAX_PAGE_SIZE; lia.
Qed.

(** ** Splitting *)
Lemma enc_page_len p : zlen (enc_page p) = 5 + zlen (snd p).
Proof. unfold enc_page. rewrite !zlen_app, zlen_le_bytes. unfold zlen at 1. simpl. lia. Qed.

Lemma page_ok_wf p : page_ok p -> page_wf p.
Proof. unfold page_ok, page_wf. lia. Qed.

Definition add_pages (ps : list page) (acc : tmap (option bytes)) : tmap (option bytes) :=
  fold_left (fun acc p => tset (fst p) (Some ((match tget (fst p) acc with Some x => x | None => [] end) ++ snd p)) acc) ps acc.

Lemma split_loop_pages ps : forall fuel rest acc,
  Forall page_wf ps -> (length (enc_pages ps) <= fuel)%nat ->
  split_loop fuel (enc_pages ps ++ rest) acc
  = split_loop (fuel - length ps) rest (add_pages ps acc).
Proof.
  induction ps as [|[t b] ps IH]; intros fuel rest acc Hwf Hf.
  - simpl. rewrite Nat.sub_0_r. reflexivity.
  - inversion Hwf as [|? ? H1 H2]; subst. unfold page_wf in H1; simpl in H1.
    unfold enc_pages in *. cbn [map concat] in *.
    assert (Hf' : (5 + length b + length (concat (map enc_page ps)) <= fuel)%nat).
    { rewrite app_length in Hf. pose proof (enc_page_len (t, b)) as E. unfold zlen in E.
      simpl snd in E. lia. }
    unfold enc_page at 1. simpl fst; simpl snd.
    assert (Hv : le_val (le_bytes 4 (zlen b)) = zlen b)
      by (apply le_val_bytes_small; simpl Z.of_nat; lia).
    assert (Hl : zlen (le_bytes 4 (zlen b)) = 4) by apply zlen_le_bytes.
    revert Hv Hl. generalize (le_bytes 4 (zlen b)) as hb. intros hb Hv Hl.
    rewrite <- !app_assoc. change ([page_tag t] ++ ?x) with (page_tag t :: x).
    destruct fuel as [|fuel]; [simpl in Hf'; lia|].
    cbn [app split_loop]. rewrite tag_of_byte_byte.
    destruct (Z.ltb_spec (zlen (hb ++ b ++ concat (map enc_page ps) ++ rest)) 4) as [H|H].
    { rewrite zlen_app in H. pose proof (zlen_nonneg (b ++ concat (map enc_page ps) ++ rest)). lia. }
    clear H.
    rewrite (ztake_app_eq 4) by auto. rewrite Hv.
    destruct (Z.leb_spec (zlen b) 0); [lia|].
    rewrite (zdrop_app_eq 4) by auto.
    destruct (Z.ltb_spec (zlen (b ++ concat (map enc_page ps) ++ rest)) (zlen b)) as [H'|H'].
    { rewrite zlen_app in H'. pose proof (zlen_nonneg (concat (map enc_page ps) ++ rest)). lia. }
    clear H'.
    rewrite zdrop_app, ztake_app. rewrite IH; auto. lia.
Qed.

Lemma tget_add_pages t ps : forall acc,
  tget t (add_pages ps acc) =
  match tget t acc, stream t ps with
  | None, [] => None
  | None, b => Some b
  | Some a, b => Some (a ++ b)
  end \/ exists x, In (t, x) ps /\ x = [].
Proof.
  induction ps as [|[t' b] ps IH]; intros acc; cbn [stream].
  - left. simpl. destruct (tget t acc); rewrite ?app_nil_r; auto.
  - change (add_pages ((t', b) :: ps) acc)
      with (add_pages ps (tset t' (Some ((match tget t' acc with Some x => x | None => [] end) ++ b)) acc)).
    destruct (IH (tset t' (Some ((match tget t' acc with Some x => x | None => [] end) ++ b)) acc))
      as [E|(x & Hx & ->)]; [|right; exists []; simpl; auto].
    rewrite E. destruct (tag_eqb t' t) eqn:Et.
    + apply tag_eqb_eq in Et; subst t'. rewrite tget_tset_same.
      destruct (tget t acc) eqn:Ea; simpl.
      * left. rewrite app_assoc. auto.
      * destruct b as [|x b]; [right; exists []; auto|]. left. auto.
    + apply tag_eqb_neq in Et. rewrite tget_tset_other by congruence. left. reflexivity.
Qed.

Lemma add_pages_streams ps :
  Forall page_wf ps -> add_pages ps (tconst None) = streams_of (fun t => stream t ps).
Proof.
  intros H. apply tmap_ext. intros t. destruct (tget_add_pages t ps (tconst None)) as [E|(x & Hx & ->)].
  - rewrite E, tget_tconst. unfold streams_of, present. destruct t; simpl; destruct (stream _ ps); auto.
  - rewrite Forall_forall in H. apply H in Hx. unfold page_wf in Hx. simpl in Hx.
    unfold zlen in Hx; simpl in Hx; lia.
Qed.

Lemma length_enc_pages_ge ps : (length ps <= length (enc_pages ps))%nat.
Proof.
  unfold enc_pages. induction ps as [|p ps IH]; simpl; [lia|]. rewrite app_length. lia.
Qed.

Lemma split_pages ps : Forall page_wf ps ->
  split_streams (enc_pages ps) = Ok (streams_of (fun t => stream t ps)).
Proof.
  intros H. unfold split_streams. rewrite <- (app_nil_r (enc_pages ps)) at 2.
  rewrite split_loop_pages by auto. rewrite <- add_pages_streams by auto.
  destruct (length (enc_pages ps) - length ps)%nat; reflexivity.
Qed.

Lemma split_loop_ok fuel : forall data acc r,
  bytes_ok data -> split_loop fuel data acc = Ok r ->
  exists ps, Forall page_wf ps /\ data = enc_pages ps /\ r = add_pages ps acc.
Proof.
  induction fuel; intros data acc r Hb H; destruct data as [|tb rest]; simpl in H; try discriminate.
  - inversion H; subst. exists []. auto.
  - inversion H; subst. exists []. auto.
  - destruct (tag_of_byte tb) eqn:Et; [|discriminate].
    destruct (Z.ltb_spec (zlen rest) 4); [discriminate|].
    destruct (Z.leb_spec (le_val (ztake 4 rest)) 0); [discriminate|].
    destruct (Z.ltb_spec (zlen (zdrop 4 rest)) (le_val (ztake 4 rest))); [discriminate|].
    set (n := le_val (ztake 4 rest)) in *.
    inversion Hb as [|? ? Hb1 Hb2]; subst.
    rewrite <- (ztake_zdrop 4 rest) in Hb2. apply bytes_ok_app in Hb2. destruct Hb2 as [Hb2 Hb3].
    rewrite <- (ztake_zdrop n (zdrop 4 rest)) in Hb3. apply bytes_ok_app in Hb3. destruct Hb3 as [Hb3 Hb4].
    apply IHfuel in H; auto. destruct H as (ps & Hps & Hd & ->).
    assert (Hl4 : zlen (ztake 4 rest) = 4) by (apply zlen_ztake; lia).
    assert (Hln : zlen (ztake n (zdrop 4 rest)) = n) by (apply zlen_ztake; lia).
    exists ((t, ztake n (zdrop 4 rest)) :: ps). split; [|split].
    + constructor; auto. unfold page_wf. simpl. rewrite Hln.
      pose proof (le_val_range _ Hb2) as Hr. rewrite Hl4 in Hr. unfold n. lia.
    + unfold enc_pages. cbn [map concat]. unfold enc_page at 1. cbn [fst snd].
      apply tag_of_byte_some in Et. subst tb. rewrite Hln.
      assert (le_bytes 4 n = ztake 4 rest) as ->.
      { unfold n. replace 4%nat with (length (ztake 4 rest)) by (unfold zlen in Hl4; lia).
        apply le_bytes_val; auto. }
      fold (enc_pages ps). rewrite <- !app_assoc, <- Hd, !ztake_zdrop. reflexivity.
    + reflexivity.
Qed.

Lemma split_loop_no_err fuel : forall data acc, (length data <= fuel)%nat ->
  split_loop fuel data acc = Panic \/ exists r, split_loop fuel data acc = Ok r.
Proof.
  induction fuel; intros data acc Hf; destruct data as [|tb rest]; simpl in *; eauto; try lia.
  destruct (tag_of_byte tb); auto. destruct (zlen rest <? 4) eqn:E4; auto.
  destruct (le_val (ztake 4 rest) <=? 0); auto.
  destruct (zlen (zdrop 4 rest) <? le_val (ztake 4 rest)); auto.
  apply IHfuel. unfold zdrop. rewrite !skipn_length. lia.
Qed.
