(** C89: callbacks of write_atomic that use the sinks.  Model M_Nested.v, specification S_Nested.v. *)
From Coq Require Import ZArith List Lia Bool.
From Verif Require Import M_Base F_Base M_Sink S_Sink F_Sink F_SinkSeq M_Nested S_Nested.
Import ListNotations.
Open Scope Z_scope.

Fixpoint nop_ind' (P : nop -> Prop) (HP : forall o, P (Plain o)) (HW : forall t n inner bs, Forall P inner -> P (Within t n inner bs)) (c : nop) : P c :=
  match c with
  | Plain o => HP o
  | Within t n inner bs => HW t n inner bs ((fix all l := match l return Forall P l with [] => Forall_nil P | c' :: l' => Forall_cons c' (nop_ind' P HP HW c') (all l') end) inner)
  end.

Lemma run_pbind k : forall p m, run (pbind p k) m = match run p m with (Ok r, m') => run (k r) m' | (Err, m') => (Err, m') | (Panic, m') => (Panic, m') | (Diverge, m') => (Diverge, m') end.
Proof.
  induction p as [r| |t f IH|t s p IH|p IH|bs p IH|p IH]; intros m; cbn [pbind run]; auto.
  - destruct (tget t (slk m)); auto.
  - destruct (shl m); auto.
Qed.

(** [m] is [m0] with the sinks of [h] locked (by the only thread) and possibly other contents in them. *)
Definition hold (h : list tag) (m0 m : mem) : Prop :=
  disk m = disk m0 /\ shl m = shl m0 /\ (forall t, In t h -> tget t (slk m) = Some 0) /\
  forall t, ~ In t h -> tget t (slk m) = tget t (slk m0) /\ tget t (sinks m) = tget t (sinks m0).
Inductive avoids (h : list tag) : prog -> Prop :=
| av_done r : avoids h (Done r)
| av_fail : avoids h Fail
| av_lock t k : ~ In t h -> (forall s, avoids h (k s)) -> avoids h (LockSink t k)
| av_unlock t s k : ~ In t h -> avoids h k -> avoids h (UnlockSink t s k)
| av_shared k : avoids h k -> avoids h (LockShared k)
| av_write bs k : avoids h k -> avoids h (WriteAll bs k)
| av_unshared k : avoids h k -> avoids h (UnlockShared k).

Lemma run_hold h p : avoids h p -> forall m0 m, hold h m0 m -> exists m', run p m = (fst (run p m0), m') /\ hold h (snd (run p m0)) m' /\ forall t, In t h -> tget t (sinks m') = tget t (sinks m).
Proof.
  induction 1 as [r| |t k Ht _ IH|t s k Ht _ IH|k _ IH|bs k _ IH|k _ IH]; intros m0 m (D & L & H & N); cbn [run].
  - exists m. split; [reflexivity|]. split; [split; auto|auto].
  - exists m. split; [reflexivity|]. split; [split; auto|auto].
  - destruct (N t Ht) as (N1 & N2). rewrite N1. destruct (tget t (slk m0)) eqn:E.
    + exists m. split; [reflexivity|]. split; [split; auto|auto].
    + rewrite N2. apply (IH (tget t (sinks m0)) (mkMem (disk m0) (sinks m0) (tset t (Some 0) (slk m0)) (shl m0)) (mkMem (disk m) (sinks m) (tset t (Some 0) (slk m)) (shl m))).
      split; [exact D|]. split; [exact L|]. cbn [slk sinks]. split.
      * intros t' Ht'. rewrite tget_tset_other by congruence. auto.
      * intros t' Ht'. split; [|apply N, Ht']. destruct (tag_eq_dec t' t) as [->|Ne]; [rewrite !tget_tset_same; reflexivity|rewrite !tget_tset_other by exact Ne; apply N, Ht'].
  - edestruct (IH (mkMem (disk m0) (tset t s (sinks m0)) (tset t None (slk m0)) (shl m0)) (mkMem (disk m) (tset t s (sinks m)) (tset t None (slk m)) (shl m))) as (m' & R & HH & S).
    { split; [exact D|]. split; [exact L|]. cbn [slk sinks]. split.
      * intros t' Ht'. rewrite tget_tset_other by congruence. auto.
      * intros t' Ht'. destruct (tag_eq_dec t' t) as [->|Ne]; [rewrite !tget_tset_same; auto|rewrite !tget_tset_other by exact Ne; apply N, Ht']. }
    exists m'. split; [exact R|]. split; [exact HH|]. intros t' Ht'. rewrite (S t' Ht'). cbn [sinks]. apply tget_tset_other. congruence.
  - rewrite L. destruct (shl m0) eqn:E.
    + exists m. split; [reflexivity|]. split; [split; [exact D|split; [cbn [snd]; congruence|auto]]|auto].
    + apply (IH (mkMem (disk m0) (sinks m0) (slk m0) (Some 0)) (mkMem (disk m) (sinks m) (slk m) (Some 0))). split; [exact D|]. split; [reflexivity|]. split; auto.
  - apply (IH (mkMem (disk m0 ++ bs) (sinks m0) (slk m0) (shl m0)) (mkMem (disk m ++ bs) (sinks m) (slk m) (shl m))). split; [cbn; congruence|]. split; [exact L|]. split; auto.
  - apply (IH (mkMem (disk m0) (sinks m0) (slk m0) None) (mkMem (disk m) (sinks m) (slk m) None)). split; [exact D|]. split; [reflexivity|]. split; auto.
Qed.

Lemma avoids_page h t bs k : avoids h k -> avoids h (write_page t bs k).
Proof. intros H. unfold write_page. destruct (_ <? _); [|exact H]. destruct (_ <=? _); repeat constructor. exact H. Qed.
Lemma avoids_chunks h t k : (forall b, avoids h (k b)) -> forall chs b, avoids h (write_chunks t chs b k).
Proof.
  intros H. induction chs as [|c chs IH]; intros b; cbn [write_chunks]; [apply H|].
  destruct (_ =? _); [apply avoids_page, IH|]. destruct (_ <=? _); [apply avoids_page, IH|]. destruct (_ =? _); [apply IH|constructor].
Qed.
Lemma avoids_large h t bs k : ~ In t h -> (forall r, avoids h (k r)) -> avoids h (write_bytes_large t bs k).
Proof.
  intros Ht H. unfold write_bytes_large. constructor; [exact Ht|]. intros s. cbv zeta. destruct (_ =? 0); [constructor; auto|].
  unfold flush. apply avoids_page, avoids_chunks. intros b. constructor; auto.
Qed.
Lemma avoids_atomic h t n cb k : ~ In t h -> (forall r, avoids h (k r)) -> avoids h (write_atomic t n cb k).
Proof.
  intros Ht H. unfold write_atomic. destruct (_ <? _).
  - destruct (cb _) as (bs & []); [constructor|]. apply avoids_large; auto.
  - constructor; [exact Ht|]. intros s. cbv zeta. assert (B : forall b : bytes, avoids h (let '(bs, panicked) := cb (zeros n) in
      if panicked then UnlockSink t (mkSink (b ++ bs) (saddr s)) Fail else UnlockSink t (mkSink (b ++ bs) (saddr s + n)) (k (saddr s)))).
    { intros b. destruct (cb _) as (bs & []); constructor; auto. constructor. }
    destruct (_ <? _); [unfold flush; apply avoids_page, B|apply B].
Qed.
Lemma avoids_bytes h t bs k : ~ In t h -> (forall r, avoids h (k r)) -> avoids h (write_bytes_atomic t bs k).
Proof. intros Ht H. unfold write_bytes_atomic. destruct (_ <=? _); [apply avoids_atomic|apply avoids_large]; auto. Qed.
Lemma avoids_op h o : ~ In (op_tag o) h -> avoids h (op_prog o).
Proof.
  intros H. destruct o; cbn [op_tag op_prog] in *.
  - apply avoids_atomic; auto. constructor.
  - apply avoids_bytes; auto. constructor.
  - apply avoids_bytes; auto. constructor.
  - unfold std_flush. constructor; [exact H|]. intros s. unfold flush. apply avoids_page. repeat constructor; auto.
  - unfold drop_sink. constructor; [exact H|]. intros s. unfold flush. apply avoids_page. repeat constructor; auto.
Qed.

(** What writing a page does to the storage. *)
Definition paged (t : tag) (bs : bytes) : bytes := if 0 <? zlen bs then [tag_byte t] ++ le_bytes 4 (zlen bs) ++ bs else [].
Lemma run_page t bs k m : zlen bs <= MAX_PAGE_SIZE -> shl m = None -> run (write_page t bs k) m = run k (mkMem (disk m ++ paged t bs) (sinks m) (slk m) None).
Proof.
  intros Hl Hs. unfold write_page, paged. destruct (0 <? zlen bs).
  - destruct (Z.leb_spec (zlen bs) MAX_PAGE_SIZE); [|lia]. cbn [run]. rewrite Hs. cbn [disk sinks slk shl]. rewrite <- !app_assoc. reflexivity.
  - rewrite app_nil_r, <- Hs. destruct m; reflexivity.
Qed.

Lemma seq_locks before m t : seq_inv before m -> tget t (slk m) = None /\ shl m = None /\ zlen (sbuf (tget t (sinks m))) <= MAX_PAGE_SIZE /\ saddr (tget t (sinks m)) = zlen (written t before).
Proof. intros (ps & _ & _ & L & S & H). rewrite L, tget_tconst. specialize (H t). unfold sink_ok in H. split; [reflexivity|]. split; [exact S|]. tauto. Qed.

Lemma NNPP_in (t : tag) h : ~ ~ In t h -> In t h.
Proof. destruct (in_dec tag_eq_dec t h); tauto. Qed.

(** The sequential meaning of calls with callbacks, while the sinks of [h] are locked. *)
Definition means (c : nop) : Prop := forall h before m0 m, nop_ok c -> seq_inv before m0 -> hold h m0 m ->
  (never_reentered h c -> exists m', run (call c) m = (Ok (returns before c), m') /\ seq_inv (before ++ amounts_to c) (snd (run_ops (amounts_to c) m0)) /\
     hold h (snd (run_ops (amounts_to c) m0)) m' /\ forall t, In t h -> tget t (sinks m') = tget t (sinks m)) /\
  (~ never_reentered h c -> exists m', run (call c) m = (Diverge, m')).

Definition list_ok (l : list nop) : Prop := fold_right (fun c' P => nop_ok c' /\ P) True l.
Definition list_free (h : list tag) (l : list nop) : Prop := fold_right (fun c' P => never_reentered h c' /\ P) True l.

Lemma run_ops_app a b m : snd (run_ops (a ++ b) m) = snd (run_ops b (snd (run_ops a m))).
Proof.
  revert m. induction a as [|o a IH]; intros m; [reflexivity|]. cbn [app run_ops]. destruct (run (op_prog o) m) as (r, m1).
  specialize (IH m1). destruct (run_ops (a ++ b) m1), (run_ops a m1). cbn [snd] in *. exact IH.
Qed.

Lemma free_dec c : forall h, never_reentered h c \/ ~ never_reentered h c.
Proof.
  induction c as [o|t n inner bs IH] using nop_ind'; intros h; cbn [never_reentered].
  - destruct (in_dec tag_eq_dec (op_tag o) h); tauto.
  - destruct (in_dec tag_eq_dec t h); [tauto|]. enough (list_free (if n <=? 256 * 1024 then t :: h else h) inner \/ ~ list_free (if n <=? 256 * 1024 then t :: h else h) inner) by (unfold list_free in *; tauto).
    generalize (if n <=? 256 * 1024 then t :: h else h). intros h'. clear - IH. induction IH as [|c l Hc _ IH]; cbn [list_free fold_right]; [tauto|]. fold (list_free h' l). specialize (Hc h'). tauto.
Qed.
Lemma list_dec h l : list_free h l \/ ~ list_free h l.
Proof. induction l as [|c l IH]; cbn [list_free fold_right]; [tauto|]. fold (list_free h l). destruct (free_dec c h); tauto. Qed.

Lemma list_means l : Forall means l -> forall h before m0 m k, list_ok l -> seq_inv before m0 -> hold h m0 m ->
  (list_free h l -> exists m', run (calls l k) m = run k m' /\ seq_inv (before ++ flat_map amounts_to l) (snd (run_ops (flat_map amounts_to l) m0)) /\
     hold h (snd (run_ops (flat_map amounts_to l) m0)) m' /\ forall t, In t h -> tget t (sinks m') = tget t (sinks m)) /\
  (~ list_free h l -> exists m', run (calls l k) m = (Diverge, m')).
Proof.
  induction 1 as [|c l Hc Hl IH]; intros h before m0 m k O I H.
  - split; [|intros F; destruct (F Logic.I)]. intros _. exists m. cbn [flat_map run_ops snd]. rewrite app_nil_r. auto.
  - destruct O as (Oc & Ol). destruct (Hc h before m0 m Oc I H) as (A & B). cbn [calls fold_right flat_map]. fold (calls l k).
    assert (D := free_dec c h).
    split.
    + intros (Fc & Fl). destruct (A Fc) as (m1 & R & I1 & H1 & S1). rewrite run_pbind, R.
      destruct (IH h _ _ m1 k Ol I1 H1) as (A' & _). destruct (A' Fl) as (m2 & R2 & I2 & H2 & S2). rewrite run_ops_app. exists m2. rewrite app_assoc.
      split; [exact R2|]. split; [exact I2|]. split; [exact H2|]. intros t Ht. rewrite S2, S1; auto.
    + intros F. destruct D as [Fc|Fc].
      * destruct (A Fc) as (m1 & R & I1 & H1 & S1). rewrite run_pbind, R. destruct (IH h _ _ m1 k Ol I1 H1) as (_ & B'). apply B'. intros Fl. apply F. split; auto.
      * destruct (B Fc) as (m1 & R). rewrite run_pbind, R. eauto.
Qed.

Lemma free_tags c : forall h, never_reentered h c -> Forall (fun o => ~ In (op_tag o) h) (amounts_to c).
Proof.
  induction c as [o|t n inner bs IH] using nop_ind'; intros h; cbn [never_reentered amounts_to]; [auto|]. intros (Ht & F). cbv zeta.
  assert (G : Forall (fun o => ~ In (op_tag o) h) (flat_map amounts_to inner)).
  { assert (F' : exists h', list_free h' inner /\ incl h h') by (exists (if n <=? 256 * 1024 then t :: h else h); split; [exact F|destruct (_ <=? _); intros x Hx; [right|]; exact Hx]).
    destruct F' as (h' & F' & S). clear F. induction IH as [|c l Hc _ IH]; [constructor|]. destruct F' as (F1 & F2). cbn [flat_map]. apply Forall_app. split; [|auto].
    specialize (Hc h' F1). rewrite Forall_forall in *. intros o Ho Q. apply (Hc o Ho), S, Q. }
  destruct (_ <=? _); [constructor; auto|apply Forall_app; auto].
Qed.
Lemma list_tags h l : list_free h l -> Forall (fun o => ~ In (op_tag o) h) (flat_map amounts_to l).
Proof. induction l as [|c l IH]; [constructor|]. intros (F1 & F2). cbn [flat_map]. apply Forall_app. split; [apply free_tags, F1|auto]. Qed.
Lemma amounts_ok c : nop_ok c -> Forall op_ok (amounts_to c).
Proof.
  induction c as [o|t n inner bs IH] using nop_ind'; cbn [nop_ok amounts_to]; [auto|]. intros (E & F). fold (list_ok inner) in F. cbv zeta.
  assert (G : Forall op_ok (flat_map amounts_to inner)).
  { induction IH as [|c l Hc _ IH]; [constructor|]. destruct F as (F1 & F2). cbn [flat_map]. apply Forall_app. auto. }
  assert (W : op_ok (OWriteAtomic t n (fun _ => (bs, false)))) by (cbn; pose proof (zlen_nonneg bs); repeat split; auto; lia).
  destruct (_ <=? _); [constructor; auto|apply Forall_app; auto].
Qed.
Lemma list_amounts_ok l : list_ok l -> Forall op_ok (flat_map amounts_to l).
Proof. induction l as [|c l IH]; [constructor|]. intros (F1 & F2). cbn [flat_map]. apply Forall_app. split; [apply amounts_ok, F1|auto]. Qed.
Lemma run_ops_other t ops : forall before m, seq_inv before m -> Forall op_ok ops -> Forall (fun o => op_tag o <> t) ops -> tget t (sinks (snd (run_ops ops m))) = tget t (sinks m).
Proof.
  induction ops as [|o ops IH]; intros before m I O T; [reflexivity|]. inversion O; inversion T; subst. destruct (run_op_seq before o m) as (m1 & news & R & I1 & _ & _ & K); auto.
  cbn [run_ops]. rewrite R. specialize (IH _ m1 I1). destruct (run_ops ops m1) as (rs, m2). cbn [snd] in *. rewrite IH by auto. apply K. congruence.
Qed.

Lemma plain_means o : means (Plain o).
Proof.
  intros h before m0 m O I H. cbn [nop_ok never_reentered call returns amounts_to] in *. cbn [run_ops].
  destruct (run_op_seq before o m0 O I) as (m1 & news & R & I1 & _). rewrite R. cbn [snd]. split.
  - intros F. destruct (run_hold h _ (avoids_op h o F) m0 m H) as (m' & R' & H' & S'). rewrite R in R', H'. exists m'. auto.
  - intros F. apply NNPP_in in F. destruct (op_prog_starts o O) as (k & -> & _). cbn [run]. destruct H as (_ & _ & H & _). rewrite (H _ F). eauto.
Qed.

Lemma all_means c : means c.
Proof.
  induction c as [o|t n inner bs IH] using nop_ind'; [apply plain_means|].
  intros h before m0 m (On & Oi) I H. cbn [never_reentered returns amounts_to call]. fold (list_ok inner) in Oi. fold (list_free (if n <=? 256 * 1024 then t :: h else h) inner).
  set (own := OWriteAtomic t n (fun _ => (bs, false))). cbv zeta.
  assert (Ook : op_ok own) by (cbn; pose proof (zlen_nonneg bs); rewrite On; repeat split; lia).
  pose proof (zlen_nonneg bs) as Hn0.
  destruct (Z.ltb_spec MAX_PAGE_SIZE n) as [Hn|Hn]; unfold MAX_PAGE_SIZE in Hn; destruct (Z.leb_spec n (256 * 1024)); try lia.
  - fold (calls inner (write_bytes_large t bs Done)). destruct (list_means inner IH h before m0 m (write_bytes_large t bs Done) Oi I H) as (A & B). split.
    + intros (Ft & Fi). destruct (A Fi) as (m1 & R & I1 & H1 & S1). rewrite R, run_ops_app, app_assoc.
      destruct (run_op_seq _ own _ Ook I1) as (m2 & news & R2 & I2 & _). cbn [run_ops]. rewrite R2. cbn [snd].
      assert (E : op_prog own = write_bytes_large t bs Done) by (cbn; unfold write_atomic; destruct (Z.ltb_spec MAX_PAGE_SIZE n); [reflexivity|unfold MAX_PAGE_SIZE in *; lia]).
      rewrite E in R2. assert (Av : avoids h (write_bytes_large t bs Done)) by (apply avoids_large; [exact Ft|constructor]).
      destruct (run_hold h _ Av _ _ H1) as (m3 & R3 & H3 & S3). rewrite R2 in R3, H3. exists m3. split; [exact R3|]. split; [exact I2|]. split; [exact H3|].
      intros t' Ht'. rewrite S3, S1; auto.
    + intros F. destruct (in_dec tag_eq_dec t h) as [Ht|Ht]; [|apply B; tauto]. 
      destruct (list_dec h inner) as [Fi|Fi]; [|apply B, Fi]. destruct (A Fi) as (m1 & R & I1 & (_ & _ & H1 & _) & _). rewrite R. unfold write_bytes_large. cbn [run]. rewrite (H1 t Ht). eauto.
  - cbn [run]. destruct (in_dec tag_eq_dec t h) as [Ht|Ht].
    { split; [tauto|]. intros _. destruct H as (_ & _ & H & _). rewrite (H t Ht). eauto. }
    pose proof H as (HD & HL & HH & HN). destruct (HN t Ht) as (N1 & N2). destruct (seq_locks before m0 t I) as (L1 & L2 & L3 & L4). rewrite N1, L1, N2.
    set (s := tget t (sinks m0)) in *. set (m1 := mkMem (disk m) (sinks m) (tset t (Some 0) (slk m)) (shl m)).
    destruct (run_op_seq before own m0 Ook I) as (mo & news & Ro & Io & _). cbn [run_ops]. rewrite Ro. 
    assert (G : exists m2 buffer, (forall b : bytes -> prog, run (if MAX_PAGE_SIZE <? zlen (sbuf s) + n then flush t (sbuf s) b else b (sbuf s)) m1 = run (b buffer) m2) /\
       disk m2 = disk mo /\ shl m2 = None /\ slk m2 = slk m1 /\ sinks m2 = sinks m1 /\ sinks mo = tset t (mkSink (buffer ++ bs) (saddr s + n)) (sinks m0) /\ slk mo = tset t None (tset t (Some 0) (slk m0)) /\ shl mo = None).
    { change (op_prog own) with (write_atomic t n (fun _ => (bs, false)) Done) in Ro. unfold write_atomic in Ro. destruct (Z.ltb_spec MAX_PAGE_SIZE n); [unfold MAX_PAGE_SIZE in *; lia|]. cbn [run] in Ro. rewrite L1 in Ro. fold s in Ro. cbv beta zeta iota in Ro.
      destruct (_ <? _) eqn:E.
      - unfold flush in Ro. rewrite run_page in Ro by (cbn [shl]; auto). cbn [run disk sinks slk shl] in Ro. injection Ro as _ <-. cbn [disk sinks slk shl].
        exists (mkMem (disk m1 ++ paged t (sbuf s)) (sinks m1) (slk m1) None), []. split; [intros b; unfold flush; apply run_page; [exact L3|cbn; congruence]|]. cbn [disk sinks slk shl app]. unfold m1 at 1. cbn [disk]. rewrite HD. auto 8.
      - cbn [run disk sinks slk shl] in Ro. injection Ro as _ <-. cbn [disk sinks slk shl]. exists m1, (sbuf s). split; [reflexivity|]. unfold m1. cbn [disk sinks slk shl]. split; [exact HD|]. split; [congruence|]. auto 8. }
    destruct G as (m2 & buffer & GR & GD & GS & GL & GK & MK & ML & MS). rewrite GR.
    fold (calls inner (UnlockSink t (mkSink (buffer ++ bs) (saddr s + n)) (Done (saddr s)))).
    assert (H2 : hold (t :: h) mo m2).
    { split; [exact GD|]. split; [congruence|]. rewrite GL, GK, ML, MK. unfold m1. cbn [slk sinks]. split.
      - intros t' [<-|Ht']; [apply tget_tset_same|]. rewrite tget_tset_other by congruence. auto.
      - intros t' Ht'. assert (t' <> t /\ ~ In t' h) as (X & Y) by (split; [intros ->; apply Ht'; left; reflexivity|intros Q; apply Ht'; right; exact Q]).
        rewrite !tget_tset_other by exact X. apply HN, Y. }
    destruct (list_means inner IH (t :: h) _ mo m2 (UnlockSink t (mkSink (buffer ++ bs) (saddr s + n)) (Done (saddr s))) Oi Io H2) as (A & B). split.
    + intros (_ & Fi). destruct (A Fi) as (m3 & R & I3 & (D3 & S3 & L3' & N3) & K3). rewrite R. cbn [run]. destruct (run_ops (flat_map amounts_to inner) mo) as (rs, m4) eqn:E4. cbn [snd] in *.
      exists (mkMem (disk m3) (tset t (mkSink (buffer ++ bs) (saddr s + n)) (sinks m3)) (tset t None (slk m3)) (shl m3)). rewrite L4. split; [reflexivity|].
      rewrite <- app_assoc in I3. split; [exact I3|]. split.
      * split; [exact D3|]. split; [exact S3|]. cbn [slk sinks]. split.
        -- intros t' Ht'. rewrite tget_tset_other by congruence. apply L3'. right. exact Ht'.
        -- intros t' Ht'. destruct (tag_eq_dec t' t) as [->|Ne].
           ++ rewrite !tget_tset_same. assert (T := list_tags _ _ Fi). assert (K4 := run_ops_other t _ _ mo Io (list_amounts_ok _ Oi)). rewrite E4 in K4. cbn [snd] in K4. rewrite K4 by (eapply Forall_impl; [|exact T]; intros o Ho Q; apply Ho; left; auto).
              rewrite MK, tget_tset_same. split; [|rewrite ?L4; reflexivity]. symmetry. apply (seq_locks _ m4 t I3).
           ++ rewrite !tget_tset_other by exact Ne. apply N3. intros [Q|Q]; [congruence|contradiction].
      * intros t' Ht'. cbn [sinks]. rewrite tget_tset_other by congruence. rewrite K3 by (right; exact Ht'). rewrite GK. reflexivity.
    + intros F. destruct (B ltac:(tauto)) as (m3 & ->). eauto.
Qed.

Lemma hold_nil m0 m : hold [] m0 m -> m = m0.
Proof.
  intros (D & L & _ & N). destruct m as [d s k l], m0 as [d0 s0 k0 l0]. cbn in *. subst.
  assert (s = s0) as -> by (apply tmap_ext; intros t; apply N; intros []). assert (k = k0) as -> by (apply tmap_ext; intros t; apply N; intros []). reflexivity.
Qed.
Lemma reached ops : Forall op_ok ops -> seq_inv ops (snd (run_ops ops mem0)).
Proof. intros O. destruct (run_ops_seq ops [] mem0 O seq_inv0) as (m & news & R & I & _). rewrite R. exact I. Qed.

(** A call whose callbacks use other sinks than the ones they are called for does what a sequence of
    ordinary calls does, and returns the address of its own data. *)
Theorem C89_sequence : forall ops c, Forall op_ok ops -> nop_ok c -> never_reentered [] c ->
  Forall op_ok (ops ++ amounts_to c) /\
  run (call c) (snd (run_ops ops mem0)) = (Ok (returns ops c), snd (run_ops (ops ++ amounts_to c) mem0)).
Proof.
  intros ops c O Oc F. pose proof (reached ops O) as I. split; [apply Forall_app; split; [exact O|apply amounts_ok, Oc]|].
  destruct (all_means c [] ops _ (snd (run_ops ops mem0)) Oc I) as (A & _); [split; auto; split; auto; split; [intros t []|auto]|].
  destruct (A F) as (m' & R & _ & H & _). apply hold_nil in H. subst m'. rewrite R, run_ops_app. reflexivity.
Qed.
Print Assumptions C89_sequence.

Theorem C89_address : forall ops t n inner bs, exists before after,
  written t (ops ++ amounts_to (Within t n inner bs)) = before ++ bs ++ after /\ returns ops (Within t n inner bs) = zlen before.
Proof.
  intros ops t n inner bs. cbn [amounts_to returns]. cbv zeta. destruct (_ <=? _).
  - exists (written t ops), (written t (flat_map amounts_to inner)). split; [|reflexivity]. rewrite written_app. cbn [written op_tag op_data fst]. rewrite tag_eqb_refl. reflexivity.
  - exists (written t (ops ++ flat_map amounts_to inner)), []. split; [|reflexivity]. rewrite app_assoc, written_app. cbn [written op_tag op_data fst]. rewrite tag_eqb_refl. reflexivity.
Qed.
Print Assumptions C89_address.

(** A callback for at most 256 KiB that uses, directly or not, the sink it is called for waits for its
    own mutex: the call never returns. *)
Theorem C89_reentered_refuted : forall ops c, Forall op_ok ops -> nop_ok c -> ~ never_reentered [] c ->
  exists m', run (call c) (snd (run_ops ops mem0)) = (Diverge, m').
Proof.
  intros ops c O Oc F. pose proof (reached ops O) as I. destruct (all_means c [] ops _ (snd (run_ops ops mem0)) Oc I) as (_ & B); [split; auto; split; auto; split; [intros t []|auto]|]. apply B, F.
Qed.
Print Assumptions C89_reentered_refuted.

(** The hypotheses: three levels; and the same bytes written to the same sink from the callbacks of a
    large and of a small write. *)
Example ex_C89 : let c := Within TStrData 2 [Within TEvents 1 [Plain (OWriteBytes TStrIndex [9; 9])] [5]; Plain (OWriteBytes TEvents [6])] [1; 2] in
  nop_ok c /\ never_reentered [] c /\ run (call c) (snd (run_ops [OWriteBytes TStrData [0]] mem0)) =
    (Ok 1, mkMem [] (TM (mkSink [5; 6] 2) (mkSink [0; 1; 2] 3) (mkSink [9; 9] 2)) (tconst None) None).
Proof. cbv zeta. split; [cbv; auto|]. split; [cbv; intuition discriminate|]. vm_compute. reflexivity. Qed.
Example ex_C89_large n bs : zlen bs = n -> 256 * 1024 < n -> let c := Within TEvents n [Plain (OWriteBytes TEvents [7])] bs in
  nop_ok c /\ never_reentered [] c /\ forall ops, written TEvents (ops ++ amounts_to c) = written TEvents ops ++ [7] ++ bs.
Proof.
  intros H Hn. cbv zeta. cbn [nop_ok never_reentered amounts_to fold_right op_ok op_tag]. destruct (Z.leb_spec n (256 * 1024)); [lia|]. split; [auto|]. split; [cbn; tauto|].
  intros ops. rewrite written_app. cbn. rewrite app_nil_r. reflexivity.
Qed.
Example ex_C89_small : let c := Within TEvents 1 [Plain (OWriteBytes TStrData [3]); Within TStrData 1 [Plain (OWriteBytes TEvents [7])] [4]] [8] in
  nop_ok c /\ ~ never_reentered [] c /\ fst (run (call c) mem0) = Diverge.
Proof. cbv zeta. split; [cbv; repeat split|]. split; [cbv; intuition|]. vm_compute. reflexivity. Qed.
