(** Proofs about files left behind by a process that died. *)
From Coq Require Import ZArith List Lia Bool.
From Verif Require Import M_Base F_Base M_Sink S_Sink M_Conc S_Conc F_Sink F_SinkSeq F_Conc F_Conc2 M_Raw F_Raw M_Header M_V8 M_Iter
  Prop_Raw Prop_Format M_Utf8 S_Utf8 F_Utf8 M_Strings M_StrTable S_Strings F_Strings M_EventId S_EventId F_EventId
  M_Session S_Session F_Session F_Session2 Prop_Strings Prop_EventId M_Run S_Run F_Run S_Crash.
Import ListNotations.
Open Scope Z_scope.

Lemma cons_inv {A} (x y : A) l l' : x :: l = y :: l' -> x = y /\ l = l'.
Proof. intros H. inversion H. auto. Qed.

(** ** dropping sinks appends at most one page each *)
Definition sink_inv (W : tag -> bytes) (pages : list page) (m : mem) : Prop :=
  disk m = enc_pages pages /\ Forall page_ok pages /\ slk m = tconst None /\ shl m = None /\
  forall t, sink_ok (stream t pages) (W t) (tget t (sinks m)).

Lemma drop_page W pages m t : sink_inv W pages m ->
  exists news m', run (op_prog (ODrop t)) m = (Ok 0, m') /\ sink_inv W (pages ++ news) m' /\
    (news = [] \/ exists p, news = [(t, p)]) /\ stream t (pages ++ news) = W t.
Proof.
  intros (Hd & Hp & Hl & Hsh & Hs). destruct (Hs t) as (E & Ea & Hz).
  cbn [op_prog]. unfold drop_sink. cbn [run]. rewrite Hl, tget_tconst. unfold flush, write_page.
  assert (Hinv : forall news dsk, dsk = enc_pages (pages ++ news) -> Forall page_ok news -> (news = [] \/ exists p, news = [(t, p)]) ->
    stream t (pages ++ news) = W t ->
    sink_inv W (pages ++ news) (mkMem dsk (tset t (mkSink [] (saddr (tget t (sinks m)))) (sinks m)) (tset t None (tset t (Some 0) (tconst None))) None)).
  { intros news dsk Ed Hn Hc Es. split; [exact Ed|]. split; [apply Forall_app; auto|]. cbn [slk shl sinks].
    split; [destruct t; reflexivity|]. split; auto. intros t'. destruct (tag_eq_dec t' t) as [->|Ht].
    - rewrite tget_tset_same. unfold sink_ok. cbn [sbuf saddr]. rewrite app_nil_r. split; auto. split; auto. vm_compute. discriminate.
    - rewrite tget_tset_other by auto. replace (stream t' (pages ++ news)) with (stream t' pages); auto.
      rewrite stream_app. destruct Hc as [->|(p & ->)]; cbn [stream]; [rewrite app_nil_r; auto|].
      destruct (tag_eqb t t') eqn:Et; [apply tag_eqb_eq in Et; congruence|]. rewrite !app_nil_r; auto. }
  destruct (Z.ltb_spec 0 (zlen (sbuf (tget t (sinks m))))) as [Hb|Hb].
  - destruct (Z.leb_spec (zlen (sbuf (tget t (sinks m)))) MAX_PAGE_SIZE); [|lia].
    cbn [run]. rewrite Hsh. cbn [run disk sinks slk shl].
    exists [(t, sbuf (tget t (sinks m)))]. eexists. split; [reflexivity|].
    assert (Es : stream t (pages ++ [(t, sbuf (tget t (sinks m)))]) = W t) by (rewrite stream_snoc, tag_eqb_refl; exact E).
    split; [|split; [eauto|exact Es]].
    apply Hinv; eauto.
    + rewrite Hd, enc_pages_snoc. unfold enc_page. cbn [fst snd]. rewrite <- !app_assoc. destruct t; reflexivity.
    + constructor; [|constructor]. unfold page_ok. cbn [snd]. change (256 * 1024) with MAX_PAGE_SIZE. lia.
  - assert (E0 : sbuf (tget t (sinks m)) = []) by (apply zlen_0; pose proof (zlen_nonneg (sbuf (tget t (sinks m)))); lia).
    cbn [run disk sinks slk shl]. rewrite Hsh. exists []. eexists. split; [reflexivity|].
    assert (Es : stream t (pages ++ []) = W t) by (rewrite app_nil_r, <- E, E0, app_nil_r; reflexivity).
    split; [|auto]. apply Hinv; auto. rewrite app_nil_r. exact Hd.
Qed.

Lemma drops_pages W drops : Forall is_drop drops -> forall pages m, sink_inv W pages m ->
  exists news, sink_inv W (pages ++ news) (snd (run_ops drops m)) /\
    forall n1 n2 t, news = n1 ++ n2 -> stream t n1 = [] \/ stream t (pages ++ n1) = W t.
Proof.
  induction 1 as [|o drops [t ->] _ IH]; intros pages m Hi.
  - exists []. rewrite app_nil_r. split; [exact Hi|]. intros n1 n2 t E. symmetry in E. apply app_eq_nil in E. destruct E as [-> _]. auto.
  - destruct (drop_page W pages m t Hi) as (news & m' & Hr & Hi' & Hn & Hs). cbn [run_ops]. rewrite Hr.
    destruct (IH _ _ Hi') as (news' & Hi2 & Hc). destruct (run_ops drops m') as [rs m2]. cbn [snd] in *.
    exists (news ++ news'). rewrite app_assoc. split; [exact Hi2|].
    intros n1 n2 t' E. destruct Hn as [->|(p & ->)].
    + rewrite app_nil_r in *. apply (Hc n1 n2 t' E).
    + cbn [app] in E. destruct n1 as [|x n1]; [auto|]. cbn [app] in E. inversion E as [[Ex E']]. subst x.
      destruct (Hc n1 n2 t' E') as [Z|Z].
      * destruct (tag_eq_dec t' t) as [->|Ht].
        -- right. rewrite stream_app in Hs. cbn [stream] in Hs. rewrite app_nil_r in Hs. rewrite stream_app. cbn [stream].
           rewrite Z, app_nil_r. exact Hs.
        -- left. cbn [stream]. destruct (tag_eqb t t') eqn:Et; [apply tag_eqb_eq in Et; congruence|]. exact Z.
      * right. rewrite <- app_assoc in Z. exact Z.
Qed.

(** ** the pages of a file left behind *)
Lemma crash_pages en md r0 c0 acts b : utf8 md -> started md r0 c0 -> ucalls_ok acts ->
  (prefix b (disk (cmem (uc (urun en acts (mkU c0 []))))) \/
   exists drops, all_idle (uc (urun en acts (mkU c0 []))) /\ Forall is_drop drops /\
     prefix b (disk (snd (run_ops drops (cmem (uc (urun en acts (mkU c0 [])))))))) ->
  exists K L pages rest, partial_linearization (uhist (urun en acts (mkU c0 []))) K /\ session en md r0 K L /\
    b = enc_pages pages ++ rest /\ Forall page_ok pages /\
    (rest = [] \/ exists p, page_ok p /\ prefix rest (enc_page p) /\ zlen rest < zlen (enc_page p)) /\
    (forall t, prefix (stream t pages) (written t (map fst L))) /\
    (stream TEvents pages = [] \/
     exists k, stream TEvents pages = hdr FILE_MAGIC_EVENT_STREAM ++ concat (map raw_bytes (map want_raw (firstn k (recorded K))))).
Proof.
  intros Hmd Hst Hok [Hb|(drops & Hidle & Hdr & Hb)].
  { destruct (concurrent_crash en md r0 c0 acts b Hmd Hst Hok Hb) as (K & L & pages & rest & HK & HS & Eb & Hp & Hr & Hpre & HB).
    exists K, L, pages, rest. split; auto. split; auto. split; auto. split; auto. split; auto. split; auto.
    eapply boundary_events; eauto. }
  destruct Hst as (acts0 & tid0 & H & o2 & r2 & Ec0 & Hi0 & HH & H2 & Hh).
  destruct (urun_exec en acts Hok (mkU c0 [])) as (acts' & Ha' & Ec & uh & h & Eu & Eh & HL). cbn [uc uhist app] in *.
  set (c := urun en acts (mkU c0 [])) in *.
  assert (Hexec : uc c = exec (effective acts0 conf0 ++ acts') conf0) by (rewrite exec_app, effective_exec, <- Ec0; exact Ec).
  assert (Hgood : acts_good (fun t => t = TEvents) (effective acts0 conf0 ++ acts')).
  { intros t o Hin. apply in_app_or in Hin. destruct Hin as [Hin|Hin].
    - apply effective_hist in Hin. rewrite <- Ec0, Hh in Hin. apply in_calls_hist in Hin.
      pose proof (init_ops_ok H md r0 o2 r2 HH H2) as F. rewrite Forall_forall in F. split; auto.
      destruct (init_events _ md _ _ r2 HH H2 o Hin) as [_ X]. intros E. apply X, E.
    - destruct (Ha' _ _ Hin) as (k & _ & Hk). split; [eapply op_ok_call; eauto|]. destruct (call_op_events _ _ _ Hk) as [_ X].
      intros E. apply X, E. }
  assert (Hc : cinv (fun t => t = TEvents) (uc c)).
  { rewrite Hexec. apply cinv_exec; [exact Hgood|apply cinv0]. }
  destruct Hc as (pages & part & g & Hd & Hp & Hg & Hsc & Hth & Hfree & Hsh & Hcut & _).
  assert (Hnone : forall x, holds_none (cmem (uc c)) x /\ protocol x (proj x g) TIdle).
  { intros x. destruct (Hth x) as (s & Hpr & Hti). rewrite Hidle in Hti.
    destruct s; simpl in Hti; [tauto|destruct Hti; discriminate|].
    destruct Hti as [[? ?]|(q & cur & ? & _)]; discriminate. }
  assert (Hl : forall t, tget t (slk (cmem (uc c))) = None).
  { intros t. destruct (tget t (slk (cmem (uc c)))) as [x|] eqn:E; auto.
    destruct (Hnone x) as [[X _] _]. exfalso; eapply X; eauto. }
  assert (Hs : shl (cmem (uc c)) = None).
  { destruct (shl (cmem (uc c))) as [x|] eqn:E; auto. destruct (Hnone x) as [[_ X] _]. congruence. }
  rewrite (Hsh Hs), app_nil_r in Hd.
  assert (Hinv : sink_inv (fun t => written t (lin_ops g)) pages (cmem (uc c))).
  { split; [exact Hd|]. split; auto. split; [apply tmap_ext; intros t; rewrite tget_tconst; auto|]. split; auto. }
  destruct (drops_pages _ drops Hdr pages (cmem (uc c)) Hinv) as (news & Hi2 & Hcuts).
  rewrite Ec, Eh, Hh in Hg.
  assert (HP : forall x, ~ In (HPanic x) h).
  { intros x Hx. assert (In (HPanic x) (erase g)) as X by (rewrite Hg; apply in_or_app; auto).
    clear -X. induction g as [|[] g IH]; cbn in X; auto; destruct X as [X|X]; try discriminate; auto. }
  destruct (sequential_prefix _ _ _ _ Hg) as (g1 & g2 & -> & E2 & L1 & P1).
  { intros x. exists TIdle. apply Hnone. }
  assert (P2 : forall x, protocol x (proj x g2) TIdle).
  { intros x. destruct (Hnone x) as [_ X]. rewrite proj_app in X. apply (protocol_suffix x (proj x g1)); auto. }
  destruct (lift en g2 uh) as (ug & Eug & HG & HU).
  { rewrite E2. apply HL, HP. } { eauto. }
  assert (HS : session en md r0 (ueffects ug) (lins (g1 ++ g2))).
  { split; auto. split; auto. exists H, o2, r2, (lins g2). split; auto. split; auto. split; [apply glow_effects; auto|].
    rewrite lins_app, L1, <- app_assoc. reflexivity. }
  destruct Hi2 as (Hd2 & Hp2 & _ & _ & Hs2).
  destruct (prefix_pages (pages ++ news) b Hp2) as (ps1 & ps2 & r & E1 & Eb & E3); [rewrite <- Hd2; exact Hb|].
  exists (ueffects ug), (lins (g1 ++ g2)), ps1, r. split; [|split; [exact HS|split; [exact Eb|]]].
  { exists ug. rewrite Eu. split; auto. split; auto. intros x. destruct (HU x TIdle (P2 x)) as (l & us & El & Hus).
    exists l, us. exact El. }
  assert (Hall : forall t, prefix (stream t ps1) (written t (lin_ops (g1 ++ g2)))).
  { intros t. destruct (Hs2 t) as (E & _). rewrite <- E, E1, stream_app, <- app_assoc. eexists; reflexivity. }
  rewrite E1 in Hp2. apply Forall_app in Hp2. destruct Hp2 as [Hpa Hpb]. split; auto. split; [|split; [exact Hall|]].
  { destruct E3 as [->|(p & ps3 & -> & Hpp & Hlt)]; auto. right. exists p. inversion Hpb; subst. auto. }
  (* the events *)
  assert (Hbd : forall p1 p2, pages = p1 ++ p2 -> stream TEvents p1 = [] \/
     exists k, stream TEvents p1 = hdr FILE_MAGIC_EVENT_STREAM ++ concat (map raw_bytes (map want_raw (firstn k (recorded (ueffects ug)))))).
  { intros p1 p2 E. eapply boundary_events; [exact HS|]. exact (Hcut p1 p2 TEvents E eq_refl). }
  assert (Hcase : (exists x, pages = ps1 ++ x) \/ exists n1 n2, ps1 = pages ++ n1 /\ news = n1 ++ n2).
  { clear -E1. revert ps1 E1. induction pages as [|x pages IH]; intros ps1 E1; [right; exists ps1, ps2; auto|].
    destruct ps1 as [|y ps1]; [left; exists (x :: pages); reflexivity|]. cbn [app] in E1. apply cons_inv in E1. destruct E1 as [<- Er].
    destruct (IH _ Er) as [(z & ->)|(n1 & n2 & -> & ->)]; [left; exists z; reflexivity|right; exists n1, n2; auto]. }
  destruct Hcase as [(x & Ex)|(n1 & n2 & -> & En)]; [eapply Hbd; eauto|].
  destruct (Hcuts n1 n2 TEvents En) as [Z|Z].
  - rewrite stream_app, Z, app_nil_r. apply (Hbd pages []). rewrite app_nil_r; auto.
  - right. exists (length (recorded (ueffects ug))). rewrite firstn_all, Z. change (lin_ops (g1 ++ g2)) with (map fst (lins (g1 ++ g2))).
    apply (session_written en md r0 _ _ HS TEvents).
Qed.

(** ** a file whose pages are complete *)
Lemma partial_page_panics ps rest p : Forall page_wf ps -> page_wf p -> rest <> [] ->
  prefix rest (enc_page p) -> zlen rest < zlen (enc_page p) -> split_streams (enc_pages ps ++ rest) = Panic.
Proof.
  intros Hps Hp Hr [z Hz] Hl. unfold split_streams.
  rewrite split_loop_pages; auto; [|rewrite app_length; lia].
  pose proof (length_enc_pages_ge ps).
  destruct (length (enc_pages ps ++ rest) - length ps)%nat as [|f] eqn:Ef.
  { rewrite app_length in Ef. destruct rest; [congruence|simpl in Ef; lia]. }
  destruct rest as [|tb rest]; [congruence|]. cbn [split_loop].
  destruct p as [t b]. unfold page_wf in Hp. cbn [snd] in Hp.
  rewrite enc_page_len in Hl. unfold enc_page in Hz. cbn [fst snd app] in Hz, Hl.
  assert (Htb : tb = page_tag t) by congruence. subst tb. rewrite tag_of_byte_byte.
  assert (Hz' : le_bytes 4 (zlen b) ++ b = rest ++ z) by (inversion Hz; auto). clear Hz.
  rewrite zlen_cons in Hl.
  destruct (Z.ltb_spec (zlen rest) 4); auto.
  assert (E4 : ztake 4 rest = le_bytes 4 (zlen b)).
  { apply (f_equal (ztake 4)) in Hz'. rewrite ztake_app_eq in Hz' by (rewrite zlen_le_bytes; auto).
    rewrite ztake_app_le in Hz' by lia. auto. }
  rewrite E4, le_val_bytes_small by (simpl Z.of_nat; lia).
  destruct (Z.leb_spec (zlen b) 0); auto.
  destruct (Z.ltb_spec (zlen (zdrop 4 rest)) (zlen b)); auto.
  rewrite zlen_zdrop in * by lia. lia.
Qed.

Lemma app_prefix {A} (a b c d : list A) : a ++ b = c ++ d -> zlen a <= zlen c -> exists x, c = a ++ x /\ b = x ++ d.
Proof.
  revert c. induction a as [|x a IH]; intros c H Hl; [exists c; auto|].
  destruct c as [|y c].
  - rewrite zlen_cons in Hl. change (zlen (@nil A)) with 0 in Hl. pose proof (zlen_nonneg a). lia.
  - cbn [app] in H. apply cons_inv in H. destruct H as [<- H]. rewrite !zlen_cons in Hl.
    destruct (IH c H ltac:(lia)) as (z & -> & ->). exists z. auto.
Qed.

(** a prefix that is at least as long as the first part *)
Lemma prefix_ge {A} (a h r : list A) : prefix a (h ++ r) -> zlen h <= zlen a -> exists a', a = h ++ a' /\ prefix a' r.
Proof.
  intros [z E] Hl. destruct (app_prefix h r a z E Hl) as (x & -> & ->). exists x. split; auto. exists z. auto.
Qed.

(** a prefix of a concatenation: whole parts and a proper part of the next one *)
Lemma prefix_concat {A B} (f : B -> list A) l : forall p, prefix p (concat (map f l)) ->
  exists l1 l2 q, l = l1 ++ l2 /\ p = concat (map f l1) ++ q /\
    (q = [] /\ l2 = [] \/ exists x l3, l2 = x :: l3 /\ prefix q (f x) /\ zlen q < zlen (f x)).
Proof.
  induction l as [|x l IH]; intros p Hp.
  - destruct Hp as [z E]. cbn in E. symmetry in E. apply app_eq_nil in E. destruct E as [-> _]. exists [], [], []. auto.
  - cbn [map concat] in Hp. destruct (Z_lt_le_dec (zlen p) (zlen (f x))) as [Hl|Hl].
    + exists [], (x :: l), p. split; auto. split; auto. right. exists x, l. split; auto. split; auto.
      destruct Hp as [z E]. symmetry in E. destruct (app_prefix _ _ _ _ E) as (y & E1 & E2); [lia|]. exists y. auto.
    + destruct (prefix_ge _ _ _ Hp Hl) as (p' & -> & Hp'). destruct (IH _ Hp') as (l1 & l2 & q & -> & -> & Hq).
      exists (x :: l1), l2, q. split; auto. split; [cbn [map concat]; rewrite app_assoc; auto|auto].
Qed.

(** ** strings: reading a longer table *)
Lemma memchr2_prefix a b x y n : memchr2 a b x = Some n -> memchr2 a b (x ++ y) = Some n.
Proof.
  revert n. induction x as [|c x IH]; intros n H; [discriminate|]. cbn [memchr2 app] in *.
  destruct ((c =? a) || (c =? b)); auto. destruct (memchr2 a b x) as [k|]; [|discriminate]. rewrite (IH k eq_refl). auto.
Qed.
Lemma memchr2_bound a b x n : memchr2 a b x = Some n -> 0 <= n < zlen x.
Proof.
  revert n. induction x as [|c x IH]; intros n H; [discriminate|]. cbn [memchr2] in H. rewrite zlen_cons. pose proof (zlen_nonneg x).
  destruct ((c =? a) || (c =? b)); [inversion H; lia|]. destruct (memchr2 a b x) as [k|]; [|discriminate].
  specialize (IH k eq_refl). inversion H; lia.
Qed.
Lemma memchr2_in a b x : In a x \/ In b x -> exists n, memchr2 a b x = Some n.
Proof.
  induction x as [|c x IH]; intros H; [destruct H as [[]|[]]|]. cbn [memchr2].
  destruct (Z.eqb_spec c a); [cbn; eauto|]. destruct (Z.eqb_spec c b); [cbn; eauto|]. cbn [orb].
  destruct IH as (k & ->); [|eauto]. destruct H as [[|]|[|]]; try congruence; auto.
Qed.
Lemma memchr2_found a b x n : memchr2 a b x = Some n -> In a x \/ In b x.
Proof.
  revert n. induction x as [|c x IH]; intros n H; [discriminate|]. cbn [memchr2] in H.
  destruct (Z.eqb_spec c a); [left; left; auto|]. destruct (Z.eqb_spec c b); [right; left; auto|]. cbn [orb] in H.
  destruct (memchr2 a b x) as [k|]; [|discriminate]. destruct (IH k eq_refl); [left|right]; right; auto.
Qed.

Section Longer.
Variables (x y : bytes) (ix : list (Z * Z)).
Let T := mkTable (x ++ [255]) ix.
Let T' := mkTable ((x ++ [255]) ++ y) ix.

Lemma long_addr id : get_addr T' id = get_addr T id.
Proof. reflexivity. Qed.
Lemma long_nth pos c : znth pos (string_data T) = Some c -> znth pos (string_data T') = Some c /\ 0 <= pos < zlen (string_data T).
Proof.
  intros H. pose proof (znth_Some_lt _ _ _ H) as Hb. split; auto. cbn [T T' string_data] in *. rewrite znth_app_l by lia. exact H.
Qed.
Lemma long_drop pos : 0 <= pos <= zlen (string_data T) -> zdrop pos (string_data T') = zdrop pos (string_data T) ++ y.
Proof. intros H. cbn [T T' string_data] in *. apply zdrop_app_le. lia. Qed.
Lemma long_end pos : 0 <= pos < zlen (string_data T) -> In 255 (zdrop pos (string_data T)).
Proof.
  intros H. cbn [T string_data] in *. rewrite zlen_app in H. change (zlen [255]) with 1 in H.
  rewrite zdrop_app_le by lia. apply in_or_app. right. left. auto.
Qed.
Lemma long_ref bs id : decode_string_ref_from_data bs = Ok id -> decode_string_ref_from_data (bs ++ y) = Ok id.
Proof.
  unfold decode_string_ref_from_data. destruct bs as [|b bs]; [discriminate|]. cbn [app].
  destruct (b =? STRING_REF_TAG); [|discriminate]. destruct (Z.leb_spec 9 (zlen (b :: bs))) as [H|H]; [|discriminate].
  change (b :: bs ++ y) with ((b :: bs) ++ y). rewrite zlen_app. pose proof (zlen_nonneg y).
  destruct (Z.leb_spec 9 (zlen (b :: bs) + zlen y)); [|lia]. intros E. rewrite <- E. f_equal. f_equal. unfold zslice.
  rewrite (zdrop_app_le 1 (b :: bs) y) by lia. rewrite ztake_app_le; auto. rewrite zlen_zdrop by lia. lia.
Qed.

Lemma long_write : forall f,
  (forall id s, write_to_string f T id = Ok s -> write_to_string f T' id = Ok s) /\
  (forall pos s, write_loop f T pos = Ok s -> write_loop f T' pos = Ok s).
Proof.
  induction f as [|f [IH1 IH2]]; [split; discriminate|]. split.
  - intros id s H. cbn [write_to_string] in *. rewrite long_addr. destruct (get_addr T id); auto.
  - intros pos s H. cbn [write_loop] in *. destruct (znth pos (string_data T)) as [c|] eqn:En; [|discriminate].
    destruct (long_nth _ _ En) as [-> Hb]. destruct (c =? TERMINATOR); auto. destruct (c =? STRING_REF_TAG).
    + apply bind_ok in H. destruct H as (id & E1 & H). apply bind_ok in H. destruct H as (s1 & E2 & H).
      apply bind_ok in H. destruct H as (s2 & E3 & H). rewrite long_drop by lia. rewrite (long_ref _ _ E1). cbn [bind].
      rewrite (IH1 _ _ E2). cbn [bind]. rewrite (IH2 _ _ E3). exact H.
    + cbv zeta in *. rewrite long_drop by lia.
      destruct (memchr2_in 255 254 (zdrop pos (string_data T)) (or_introl (long_end pos Hb))) as (n & Hn).
      rewrite Hn in H. rewrite (memchr2_prefix _ _ _ y _ Hn). pose proof (memchr2_bound _ _ _ _ Hn).
      apply bind_ok in H. destruct H as (r & E1 & H). rewrite (IH2 _ _ E1). cbn [bind]. rewrite ztake_app_le by lia. exact H.
Qed.

Lemma long_to_string : forall f id s, to_string f T id = Ok s -> to_string f T' id = Ok s.
Proof.
  induction f as [|f IH]; intros id s H; [discriminate|]. cbn [to_string] in *. rewrite long_addr. destruct (get_addr T id) as [pos| | |]; auto.
  cbv zeta in *. destruct (Z.ltb_spec (zlen (string_data T)) pos) as [|Hpos]; [discriminate|].
  destruct (memchr TERMINATOR (zdrop pos (string_data T))) as [n|] eqn:Hn; [|discriminate].
  destruct (znth pos (string_data T)) as [c|] eqn:En; [|discriminate]. destruct (long_nth _ _ En) as [-> Hb].
  assert (Hl : zlen (string_data T') = zlen (string_data T) + zlen y) by (cbn [T T' string_data]; apply zlen_app).
  pose proof (zlen_nonneg y). destruct (Z.ltb_spec (zlen (string_data T')) pos); [lia|].
  rewrite long_drop by lia. unfold memchr in *. rewrite (memchr2_prefix _ _ _ y _ Hn). pose proof (memchr2_bound _ _ _ _ Hn).
  destruct ((c =? STRING_REF_TAG) && (n =? pos + STRING_REF_ENCODED_SIZE)).
  - apply bind_ok in H. destruct H as (id' & E1 & H). rewrite (long_ref _ _ E1). cbn [bind]. auto.
  - rewrite ztake_app_le by lia. destruct (utf8_valid _); auto. apply long_write. exact H.
Qed.
End Longer.

(** ** the addresses of the strings *)
Fixpoint place (a : Z) (l : list sstring) : list (sstring * Z) :=
  match l with [] => [] | s :: l' => (s, a) :: place (a + zlen (enc s)) l' end.

Lemma place_app a l1 l2 : place a (l1 ++ l2) = place a l1 ++ place (a + zlen (concat (map enc l1))) l2.
Proof.
  revert a. induction l1 as [|s l1 IH]; intros a; cbn [app place map concat].
  - change (zlen (@nil Z)) with 0. rewrite Z.add_0_r. reflexivity.
  - rewrite IH, zlen_app, Z.add_assoc. reflexivity.
Qed.

Lemma place_filter_all a l m : a + zlen (concat (map enc l)) <= m ->
  filter (fun p => snd p + zlen (enc (fst p)) <=? m) (place a l) = place a l.
Proof.
  revert a. induction l as [|s l IH]; intros a H; cbn [place filter map concat fst snd] in *; auto. rewrite zlen_app in H.
  pose proof (zlen_nonneg (concat (map enc l))). destruct (Z.leb_spec (a + zlen (enc s)) m); [|lia]. rewrite IH by lia. reflexivity.
Qed.
Lemma place_filter_none l m : forall a, m < a -> filter (fun p => snd p + zlen (enc (fst p)) <=? m) (place a l) = [].
Proof.
  induction l as [|s l IH]; intros a H; cbn [place filter fst snd]; auto. pose proof (zlen_nonneg (enc s)).
  destruct (Z.leb_spec (a + zlen (enc s)) m); [lia|]. apply IH. lia.
Qed.

Lemma effects_place en L K L2 : effects en K L2 -> sequentially_correct L -> forall L1, L = L1 ++ L2 ->
  allocations K = place (zlen (written TStrData (map fst L1))) (map fst (allocations K)).
Proof.
  intros He Hsc. induction He as [|k r o K L2 Hok Hop He IH]; intros L1 E; [reflexivity|].
  assert (E' : L = (L1 ++ [(o, r)]) ++ L2) by (rewrite <- app_assoc; exact E).
  specialize (IH _ E'). rewrite map_app, written_app in IH. cbn [map fst written] in IH.
  destruct (call_op_data _ _ _ Hop) as (_ & Hd & Ho).
  destruct k; try (cbn [allocations]; rewrite IH at 1;
    assert (tag_eqb (op_tag o) TStrData = false) as -> by
      (destruct (tag_eqb (op_tag o) TStrData) eqn:Et; auto; apply tag_eqb_eq in Et; exfalso; clear -Hop Et;
       cbn [call_op] in Hop;
       first [unfold map_virtual_op in Hop; destruct (_ <=? _); [|discriminate]; apply bind_ok in Hop; destruct Hop as (? & _ & Hop); inversion Hop; subst; discriminate Et
             |unfold bulk_map_op in Hop; apply bind_ok in Hop; destruct Hop as (? & _ & Hop); apply bind_ok in Hop; destruct Hop as (? & _ & Hop); inversion Hop; subst; discriminate Et
             |apply bind_ok in Hop; destruct Hop as (? & _ & Hop); inversion Hop; subst; discriminate Et]);
    rewrite !app_nil_r; reflexivity).
  cbn [call_op] in Hop. inversion Hop; subst o. cbn [allocations map fst place].
  assert (Er : r = zlen (written TStrData (map fst L1))) by apply (Hsc L1 _ r L2 E).
  rewrite IH at 1. subst r. change (tag_eqb (op_tag (alloc_op s)) TStrData) with true. cbv iota.
  rewrite alloc_op_data, app_nil_r, zlen_app. reflexivity.
Qed.

Lemma session_place en md r0 K L : session en md r0 K L ->
  allocations K = place (8 + zlen (enc (SStr md))) (map fst (allocations K)).
Proof.
  intros (Hmd & Hsc & H & o2 & r2 & L2 & HH & H2 & He & E).
  assert (E' : L = (H ++ [(init_alloc md, r0); (o2, r2)]) ++ L2) by (rewrite <- app_assoc; exact E).
  pose proof (effects_place en L K L2 He Hsc _ E') as P. rewrite P at 1. f_equal.
  rewrite map_app, HH, written_app. cbn [map fst written]. destruct (init_op2_index _ _ H2) as (a & ->).
  unfold init_alloc. rewrite zlen_app. change (zlen (written TStrData init_headers)) with 8.
  change (tag_eqb (op_tag (alloc_op (SStr md))) TStrData) with true. change (tag_eqb (op_tag (index_op METADATA_STRING_ID a)) TStrData) with false.
  cbv iota. rewrite alloc_op_data, !app_nil_r. reflexivity.
Qed.

(** ** a session for any sequence of acceptable calls *)
Lemma session_of_calls en md ks : utf8 md -> Forall (fun k => call_ok k /\ exists o, call_op en k = Ok o) ks ->
  exists K L, session en md 8 K L /\ map fst K = ks.
Proof.
  intros Hmd Hk.
  set (o2 := index_op METADATA_STRING_ID 8).
  assert (HX : forall before, exists K L2, effects en K L2 /\ map fst K = ks /\ exists ops, L2 = execute before ops).
  { clear -Hk. induction Hk as [|k ks [Hok (o & Ho)] _ IH]; intros before.
    - exists [], []. split; [constructor|]. split; auto. exists []. auto.
    - destruct (IH (before ++ [o])) as (K & L2 & He & HK & ops & ->).
      exists ((k, op_result o (zlen (written (op_tag o) before))) :: K), ((o, op_result o (zlen (written (op_tag o) before))) :: execute (before ++ [o]) ops).
      split; [constructor; auto|]. split; [cbn; f_equal; auto|]. exists (o :: ops). auto. }
  destruct (HX (init_headers ++ [init_alloc md; o2])) as (K & L2 & He & HK & ops & EL).
  exists K, (execute [] (init_headers ++ init_alloc md :: o2 :: ops)). split; [|exact HK].
  split; auto. split; [apply execute_seq|].
  assert (EA : forall a b before, execute before (a ++ b) = execute before a ++ execute (before ++ a) b).
  { induction a as [|x a IH]; intros b before; cbn [app execute]; [rewrite app_nil_r; auto|]. rewrite IH, <- app_assoc. reflexivity. }
  exists (execute [] init_headers), o2, 8, L2. split; [apply execute_fst|]. split; [reflexivity|]. split; auto.
  rewrite EA. f_equal. cbn [app execute]. rewrite EL. rewrite <- !app_assoc. cbn [app]. f_equal.
Qed.

(** ** what is left of a session *)
Definition want_call (w : Z * Z * Z * want) : call :=
  match w with
  | (kind, id, tid, WInstant t) => KInstant kind id tid t
  | (kind, id, tid, WInteger v) => KInteger kind id tid v
  | (kind, id, tid, WInterval s e) => KInterval kind id tid s e
  end.
Definition calls_of (ss : list sstring) (ms : list (Z * Z)) (ws : list (Z * Z * Z * want)) : list call :=
  map KAlloc ss ++ map (fun m => KMap (fst m) (snd m)) ms ++ map want_call ws.
Definition alloc_of (k : call) : list sstring := match k with KAlloc s => [s] | _ => [] end.
Definition event_of (k : call) : list (Z * Z * Z * want) := match call_event k with Some e => [e] | None => [] end.

Lemma allocations_calls K : map fst (allocations K) = flat_map alloc_of (map fst K).
Proof. induction K as [|[[] r] K IH]; cbn [allocations map fst flat_map alloc_of app]; auto. f_equal. auto. Qed.
Lemma recorded_calls K : recorded K = flat_map event_of (map fst K).
Proof. induction K as [|[k r] K IH]; cbn [recorded map fst flat_map]; auto. unfold event_of at 1. destruct (call_event k); cbn [app]; rewrite IH; auto. Qed.
Lemma mappings_calls K : mappings K = flat_map call_mappings (map fst K).
Proof. unfold mappings. rewrite flat_map_concat_map, flat_map_concat_map, map_map. reflexivity. Qed.

Lemma flat_map_single {A B C} (f : B -> list C) (g : A -> B) (h : A -> C) l : (forall a, f (g a) = [h a]) -> flat_map f (map g l) = map h l.
Proof. intros H. induction l as [|a l IH]; cbn [map flat_map]; auto. rewrite H, IH. reflexivity. Qed.
Lemma flat_map_none {A B C} (f : B -> list C) (g : A -> B) l : (forall a, f (g a) = []) -> flat_map f (map g l) = [].
Proof. intros H. induction l as [|a l IH]; cbn [map flat_map]; auto. rewrite H, IH. reflexivity. Qed.

Lemma calls_of_parts ss ms ws : flat_map alloc_of (calls_of ss ms ws) = ss /\
  flat_map call_mappings (calls_of ss ms ws) = ms /\ flat_map event_of (calls_of ss ms ws) = ws.
Proof.
  unfold calls_of. rewrite !flat_map_app. split; [|split].
  - rewrite (flat_map_single alloc_of KAlloc (fun s => s)), map_id by reflexivity. rewrite !flat_map_none, !app_nil_r; auto.
    intros [[[? ?] ?] []]; reflexivity.
  - rewrite (flat_map_single call_mappings (fun m => KMap (fst m) (snd m)) (fun m => m)), map_id by (intros []; reflexivity).
    rewrite !flat_map_none, !app_nil_r; auto. intros [[[? ?] ?] []]; reflexivity.
  - rewrite (flat_map_single event_of want_call (fun m => m)), map_id by (intros [[[? ?] ?] []]; reflexivity).
    rewrite !flat_map_none; auto.
Qed.

Lemma prefix_Forall {A} (P : A -> Prop) a b : prefix a b -> Forall P b -> Forall P a.
Proof. intros [c ->] H. apply Forall_app in H. tauto. Qed.

Lemma cut_session en md r0 K L ss ms ws : session en md r0 K L ->
  prefix ss (map fst (allocations K)) -> prefix ms (mappings K) -> prefix ws (recorded K) ->
  exists K' L', session en md r0 K' L' /\ map fst (allocations K') = ss /\ mappings K' = ms /\ recorded K' = ws.
Proof.
  intros HS Hss Hms Hws. rewrite (session_r0 en md r0 K L HS).
  destruct (session_of_calls en md (calls_of ss ms ws)) as (K' & L' & HS' & HK).
  - apply HS.
  - destruct (session_effects en md r0 K L HS) as (L2 & He). pose proof (effects_accepted _ _ _ He) as Ha.
    unfold calls_of. repeat (apply Forall_app; split).
    + apply Forall_map. eapply prefix_Forall; [exact Hss|]. clear -Ha. rewrite allocations_calls.
      induction Ha as [|[k r] K [H1 H2] _ IH]; cbn [map fst flat_map]; [constructor|]. apply Forall_app. split; auto.
      destruct k; cbn [alloc_of]; constructor; [|constructor]. split; [exact H1|]. cbn [call_op]. eauto.
    + apply Forall_map. eapply prefix_Forall; [exact Hms|]. eapply Forall_impl; [|apply (session_mappings en md r0 K L HS)].
      intros [v c] (Hv & Hv2 & Hc & Hc2). cbn [fst snd] in *. split; [split; auto|]. cbn [call_op]. unfold map_virtual_op, to_addr.
      change MAX_USER_VIRTUAL_STRING_ID with 100000000. change FIRST_REGULAR_STRING_ID with 100000003.
      destruct (Z.leb_spec v 100000000); [|lia]. destruct (Z.leb_spec 100000003 c); [|lia]. cbn [bind]. eauto.
    + apply Forall_map. eapply prefix_Forall; [exact Hws|]. eapply Forall_impl; [|apply (session_recorded en md r0 K L HS)].
      intros [[[kind id] tid] [t|v|s e]] (Hk & Hi & Ht & Hw); cbn [want_call call_ok call_op].
      * split; [tauto|]. unfold new_instant. destruct (Z.leb_spec t MAX_SINGLE_VALUE); [|lia]. cbn [bind]. eauto.
      * split; [tauto|]. unfold new_integer. destruct (Z.leb_spec v MAX_SINGLE_VALUE); [|lia]. cbn [bind]. eauto.
      * split; [tauto|]. unfold new_interval. destruct (Z.leb_spec s e); [|lia]. destruct (Z.leb_spec e MAX_INTERVAL_VALUE); [|lia]. cbn [bind]. eauto.
  - exists K', L'. split; auto. rewrite allocations_calls, mappings_calls, recorded_calls, HK. apply calls_of_parts.
Qed.

Lemma string_bytes (K : list (call * Z)) : concat (map (fun k : call * Z => call_bytes TStrData (fst k)) K) = concat (map enc (map fst (allocations K))).
Proof.
  rewrite allocations_calls. induction K as [|[k r] K IH]; [reflexivity|]. cbn [map concat fst flat_map]. rewrite IH, map_app, concat_app.
  destruct k; cbn [call_bytes alloc_of map concat]; rewrite ?app_nil_r; reflexivity.
Qed.

Lemma strings_end md (ss : list sstring) : exists x, hdr FILE_MAGIC_STRINGTABLE_DATA ++ enc (SStr md) ++ concat (map enc ss) = x ++ [255].
Proof.
  change (enc (SStr md) ++ concat (map enc ss)) with (concat (map enc (SStr md :: ss))).
  destruct (exists_last (l := SStr md :: ss) ltac:(discriminate)) as (l & s & ->). rewrite map_app, concat_app. cbn [map concat].
  destruct (enc_last s) as (b & ->). rewrite app_nil_r. exists (hdr FILE_MAGIC_STRINGTABLE_DATA ++ concat (map enc l) ++ b).
  rewrite <- !app_assoc. reflexivity.
Qed.

Lemma stream_prefix_split {B} magic (f : B -> bytes) n l p : zlen magic = 4 -> 0 < n -> (forall x, zlen (f x) = n) ->
  prefix p (hdr magic ++ concat (map f l)) -> 8 <= zlen p -> (zlen p - 8) mod n = 0 ->
  exists l1, prefix l1 l /\ p = hdr magic ++ concat (map f l1).
Proof.
  intros Hm Hn Hf Hp Hl Hmod. destruct (prefix_ge _ _ _ Hp) as (p' & -> & Hp'); [rewrite zlen_hdr; auto|].
  rewrite zlen_app, zlen_hdr in Hmod by auto. replace (8 + zlen p' - 8) with (zlen p') in Hmod by lia.
  destruct (prefix_concat f l p' Hp') as (l1 & l2 & q & -> & -> & Hq). exists l1. split; [eexists; reflexivity|].
  rewrite zlen_app in Hmod. rewrite (concat_len n) in Hmod by (apply Forall_map, Forall_forall; intros; apply Hf).
  assert (Eq : q = []).
  { destruct Hq as [[-> _]|(x & l3 & -> & _ & Hlt)]; auto. rewrite Hf in Hlt. apply zlen_0. pose proof (zlen_nonneg q).
    rewrite Z.add_comm, Z.mod_add, Z.mod_small in Hmod by lia. exact Hmod. }
  rewrite Eq, app_nil_r. reflexivity.
Qed.

Lemma verify_ok bs magic : verify_file_header bs magic = Ok tt -> 8 <= zlen bs.
Proof. unfold verify_file_header. change FILE_HEADER_SIZE with 8. destruct (Z.ltb_spec (zlen bs) 8); [discriminate|auto]. Qed.

Lemma table_inv sd ix tbl : string_table_new sd ix = Ok tbl ->
  verify_file_header sd FILE_MAGIC_STRINGTABLE_DATA = Ok tt /\ verify_file_header ix FILE_MAGIC_STRINGTABLE_INDEX = Ok tt /\
  (zlen ix - 8) mod 16 = 0 /\ string_data tbl = sd.
Proof.
  unfold string_table_new. intros H. apply bind_ok in H. destruct H as ([] & E1 & H). apply bind_ok in H. destruct H as ([] & E2 & H).
  change FILE_HEADER_SIZE with 8 in H. change INDEX_ENTRY_SIZE with 16 in H. destruct (Z.eqb_spec ((zlen ix - 8) mod 16) 0); [|discriminate].
  apply bind_ok in H. destruct H as (st & _ & H). apply bind_ok in H. destruct H as (es & _ & H). inversion H; subst. auto.
Qed.

Lemma present_some b x : present b = Some x -> b = x.
Proof. unfold present. destruct b; [discriminate|]. intros H. inversion H. auto. Qed.

Lemma Ok_inj {A} (a b : A) : Ok a = Ok b -> a = b.
Proof. intros H. inversion H. auto. Qed.

Lemma crash_decoder en md r0 K L pages parse fuel d : session en md r0 K L -> Forall page_ok pages ->
  (forall t, prefix (stream t pages) (written t (map fst L))) ->
  (stream TEvents pages = [] \/
   exists k, stream TEvents pages = hdr FILE_MAGIC_EVENT_STREAM ++ concat (map raw_bytes (map want_raw (firstn k (recorded K))))) ->
  (forall m, parse UNKNOWN_STRING <> Ok m) -> decoder_new parse fuel (file_of (enc_pages pages)) = Ok d ->
  exists K' L' x y, session en md r0 K' L' /\
    cut_to (zlen (stream TStrData pages)) (zlen (stream TStrIndex pages)) (zlen (stream TEvents pages)) K K' /\
    parse md = Ok (d_metadata d) /\ event_data d = written TEvents (map fst L') /\
    written TStrData (map fst L') = x ++ [255] /\ stringtable d = mkTable ((x ++ [255]) ++ y) (index (session_table K' L')).
Proof.
  intros HS Hp Hpre Hev Hun Hd. unfold decoder_new, file_of in Hd.
  change (concat (header_writes FILE_MAGIC_TOP_LEVEL)) with (hdr FILE_MAGIC_TOP_LEVEL) in Hd.
  rewrite verify_hdr in Hd by reflexivity. cbn [bind] in Hd. rewrite zdrop_app_eq in Hd by reflexivity.
  rewrite split_pages in Hd by (eapply Forall_impl; [|exact Hp]; apply page_ok_wf). cbn [bind] in Hd. unfold streams_of in Hd. cbn [tget tm_ev tm_sd tm_si] in Hd.
  apply bind_ok in Hd. destruct Hd as (sd & Esd & Hd). apply bind_ok in Hd. destruct Hd as (ix & Eix & Hd). apply bind_ok in Hd. destruct Hd as (ev & Eev & Hd).
  destruct (present (stream TStrData pages)) as [sd'|] eqn:P1; [|discriminate]. apply present_some in P1. cbn in Esd. injection Esd as ->.
  destruct (present (stream TStrIndex pages)) as [ix'|] eqn:P2; [|discriminate]. apply present_some in P2. cbn in Eix. injection Eix as ->.
  destruct (present (stream TEvents pages)) as [ev'|] eqn:P3; [|discriminate]. apply present_some in P3. cbn in Eev. injection Eev as ->.
  unfold from_separate_buffers in Hd. apply bind_ok in Hd. destruct Hd as ([] & V3 & Hd). apply bind_ok in Hd. destruct Hd as (tbl & Et & Hd).
  apply bind_ok in Hd. destruct Hd as (text & Etext & Hd). apply bind_ok in Hd. destruct Hd as (m & Em & Hd). inversion Hd; subst d. clear Hd.
  cbn [event_data d_metadata stringtable].
  destruct (table_inv _ _ _ Et) as (V1 & V2 & Hmod & _). apply verify_ok in V1, V2, V3.
  pose proof (Hpre TStrData) as Q1. pose proof (Hpre TStrIndex) as Q2. rewrite (session_written en md r0 K L HS) in Q1, Q2. rewrite P1 in *. rewrite P2 in *. rewrite P3 in *.
  rewrite string_bytes in Q1.
  (* the index *)
  destruct (stream_prefix_split FILE_MAGIC_STRINGTABLE_INDEX entry_bytes 16 _ ix eq_refl eq_refl zlen_entry Q2 V2 Hmod) as (es & [es2 Ees] & Eix).
  destruct (prefix_ge _ _ _ Q1) as (sd1 & Esd & Q1'); [rewrite zlen_hdr; auto|].
  assert (Hes : exists ms, es = (METADATA_STRING_ID, 8) :: map addr_entry ms /\ prefix ms (mappings K)).
  { destruct es as [|e es].
    - exfalso. rewrite Eix, Esd, (string_table_new_ok sd1 []) in Et by constructor. inversion Et; subst tbl.
      destruct fuel; [discriminate|]. cbn [metadata_string to_string get_addr] in Etext. unfold metadata_string in Etext. cbn [to_string] in Etext.
      change (get_addr (mkTable (hdr FILE_MAGIC_STRINGTABLE_DATA ++ sd1) []) METADATA_STRING_ID) with (@Err Z) in Etext. cbv iota in Etext.
      inversion Etext; subst text. apply (Hun m Em).
    - cbn [app] in Ees. apply cons_inv in Ees. destruct Ees as [<- Ees]. exists (firstn (length es) (mappings K)).
      split; [|exists (skipn (length es) (mappings K)); rewrite firstn_skipn; auto]. f_equal.
      rewrite <- firstn_map, Ees, firstn_app, Nat.sub_diag, firstn_all. cbn [firstn]. rewrite app_nil_r. auto. }
  destruct Hes as (ms & -> & Hms).
  assert (Hrange : Forall (fun e => is_u64 (fst e) /\ is_u64 (snd e)) ((METADATA_STRING_ID, 8) :: map addr_entry ms)).
  { constructor; [split; cbn; unfold is_u64, METADATA_STRING_ID, MAX_USER_VIRTUAL_STRING_ID; lia|].
    apply Forall_map. eapply Forall_impl; [|eapply prefix_Forall; [exact Hms|apply (session_mappings en md r0 K L HS)]].
    unfold addr_entry, is_u64. cbn [fst snd]. change FIRST_REGULAR_STRING_ID with 100000003. intros a; lia. }
  rewrite Eix, Esd, (string_table_new_ok sd1 _ Hrange) in Et. apply Ok_inj in Et. subst tbl.
  (* the metadata is complete *)
  assert (Hlook : lookup METADATA_STRING_ID ((METADATA_STRING_ID, 8) :: map addr_entry ms) = Some 8).
  { change ((METADATA_STRING_ID, 8) :: map addr_entry ms) with ([(METADATA_STRING_ID, 8)] ++ map addr_entry ms). rewrite lookup_mappings.
    rewrite last_mapping_none; [reflexivity|]. intros Hin. apply in_map_iff in Hin. destruct Hin as ([v c] & Ev & Hin). cbn in Ev. subst v.
    pose proof (session_mappings en md r0 K L HS) as F. rewrite Forall_forall in F. destruct Hms as [z Hz]. 
    destruct (F (METADATA_STRING_ID, c)) as (_ & Hle & _); [rewrite Hz; apply in_or_app; auto|]. cbn in Hle. unfold METADATA_STRING_ID, MAX_USER_VIRTUAL_STRING_ID in Hle. lia. }
  assert (Hmdlen : zlen (enc (SStr md)) <= zlen sd1).
  { destruct (Z_lt_le_dec (zlen sd1) (zlen (enc (SStr md)))) as [Hlt|]; auto. exfalso.
    destruct fuel; [discriminate|]. unfold metadata_string in Etext. cbn [to_string] in Etext.
    assert (Eg : get_addr (mkTable (hdr FILE_MAGIC_STRINGTABLE_DATA ++ sd1) ((METADATA_STRING_ID, 8) :: map addr_entry ms)) METADATA_STRING_ID = Ok 8).
    { unfold get_addr. change (is_virtual METADATA_STRING_ID) with true. cbv iota. cbn [index]. rewrite Hlook. reflexivity. }
    rewrite Eg in Etext. cbv zeta in Etext. cbn [string_data] in Etext.
    destruct (_ <? 8); [discriminate|]. rewrite zdrop_app_eq in Etext by reflexivity.
    destruct (memchr TERMINATOR sd1) as [n|] eqn:Hn; [|discriminate]. apply memchr2_found in Hn.
    assert (H255 : In 255 sd1) by (destruct Hn; auto). clear -Q1' Hlt H255 HS.
    destruct Q1' as [z Ez]. symmetry in Ez. destruct (app_prefix sd1 z (enc (SStr md)) _ Ez) as (w & Ew & _); [lia|].
    cbn [enc] in Ew, Hlt. destruct (exists_last_or w) as [->|(w' & b & ->)].
    - rewrite app_nil_r in Ew. rewrite <- Ew in Hlt. lia.
    - rewrite app_assoc in Ew. apply app_inj_tail in Ew. destruct Ew as [Ew _].
      assert (In 255 md) by (rewrite Ew; apply in_or_app; auto). destruct HS as (Hu & _). apply (utf8_max md) in H; auto; lia. }
  destruct (prefix_ge _ _ _ Q1' Hmdlen) as (sd2 & -> & Q1'').
  destruct (prefix_concat enc _ _ Q1'') as (ss & ss2 & y & Ess & -> & Hy).
  (* the events *)
  assert (Hws : exists ws, prefix ws (recorded K) /\ ev = hdr FILE_MAGIC_EVENT_STREAM ++ concat (map raw_bytes (map want_raw ws))).
  { destruct Hev as [->|(k & E)]; [change (zlen (@nil Z)) with 0 in V3; lia|]. exists (firstn k (recorded K)).
    split; [exists (skipn k (recorded K)); rewrite firstn_skipn; auto|auto]. }
  destruct Hws as (ws & Hws & Eev).
  destruct (cut_session en md r0 K L ss ms ws HS) as (K' & L' & HS' & A' & M' & R'); auto.
  { exists ss2. exact Ess. }
  destruct (strings_end md ss) as (x & Ex).
  assert (W1 : written TStrData (map fst L') = x ++ [255]).
  { rewrite (session_written en md r0 K' L' HS' TStrData), string_bytes, A'. exact Ex. }
  assert (ET : mkTable sd ((METADATA_STRING_ID, 8) :: map addr_entry ms) = mkTable ((x ++ [255]) ++ y) (index (session_table K' L'))).
  { cbn [session_table index]. rewrite M', <- Ex, Esd, <- !app_assoc. reflexivity. }
  exists K', L', x, y. split; auto. split; [|split; [|split; [|split; [exact W1|]]]].
  - split; [|split; [rewrite M'; exact Hms|split; [|split; [rewrite R'; exact Hws|]]]].
    + rewrite (session_place en md r0 K' L' HS'), A', (session_place en md r0 K L HS), Ess, place_app, filter_app.
      assert (Elen : zlen sd = 8 + zlen (enc (SStr md)) + zlen (concat (map enc ss)) + zlen y).
      { rewrite Esd, !zlen_app, zlen_hdr by reflexivity. unfold bytes in *. lia. }
      pose proof (zlen_nonneg y).
      rewrite place_filter_all by (rewrite Elen; unfold bytes in *; lia).
      replace (filter _ (place _ ss2)) with (@nil (sstring * Z)); [rewrite app_nil_r; auto|].
      destruct Hy as [[_ ->]|(s & l3 & -> & _ & Hlt)]; [reflexivity|]. cbn [place filter fst snd].
      match goal with |- context [?a <=? ?b] => destruct (Z.leb_spec a b); [unfold bytes in *; lia|] end.
      symmetry. apply place_filter_none. unfold bytes in *; lia.
    + rewrite Eix, zlen_app, zlen_hdr by reflexivity. rewrite (concat_len 16) by (apply Forall_map, Forall_forall; intros; apply zlen_entry).
      rewrite zlen_map, zlen_cons, zlen_map, M'. lia.
    + rewrite Eev, zlen_app, zlen_hdr by reflexivity.
      rewrite (concat_len 32) by (apply Forall_map, Forall_forall; intros; apply zlen_raw_bytes). rewrite !zlen_map, R'. lia.
  - rewrite <- Esd, ET in Etext. destruct (session_metadata en md r0 K' L' HS') as (n & Hn).
    assert (E1 : metadata_string n (mkTable ((x ++ [255]) ++ y) (index (session_table K' L'))) = Ok md).
    { unfold metadata_string. apply long_to_string. rewrite <- W1. exact (Hn n (le_n n)). }
    unfold metadata_string in *. apply (ts_mono _ _ (n + fuel)) in E1; [|lia]. apply (ts_mono _ _ (n + fuel)) in Etext; [|lia].
    rewrite E1 in Etext. inversion Etext; subst text. exact Em.
  - rewrite (session_written en md r0 K' L' HS' TEvents), R'. exact Eev.
  - rewrite <- Esd. exact ET.
Qed.
