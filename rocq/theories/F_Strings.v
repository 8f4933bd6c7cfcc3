(** Proofs about the string table, part 1: encoders and expansion. *)
From Coq Require Import ZArith List Lia Bool.
From Verif Require Import M_Base F_Base M_Sink S_Sink M_Utf8 S_Utf8 F_Utf8 M_Header M_Strings M_StrTable S_Strings F_Raw.
Import ListNotations.
Open Scope Z_scope.

(** *** encoders *)
Lemma comp_size_enc c : zlen (enc_comp c) = comp_size c.
Proof.
  destruct c; [reflexivity|]. unfold enc_comp. rewrite zlen_cons, zlen_le_bytes. reflexivity.
Qed.

Lemma comps_size_enc cs : zlen (concat (map enc_comp cs)) = zsum (map comp_size cs).
Proof.
  induction cs as [|c cs IH]; [reflexivity|]. cbn [map concat]. rewrite zlen_app, comp_size_enc, IH, zsum_cons. reflexivity.
Qed.

Lemma enc_size s : zlen (enc s) = serialized_size s.
Proof.
  destruct s; unfold enc, serialized_size; rewrite zlen_app; [|rewrite comps_size_enc]; reflexivity.
Qed.

Lemma enc_size_pos s : 1 <= serialized_size s.
Proof.
  rewrite <- enc_size. destruct s; unfold enc; rewrite zlen_app; [pose proof (zlen_nonneg s)|
    pose proof (zlen_nonneg (concat (map enc_comp cs)))]; change (zlen [255]) with 1; lia.
Qed.

Lemma comps_serialize_ok cs : forall buf rest,
  zlen buf = zsum (map comp_size cs) + rest -> 0 <= rest ->
  exists b, comps_serialize cs buf = Ok (concat (map enc_comp cs), b) /\ zlen b = rest.
Proof.
  induction cs as [|c cs IH]; intros buf rest Hl Hr.
  - exists buf. split; [reflexivity|]. cbn in Hl. lia.
  - cbn [map] in Hl. rewrite zsum_cons in Hl.
    assert (Hs : 0 <= zsum (map comp_size cs)) by (rewrite <- comps_size_enc; apply zlen_nonneg).
    assert (Hc : 0 <= comp_size c) by (rewrite <- comp_size_enc; apply zlen_nonneg).
    assert (E : comp_serialize c buf = Ok (enc_comp c, zdrop (comp_size c) buf)).
    { destruct c; unfold comp_serialize, comp_size in *.
      - destruct (Z.leb_spec (zlen s) (zlen buf)); [reflexivity|lia].
      - destruct (Z.leb_spec STRING_REF_ENCODED_SIZE (zlen buf)); [reflexivity|lia]. }
    cbn [comps_serialize]. rewrite E. cbn [bind fst snd].
    destruct (IH (zdrop (comp_size c) buf) rest) as (b & E2 & Hb); auto.
    { rewrite zlen_zdrop; lia. }
    rewrite E2. exists b. cbn [bind fst snd map concat]. auto.
Qed.

Lemma serialize_string_ok s buf : zlen buf = serialized_size s -> serialize_string s buf = Ok (enc s).
Proof.
  intros H. pose proof (enc_size_pos s). destruct s as [s|cs]; unfold serialize_string.
  - destruct (Z.leb_spec (zlen buf) 0); [lia|]. simpl serialized_size in H.
    destruct (Z.eqb_spec (zlen buf - 1) (zlen s)); [reflexivity|lia].
  - rewrite H, Z.eqb_refl. unfold serialized_size in H.
    destruct (comps_serialize_ok cs buf 1) as (b & E & Hb); [lia|lia|].
    rewrite E. cbn [bind fst snd]. rewrite Hb. reflexivity.
Qed.

Lemma alloc_op_ok s : op_ok (alloc_op s).
Proof.
  pose proof (enc_size_pos s). unfold alloc_op, op_ok, serialize_callback.
  rewrite serialize_string_ok by (rewrite zlen_zeros; lia). cbn. rewrite enc_size. repeat split; lia.
Qed.

Lemma alloc_op_data s : op_data (alloc_op s) = enc s.
Proof.
  pose proof (enc_size_pos s). unfold alloc_op, op_data, serialize_callback.
  rewrite serialize_string_ok by (rewrite zlen_zeros; lia). reflexivity.
Qed.

Lemma index_op_ok id addr : op_ok (index_op id addr).
Proof.
  unfold index_op, op_ok. change (16 <=? zlen (zeros 16)) with true. cbn [fst snd].
  rewrite !zlen_app, !zlen_le_bytes. change (zlen (zdrop 16 (zeros 16))) with 0. repeat split; lia.
Qed.

Lemma index_op_data id addr : op_data (index_op id addr) = le_bytes 8 id ++ le_bytes 8 addr.
Proof.
  unfold index_op, op_data. change (16 <=? zlen (zeros 16)) with true. cbn [fst].
  change (zdrop 16 (zeros 16)) with (@nil Z). rewrite app_nil_r. reflexivity.
Qed.

Lemma bulk_bytes_ok vs addr : Forall (fun v => v <= MAX_USER_VIRTUAL_STRING_ID) vs ->
  bulk_bytes vs addr = Ok (concat (map (fun v => le_bytes 8 v ++ le_bytes 8 addr) vs)).
Proof.
  induction 1 as [|v vs Hv _ IH]; [reflexivity|]. cbn [bulk_bytes].
  destruct (Z.leb_spec v MAX_USER_VIRTUAL_STRING_ID); [|lia]. rewrite IH. cbn [bind map concat].
  rewrite <- app_assoc. reflexivity.
Qed.

Lemma bulk_bytes_panic vs addr : Exists (fun v => MAX_USER_VIRTUAL_STRING_ID < v) vs ->
  bulk_bytes vs addr = Panic.
Proof.
  induction 1 as [v vs Hv|v vs _ IH]; cbn [bulk_bytes].
  - destruct (Z.leb_spec v MAX_USER_VIRTUAL_STRING_ID); [lia|reflexivity].
  - rewrite IH. destruct (v <=? MAX_USER_VIRTUAL_STRING_ID); reflexivity.
Qed.

(** *** scanning *)
Lemma memchr2_spec a b l :
  match memchr2 a b l with
  | Some n => 0 <= n < zlen l /\ (znth n l = Some a \/ znth n l = Some b) /\ ~ In a (ztake n l) /\ ~ In b (ztake n l)
  | None => ~ In a l /\ ~ In b l
  end.
Proof.
  induction l as [|x l IH]; [cbn; auto|]. cbn [memchr2].
  destruct (Z.eqb_spec x a); cbn [orb].
  { subst. repeat split; cbn; auto; rewrite ?zlen_cons; try (pose proof (zlen_nonneg l); lia); auto. }
  destruct (Z.eqb_spec x b).
  { subst. repeat split; cbn; auto; rewrite ?zlen_cons; try (pose proof (zlen_nonneg l); lia); auto. }
  destruct (memchr2 a b l) as [m|].
  - destruct IH as (H1 & H2 & H3 & H4). rewrite zlen_cons.
    assert (E : znth (1 + m) (x :: l) = znth m l).
    { change (x :: l) with ([x] ++ l). rewrite znth_app_r by (change (zlen [x]) with 1; lia).
      change (zlen [x]) with 1. f_equal. lia. }
    assert (E2 : ztake (1 + m) (x :: l) = x :: ztake m l).
    { unfold ztake. replace (Z.to_nat (1 + m)) with (S (Z.to_nat m)) by lia. reflexivity. }
    rewrite E, E2. repeat split; try lia; auto; cbn; intros [?|?]; auto; congruence.
  - destruct IH. split; cbn; intros [?|?]; auto; congruence.
Qed.

Lemma memchr2_app a b pre l : ~ In a pre -> ~ In b pre ->
  memchr2 a b (pre ++ l) = match memchr2 a b l with Some n => Some (zlen pre + n) | None => None end.
Proof.
  induction pre as [|x pre IH]; intros Ha Hb.
  - cbn. destruct (memchr2 a b l); auto.
  - cbn [app memchr2]. cbn in Ha, Hb.
    destruct (Z.eqb_spec x a); [tauto|]. destruct (Z.eqb_spec x b); [tauto|]. cbn [orb].
    rewrite IH by tauto. rewrite zlen_cons. destruct (memchr2 a b l); auto. f_equal. lia.
Qed.

Lemma memchr2_here a b x l : x = a \/ x = b -> memchr2 a b (x :: l) = Some 0.
Proof. intros [->| ->]; cbn; rewrite Z.eqb_refl, ?orb_true_r; reflexivity. Qed.

Lemma lossy_fuel_enough f1 : forall f2 bs, (length bs <= f1)%nat -> (length bs <= f2)%nat ->
  lossy_fuel f1 bs = lossy_fuel f2 bs.
Proof.
  induction f1; intros f2 bs H1 H2.
  - destruct bs; cbn in H1; [|lia]. destruct f2; reflexivity.
  - destruct bs as [|x bs]; [destruct f2; reflexivity|]. destruct f2; [cbn in H2; lia|].
    cbn [lossy_fuel]. pose proof (step_progress (x :: bs) ltac:(discriminate)) as Hp.
    destruct (utf8_step (x :: bs)) as [ok n]. cbn [snd] in Hp. f_equal.
    apply IHf1; rewrite skipn_length; cbn [length] in *; lia.
Qed.

Lemma lossy_app v w : utf8 v -> lossy (v ++ w) = v ++ lossy w.
Proof.
  intros (cs & H & ->). induction H as [|c cs Hc _ IH]; [reflexivity|].
  cbn [flat_map]. rewrite <- !app_assoc. rewrite <- IH. unfold lossy at 1.
  pose proof (encode_len c) as Hl.
  destruct (length (encode c ++ flat_map encode cs ++ w)) as [|f] eqn:Ef.
  { rewrite app_length in Ef. lia. }
  destruct (encode c ++ flat_map encode cs ++ w) as [|x l] eqn:E; [discriminate|].
  cbn [lossy_fuel]. rewrite <- E, step_encode by auto. rewrite skipn_len, firstn_len. f_equal.
  apply lossy_fuel_enough; auto.
  assert (length (encode c ++ flat_map encode cs ++ w) = S f) as El by (rewrite E; exact Ef).
  rewrite app_length in El. lia.
Qed.

(** *** fuel *)
Lemma mono_step {A} (r r' : res A) (f : A -> res bytes) (s : bytes) :
  (forall a, r = Ok a -> r' = Ok a) -> bind r f = Ok s -> bind r' f = Ok s.
Proof. intros H. destruct r; cbn; try discriminate. intros E. rewrite (H a eq_refl). exact E. Qed.

Lemma bind_ok {A B} (r : res A) (f : A -> res B) b : bind r f = Ok b -> exists a, r = Ok a /\ f a = Ok b.
Proof. destruct r; cbn; try discriminate. eauto. Qed.

Lemma fuel_mono tbl : forall f,
  (forall id s, write_to_string f tbl id = Ok s -> write_to_string (S f) tbl id = Ok s) /\
  (forall pos s, write_loop f tbl pos = Ok s -> write_loop (S f) tbl pos = Ok s).
Proof.
  induction f as [|f [IH1 IH2]]; [split; intros ? ? H; discriminate H|]. split.
  - intros id s H. cbn [write_to_string] in H |- *. destruct (get_addr tbl id); auto.
  - intros pos s H. cbn [write_loop] in H. change (write_loop (S (S f)) tbl pos) with
      (match znth pos (string_data tbl) with
      | None => Panic
      | Some byte =>
          if byte =? TERMINATOR then Ok []
          else if byte =? STRING_REF_TAG then
            do id <- decode_string_ref_from_data (zdrop pos (string_data tbl));
            do s1 <- write_to_string (S f) tbl id;
            do s2 <- write_loop (S f) tbl (pos + STRING_REF_ENCODED_SIZE);
            Ok (s1 ++ s2)
          else
            match memchr2 255 254 (zdrop pos (string_data tbl)) with
            | Some len =>
                do rest <- write_loop (S f) tbl (pos + len);
                Ok (lossy (ztake len (zdrop pos (string_data tbl))) ++ rest)
            | None => Ok INVALID_STRING
            end
      end).
    destruct (znth pos (string_data tbl)) as [byte|]; [|exact H].
    destruct (byte =? TERMINATOR); [exact H|]. destruct (byte =? STRING_REF_TAG).
    + apply bind_ok in H. destruct H as (id & -> & H). apply bind_ok in H. destruct H as (s1 & H1 & H).
      apply bind_ok in H. destruct H as (s2 & H2 & H). cbn [bind]. rewrite (IH1 _ _ H1). cbn [bind].
      rewrite (IH2 _ _ H2). exact H.
    + cbv zeta in H. destruct (memchr2 255 254 (zdrop pos (string_data tbl))) as [len|]; [|exact H].
      apply bind_ok in H. destruct H as (r & H1 & H). rewrite (IH2 _ _ H1). exact H.
Qed.

Lemma wts_mono tbl f g id s : (f <= g)%nat -> write_to_string f tbl id = Ok s -> write_to_string g tbl id = Ok s.
Proof. induction 1; auto. intros. apply (proj1 (fuel_mono tbl m)). auto. Qed.
Lemma wl_mono tbl f g pos s : (f <= g)%nat -> write_loop f tbl pos = Ok s -> write_loop g tbl pos = Ok s.
Proof. induction 1; auto. intros. apply (proj2 (fuel_mono tbl m)). auto. Qed.

Lemma ts_mono1 tbl : forall f id s, to_string f tbl id = Ok s -> to_string (S f) tbl id = Ok s.
Proof.
  induction f as [|f IH]; intros id s H; [discriminate H|].
  change (to_string (S (S f)) tbl id) with
    (match get_addr tbl id with
      | Err => Ok UNKNOWN_STRING
      | Panic => Panic
      | Diverge => Diverge
      | Ok pos =>
          if zlen (string_data tbl) <? pos then Panic
          else
            match memchr TERMINATOR (zdrop pos (string_data tbl)) with
            | None => Panic
            | Some terminator_pos =>
                match znth pos (string_data tbl) with
                | None => Panic
                | Some first_byte =>
                    if (first_byte =? STRING_REF_TAG)
                       && (terminator_pos =? pos + STRING_REF_ENCODED_SIZE) then
                      do id' <- decode_string_ref_from_data (zdrop pos (string_data tbl));
                      to_string (S f) tbl id'
                    else if utf8_valid (ztake terminator_pos (zdrop pos (string_data tbl))) then
                      Ok (ztake terminator_pos (zdrop pos (string_data tbl)))
                    else write_to_string (S f) tbl id
                end
            end
      end).
  cbn [to_string] in H. cbv zeta in H.
  destruct (get_addr tbl id) as [pos| | |]; try exact H.
  destruct (zlen (string_data tbl) <? pos); [exact H|].
  destruct (memchr TERMINATOR (zdrop pos (string_data tbl))) as [tp|]; [|exact H].
  destruct (znth pos (string_data tbl)) as [fb|]; [|exact H].
  destruct ((fb =? STRING_REF_TAG) && (tp =? pos + STRING_REF_ENCODED_SIZE)).
  - apply bind_ok in H. destruct H as (id' & -> & H). cbn [bind]. apply IH, H.
  - destruct (utf8_valid _); [exact H|]. apply (proj1 (fuel_mono tbl f)), H.
Qed.
Lemma ts_mono tbl f g id s : (f <= g)%nat -> to_string f tbl id = Ok s -> to_string g tbl id = Ok s.
Proof. induction 1; auto. intros. apply ts_mono1. auto. Qed.

(** *** expansion of an encoded entry *)
Lemma loop_end tbl pre post f : string_data tbl = pre ++ 255 :: post ->
  write_loop (S f) tbl (zlen pre) = Ok [].
Proof. intros E. cbn [write_loop]. rewrite E, znth_mid. reflexivity. Qed.

Lemma decode_ref_app id rest : is_u64 id ->
  decode_string_ref_from_data ((254 :: le_bytes 8 id) ++ rest) = Ok id.
Proof.
  intros H. unfold decode_string_ref_from_data. cbn [app].
  change (254 =? STRING_REF_TAG) with true. cbv iota.
  rewrite zlen_cons, zlen_app, zlen_le_bytes. pose proof (zlen_nonneg rest).
  destruct (Z.leb_spec 9 (1 + (Z.of_nat 8 + zlen rest))); [|lia]. f_equal.
  change (254 :: le_bytes 8 id ++ rest) with ([254] ++ le_bytes 8 id ++ rest).
  rewrite zslice_mid_eq by (change (zlen [254]) with 1; rewrite ?zlen_le_bytes; reflexivity).
  apply le_val_bytes_small. exact H.
Qed.

Lemma loop_ref tbl pre id post f s1 s2 : is_u64 id ->
  string_data tbl = pre ++ (254 :: le_bytes 8 id) ++ post ->
  write_to_string f tbl id = Ok s1 -> write_loop f tbl (zlen pre + 9) = Ok s2 ->
  write_loop (S f) tbl (zlen pre) = Ok (s1 ++ s2).
Proof.
  intros Hid E H1 H2. cbn [write_loop]. rewrite E at 1.
  cbn [app]. rewrite znth_mid. change (254 =? TERMINATOR) with false.
  change (254 =? STRING_REF_TAG) with true. cbv iota. rewrite E, zdrop_app, decode_ref_app by auto.
  cbn [bind]. rewrite H1. cbn [bind]. change STRING_REF_ENCODED_SIZE with 9. rewrite H2. reflexivity.
Qed.

Lemma loop_value tbl pre v post f s : utf8 v -> In 255 post ->
  string_data tbl = pre ++ v ++ post ->
  write_loop f tbl (zlen pre + zlen v) = Ok s ->
  write_loop (S f) tbl (zlen pre) = Ok (v ++ s).
Proof.
  intros Hv Hin E H. destruct v as [|b v'].
  { change (zlen (@nil Z)) with 0 in H. rewrite Z.add_0_r in H. cbn [app]. apply (proj2 (fuel_mono tbl f)), H. }
  remember (b :: v') as v eqn:Ev.
  assert (Hb : 0 <= b <= 244) by (apply (utf8_max v); auto; subst; cbn; auto).
  assert (N1 : ~ In 255 v) by (intros X; apply (utf8_max v) in X; auto; lia).
  assert (N2 : ~ In 254 v) by (intros X; apply (utf8_max v) in X; auto; lia).
  assert (Ebyte : znth (zlen pre) (string_data tbl) = Some b).
  { rewrite E, Ev. cbn [app]. apply znth_mid. }
  cbn [write_loop]. rewrite Ebyte. change TERMINATOR with 255. change STRING_REF_TAG with 254.
  destruct (Z.eqb_spec b 255); [lia|]. destruct (Z.eqb_spec b 254); [lia|]. cbv zeta.
  rewrite E, zdrop_app, memchr2_app by auto.
  (* what does the loop do at the end of v? *)
  destruct f as [|f]; [discriminate H|].
  pose proof (memchr2_spec 255 254 post) as M.
  destruct (memchr2 255 254 post) as [k|] eqn:En; [|tauto]. destruct M as (Hn & Hm & Ht1 & Ht2).
  assert (Edrop : zdrop (zlen pre + zlen v) (string_data tbl) = post).
  { rewrite E, app_assoc. apply zdrop_app_eq. rewrite zlen_app. reflexivity. }
  assert (Ets : ztake (zlen v + k) (v ++ post) = v ++ ztake k post).
  { rewrite ztake_app_ge by lia. f_equal. f_equal. lia. }
  rewrite Ets, lossy_app by auto.
  cbn [write_loop] in H. rewrite Edrop in H.
  assert (Enth : znth (zlen pre + zlen v) (string_data tbl) = znth 0 post).
  { rewrite E, app_assoc, <- zlen_app, znth_app_r by lia. rewrite Z.sub_diag. reflexivity. }
  rewrite Enth in H. destruct post as [|x post']; [cbn in Hin; tauto|].
  change (znth 0 (x :: post')) with (Some x) in H. change TERMINATOR with 255 in H. change STRING_REF_TAG with 254 in H.
  destruct (Z.eqb_spec x 255).
  - (* terminator *)
    subst x. rewrite memchr2_here in En by auto. inversion En; subst k.
    inversion H; subst s.
    assert (Hloop : write_loop (S f) tbl (zlen pre + (zlen v + 0)) = Ok []).
    { rewrite Z.add_0_r. cbn [write_loop]. rewrite Enth. reflexivity. }
    rewrite Hloop. cbn [bind]. change (lossy (ztake 0 (255 :: post'))) with (@nil Z). rewrite !app_nil_r. reflexivity.
  - destruct (Z.eqb_spec x 254).
    + subst x. rewrite memchr2_here in En by auto. inversion En; subst k.
      assert (Hloop : write_loop (S f) tbl (zlen pre + (zlen v + 0)) = Ok s).
      { rewrite Z.add_0_r. cbn [write_loop]. rewrite Enth.
        change (znth 0 (254 :: post')) with (Some 254). change (254 =? TERMINATOR) with false.
        change (254 =? STRING_REF_TAG) with true. cbv iota. rewrite Edrop. exact H. }
      rewrite Hloop. cbn [bind]. change (lossy (ztake 0 (254 :: post'))) with (@nil Z). rewrite app_nil_r. reflexivity.
    + rewrite En in H. destruct (Z.eqb_spec x 255) in H; [contradiction|]. destruct (Z.eqb_spec x 254) in H; [contradiction|].
      apply bind_ok in H. destruct H as (r & H1 & H2). inversion H2; subst s.
      replace (zlen pre + (zlen v + k)) with (zlen pre + zlen v + k) by lia.
      rewrite (proj2 (fuel_mono tbl f) _ _ H1). cbn [bind]. rewrite <- app_assoc. reflexivity.
Qed.

Lemma in_concat_255 cs post : In 255 (concat (map enc_comp cs) ++ 255 :: post).
Proof. apply in_app_iff. right. left. reflexivity. Qed.

Section Expansion.
Variable tbl : string_table.
Variable alloc : Z -> sstring -> Prop.
Variable resolve : Z -> option Z.
Hypothesis alloc_ok : forall id s, alloc id s ->
  sstring_ok s /\ is_u64 id /\
  exists pre post, string_data tbl = pre ++ enc s ++ post /\ id = zlen pre + FIRST_REGULAR_STRING_ID.
Hypothesis resolve_ok : forall v, v <= METADATA_STRING_ID ->
  match resolve v with
  | Some c => FIRST_REGULAR_STRING_ID <= c /\ lookup v (index tbl) = Some (c - FIRST_REGULAR_STRING_ID)
  | None => lookup v (index tbl) = None
  end.

Scheme denotes_ind2 := Induction for denotes Sort Prop
with denotes_all_ind2 := Induction for denotes_all Sort Prop.

Definition expands (id : Z) (s : bytes) : Prop := exists n, forall m, (n <= m)%nat -> write_to_string m tbl id = Ok s.

Lemma get_addr_regular id : FIRST_REGULAR_STRING_ID <= id -> get_addr tbl id = Ok (id - FIRST_REGULAR_STRING_ID).
Proof.
  unfold get_addr, is_virtual, to_addr. change FIRST_REGULAR_STRING_ID with 100000003.
  change METADATA_STRING_ID with 100000001. change INVALID_STRING_ID with 100000002. intros H.
  destruct (Z.leb_spec id 100000001); [lia|]. destruct (Z.eqb_spec id 100000002); [lia|].
  destruct (Z.leb_spec 100000003 id); [reflexivity|lia].
Qed.

Lemma get_addr_virtual v : v <= METADATA_STRING_ID ->
  get_addr tbl v = match resolve v with Some c => Ok (c - FIRST_REGULAR_STRING_ID) | None => Err end.
Proof.
  intros H. unfold get_addr, is_virtual. destruct (Z.leb_spec v METADATA_STRING_ID); [|lia].
  specialize (resolve_ok v H). destruct (resolve v); [destruct resolve_ok as [_ ->]|rewrite resolve_ok]; reflexivity.
Qed.

Lemma expands_str pre s post : utf8 s -> string_data tbl = pre ++ (s ++ [255]) ++ post ->
  forall m, (2 <= m)%nat -> write_loop m tbl (zlen pre) = Ok s.
Proof.
  intros Hs E m Hm. destruct m as [|[|m]]; try lia.
  rewrite <- (app_nil_r s) at 1. apply (loop_value tbl pre s (255 :: post)); auto; [left; auto| |].
  - rewrite E, <- app_assoc. reflexivity.
  - rewrite <- zlen_app. apply (loop_end tbl (pre ++ s) post). rewrite E, <- !app_assoc. reflexivity.
Qed.

Lemma expansion : forall id s, denotes alloc resolve id s -> expands id s.
Proof.
  apply (denotes_ind2 alloc resolve
    (fun id s _ => expands id s)
    (fun cs s _ => Forall comp_ok cs -> forall pre post,
        string_data tbl = pre ++ concat (map enc_comp cs) ++ 255 :: post ->
        exists n, forall m, (n <= m)%nat -> write_loop m tbl (zlen pre) = Ok s)).
  - exists 1%nat. intros [|m] Hm; [lia|]. reflexivity.
  - intros v Hv Hr. exists 1%nat. intros [|m] Hm; [lia|]. cbn [write_to_string].
    rewrite get_addr_virtual by exact Hv. rewrite Hr. reflexivity.
  - intros v c s Hv Hr _ (n & IH). exists n. intros [|m] Hm; [specialize (IH _ Hm); discriminate IH|].
    specialize (IH _ Hm). cbn [write_to_string] in IH |- *. rewrite get_addr_virtual by exact Hv. rewrite Hr.
    pose proof (resolve_ok v Hv) as R. rewrite Hr in R. destruct R as [R _].
    rewrite get_addr_regular in IH by exact R. exact IH.
  - intros id s Ha. destruct (alloc_ok _ _ Ha) as (Hok & Hu & pre & post & E & ->). exists 3%nat.
    intros [|m] Hm; [lia|]. cbn [write_to_string]. rewrite get_addr_regular by (pose proof (zlen_nonneg pre); lia).
    replace (zlen pre + FIRST_REGULAR_STRING_ID - FIRST_REGULAR_STRING_ID) with (zlen pre) by lia.
    apply (expands_str pre s post); auto; lia.
  - intros id cs s Ha _ IH. destruct (alloc_ok _ _ Ha) as (Hok & Hu & pre & post & E & ->).
    destruct (IH Hok pre post) as (n & Hn). { rewrite E. unfold enc. rewrite <- app_assoc. reflexivity. }
    exists (S n). intros [|m] Hm; [lia|]. cbn [write_to_string].
    rewrite get_addr_regular by (pose proof (zlen_nonneg pre); lia).
    replace (zlen pre + FIRST_REGULAR_STRING_ID - FIRST_REGULAR_STRING_ID) with (zlen pre) by lia.
    apply Hn. lia.
  - intros _ pre post E. exists 1%nat. intros [|m] Hm; [lia|]. apply loop_end with (post := post). exact E.
  - intros v cs s _ IH Hok pre post E. inversion Hok as [|? ? Hv Hcs]; subst.
    destruct (IH Hcs (pre ++ v) post) as (n & Hn).
    { rewrite E. cbn [map concat enc_comp]. rewrite <- !app_assoc. reflexivity. }
    exists (S n). intros [|m] Hm; [lia|].
    apply (loop_value tbl pre v (concat (map enc_comp cs) ++ 255 :: post)); auto.
    + apply in_concat_255.
    + rewrite E. cbn [map concat enc_comp]. rewrite <- !app_assoc. reflexivity.
    + rewrite <- zlen_app. apply Hn. lia.
  - intros id cs s1 s2 _ (n1 & IH1) _ IH2 Hok pre post E. inversion Hok as [|? ? Hv Hcs]; subst.
    destruct (IH2 Hcs (pre ++ enc_comp (CRef id)) post) as (n2 & Hn2).
    { rewrite E. cbn [map concat]. rewrite <- !app_assoc. reflexivity. }
    exists (S (Nat.max n1 n2)). intros [|m] Hm; [lia|].
    apply (loop_ref tbl pre id (concat (map enc_comp cs) ++ 255 :: post)); auto.
    + apply IH1. lia.
    + specialize (Hn2 m). rewrite zlen_app, comp_size_enc in Hn2. apply Hn2. lia.
Qed.

(** Termination: every well-founded id has a denotation. *)
Lemma wf_denotes n : forall id, wf_id alloc resolve n id -> exists s, denotes alloc resolve id s.
Proof.
  induction n as [|n IH]; intros id H; inversion H; subst; clear H.
  - exists unknown_text. constructor.
  - exists unknown_text. apply d_unmapped; auto.
  - eexists. apply d_str; eauto.
  - exists unknown_text. constructor.
  - exists unknown_text. apply d_unmapped; auto.
  - destruct (IH c) as (s & Hs); auto. exists s. eapply d_mapped; eauto.
  - eexists. apply d_str; eauto.
  - match goal with A : alloc id (SComps cs), B : forall r, In (CRef r) cs -> _ |- _ => rename A into HA; rename B into HB end.
    assert (exists s, denotes_all alloc resolve cs s) as (s & Hs).
    { clear HA. induction cs as [|[v|r] cs IHc].
      - eexists. constructor.
      - destruct IHc as (s & Hs). { intros r Hr. apply HB. right; auto. } eexists. constructor; eauto.
      - destruct IHc as (s & Hs). { intros r' Hr. apply HB. right; auto. }
        destruct (IH r) as (s1 & Hs1); [apply HB; left; auto|]. eexists. econstructor; eauto. }
    exists s. eapply d_comps; eauto.
Qed.
End Expansion.
