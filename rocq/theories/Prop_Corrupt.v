(** C68: reading strings from any string table. *)
From Coq Require Import String ZArith List Lia Bool.
From Verif Require Import M_Base F_Base M_Map S_Utf8 M_Utf8 F_Utf8 Prop_Utf8 S_Lossy Prop_Lossy M_Header M_Strings M_StrTable F_Strings S_Corrupt.
Import ListNotations.
Open Scope Z_scope.

Definition result_of (o : outcome) : res bytes := match o with Text t => Ok t | Crash => Panic end.

(** ** the index *)
Lemma find_app {A} (f : A -> bool) l l' : find f (l ++ l') = match find f l with Some x => Some x | None => find f l' end.
Proof. induction l as [|x l IH]; cbn; auto. destruct (f x); auto. Qed.
Lemma lookup_mapped ix id a : lookup id ix = Some a <-> mapped ix id a.
Proof.
  unfold lookup, mapped. induction ix as [|[i b] ix IH].
  - cbn. split; [discriminate|]. intros (l1 & l2 & E & _). destruct l1; discriminate E.
  - cbn [rev]. rewrite find_app. cbn [option_map] in *.
    destruct (find (fun e => fst e =? id) (rev ix)) as [e|] eqn:F.
    + rewrite IH. split.
      * intros (l1 & l2 & -> & H). exists ((i, b) :: l1), l2. auto.
      * intros (l1 & l2 & E & H). destruct l1 as [|x l1]; cbn in E.
        { injection E as -> -> ->. apply find_some in F. destruct F as (F & E2). apply in_rev in F. apply Z.eqb_eq in E2.
          destruct e as [e1 e2]. cbn in E2. subst e1. destruct (H _ F). }
        injection E as _ E. eauto.
    + cbn [find fst]. destruct (Z.eqb_spec i id) as [->|N]; cbn [option_map snd].
      * split.
        { intros [= ->]. exists [], ix. split; auto. intros a' Ha. apply in_rev in Ha.
          apply (find_none _ _ F) in Ha. cbn in Ha. rewrite Z.eqb_refl in Ha. discriminate. }
        intros (l1 & l2 & E & H). destruct l1 as [|x l1]; cbn in E; [injection E as -> ->; reflexivity|].
        injection E as _ E. exfalso. assert (In (id, a) (rev ix)) by (rewrite <- in_rev, E; apply in_or_app; cbn; auto).
        apply (find_none _ _ F) in H0. cbn in H0. rewrite Z.eqb_refl in H0. discriminate.
      * split; [discriminate|]. intros (l1 & l2 & E & H). destruct l1 as [|x l1]; cbn in E; [injection E as -> -> ->; lia|].
        injection E as _ E. exfalso. assert (In (id, a) (rev ix)) by (rewrite <- in_rev, E; apply in_or_app; cbn; auto).
        apply (find_none _ _ F) in H0. cbn in H0. rewrite Z.eqb_refl in H0. discriminate.
Qed.
Lemma lookup_unmapped ix id : lookup id ix = None <-> unmapped ix id.
Proof.
  unfold lookup, unmapped. destruct (find (fun e => fst e =? id) (rev ix)) as [e|] eqn:F; cbn.
  - split; [discriminate|]. intros H. apply find_some in F. destruct F as (F & E2). apply in_rev in F. apply Z.eqb_eq in E2.
    destruct e as [e1 e2]. cbn in E2. subst e1. destruct (H _ F).
  - split; auto. intros _ a Ha. apply in_rev in Ha. apply (find_none _ _ F) in Ha. cbn in Ha. rewrite Z.eqb_refl in Ha. discriminate.
Qed.

(** ** one step of the reader *)
Definition step_loop (tbl : string_table) (w : Z -> res bytes) (l : Z -> res bytes) (pos : Z) : res bytes :=
  match znth pos (string_data tbl) with
  | None => Panic
  | Some byte =>
      if byte =? TERMINATOR then Ok []
      else if byte =? STRING_REF_TAG then
        do id <- decode_string_ref_from_data (zdrop pos (string_data tbl));
        do s1 <- w id;
        do s2 <- l (pos + STRING_REF_ENCODED_SIZE);
        Ok (s1 ++ s2)
      else
        let remaining_data := zdrop pos (string_data tbl) in
        match memchr2 255 254 remaining_data with
        | Some len => do rest <- l (pos + len); Ok (lossy (ztake len remaining_data) ++ rest)
        | None => Ok INVALID_STRING
        end
  end.
Lemma loop_S tbl f pos : write_loop (S f) tbl pos = step_loop tbl (write_to_string f tbl) (write_loop f tbl) pos.
Proof. reflexivity. Qed.

Lemma at_pos {A} (d : list A) pos x : znth pos d = Some x -> exists pre post, d = pre ++ x :: post /\ zlen pre = pos.
Proof.
  intros H. pose proof (znth_Some_lt _ _ _ H) as Hl. exists (ztake pos d), (zdrop (pos + 1) d).
  assert (zlen (ztake pos d) = pos) as E by (apply zlen_ztake; lia). split; auto.
  rewrite <- (ztake_zdrop pos d) at 1. f_equal. destruct (zdrop pos d) as [|y r] eqn:Ed.
  - pose proof (zlen_zdrop pos d ltac:(lia)) as Hz. rewrite Ed, zlen_nil in Hz. lia.
  - assert (d = ztake pos d ++ y :: r) as E2 by (rewrite <- Ed; symmetry; apply ztake_zdrop).
    rewrite E2 in H. rewrite <- E in H at 1. rewrite znth_mid in H. injection H as ->. f_equal.
    replace (pos + 1) with (1 + pos) by lia. rewrite <- zdrop_zdrop by lia. rewrite Ed. reflexivity.
Qed.

(** The four shapes of what stands at an address. *)
Lemma step_shapes tbl w l pre x post : string_data tbl = pre ++ x :: post ->
  (x = 255 /\ step_loop tbl w l (zlen pre) = Ok []) \/
  (x = 254 /\ zlen post < 8 /\ step_loop tbl w l (zlen pre) = Panic) \/
  (exists ref post', x = 254 /\ post = ref ++ post' /\ zlen ref = 8 /\
     step_loop tbl w l (zlen pre) = do s1 <- w (le_val ref); do s2 <- l (zlen pre + 9); Ok (s1 ++ s2)) \/
  (exists v b post', x :: post = v ++ b :: post' /\ v <> [] /\ ~ In 254 v /\ ~ In 255 v /\ (b = 254 \/ b = 255) /\
     step_loop tbl w l (zlen pre) = do rest <- l (zlen pre + zlen v); Ok (lossy v ++ rest)) \/
  (~ In 254 (x :: post) /\ ~ In 255 (x :: post) /\ step_loop tbl w l (zlen pre) = Ok (str "<invalid>")).
Proof.
  intros E. unfold step_loop. rewrite E, znth_mid, zdrop_app. unfold TERMINATOR, STRING_REF_TAG.
  destruct (Z.eqb_spec x 255) as [->|N1]; [left; auto|]. right.
  destruct (Z.eqb_spec x 254) as [->|N2].
  - unfold decode_string_ref_from_data, STRING_REF_TAG. rewrite Z.eqb_refl, zlen_cons.
    destruct (Z.leb_spec 9 (1 + zlen post)) as [L|L]; [right|left; cbn [bind]; split; [|split]; auto; lia]. left.
    exists (ztake 8 post), (zdrop 8 post). rewrite ztake_zdrop, zlen_ztake by lia. auto.
  - right. right. cbv zeta. pose proof (memchr2_spec 255 254 (x :: post)) as M.
    destruct (memchr2 255 254 (x :: post)) as [n|]; [left|right; tauto].
    destruct M as (R & B & N255 & N254).
    assert (exists b, znth n (x :: post) = Some b /\ (b = 254 \/ b = 255)) as (b & Hb & Hb') by (destruct B; eauto).
    destruct (at_pos _ _ _ Hb) as (v & post' & E2 & Ev). exists v, b, post'.
    rewrite E2 in N255, N254. rewrite <- Ev in N255, N254. rewrite ztake_app in N255, N254.
    split; [auto|]. split; [|split; [auto|split; [auto|split; [auto|]]]].
    + intros ->. rewrite zlen_nil in Ev. subst n. injection E2 as <- <-. destruct Hb'; auto.
    + rewrite E2, <- Ev, ztake_app. reflexivity.
Qed.

Section Table.
Variable tbl : string_table.
Notation d := (string_data tbl).
Notation ix := (index tbl).
Notation at_ := (string_at d ix).
Notation of_ := (string_of d ix).

(** A terminated run agrees with the specification. *)
Lemma addr_cases id :
  (get_addr tbl id = Err /\ (id <= 100000001 /\ unmapped ix id \/ id = 100000002)) \/
  (exists a, get_addr tbl id = Ok a /\ (id <= 100000001 /\ mapped ix id a \/ 100000003 <= id /\ a = id - 100000003)).
Proof.
  unfold get_addr, is_virtual, to_addr, FIRST_REGULAR_STRING_ID, INVALID_STRING_ID, METADATA_STRING_ID, MAX_USER_VIRTUAL_STRING_ID.
  change (100000000 + 1 + 1 + 1) with 100000003. change (100000000 + 1 + 1) with 100000002. change (100000000 + 1) with 100000001.
  destruct (Z.leb_spec id 100000001).
  - destruct (lookup id ix) as [a|] eqn:L.
    + right. exists a. split; auto. left. split; auto. apply lookup_mapped; auto.
    + left. split; auto. left. split; auto. apply lookup_unmapped; auto.
  - destruct (Z.eqb_spec id 100000002); [left; auto|]. right. exists (id - 100000003).
    destruct (Z.leb_spec 100000003 id); [|lia]. split; auto.
Qed.

Hypothesis data_ok : bytes_ok d.
Lemma value_ok pre v post : d = pre ++ v ++ post -> bytes_ok v.
Proof. intros E. pose proof data_ok as H. rewrite E in H. apply bytes_ok_app in H. destruct H as (_ & H). apply bytes_ok_app in H. tauto. Qed.
Hypothesis addresses : Forall (fun e => 0 <= snd e) ix.
Lemma addr_nonneg id a : get_addr tbl id = Ok a -> 0 <= a.
Proof.
  intros H. destruct (addr_cases id) as [(E & _)|(a' & E & C)]; [congruence|]. rewrite E in H. injection H as ->.
  destruct C as [(_ & l1 & l2 & E2 & _)|]; [|lia]. rewrite Forall_forall in addresses. apply (addresses (id, a)).
  rewrite E2. apply in_or_app. cbn; auto.
Qed.

Lemma complete : forall f,
  (forall id, write_to_string f tbl id = Diverge \/ exists o, of_ id o /\ write_to_string f tbl id = result_of o) /\
  (forall a, 0 <= a -> write_loop f tbl a = Diverge \/ exists o, at_ a o /\ write_loop f tbl a = result_of o).
Proof.
  induction f as [|f [IW IL]]; [split; left; reflexivity|]. split.
  - intros id. cbn [write_to_string]. destruct (addr_cases id) as [(E & C)|(a & E & C)].
    + rewrite E. right. exists (Text (str "<unknown>")). split; [|reflexivity].
      destruct C as [(L & U)| ->]; [apply of_unmapped|apply of_invalid]; auto.
    + rewrite E. destruct (IL a (addr_nonneg _ _ E)) as [->|(o & Ho & ->)]; [left; reflexivity|]. right. exists o. split; auto.
      destruct C as [(L & U)|(L & ->)]; [eapply of_mapped; eauto|apply of_regular; auto].
  - intros a Ha. rewrite loop_S. destruct (znth a d) as [x|] eqn:X.
    2:{ right. exists Crash. unfold step_loop. rewrite X. split; [|reflexivity]. apply at_outside. apply znth_None in X. lia. }
    destruct (at_pos _ _ _ X) as (pre & post & E & <-).
    destruct (step_shapes tbl (write_to_string f tbl) (write_loop f tbl) pre x post E) as
      [(-> & ->)|[(-> & S & ->)|[(ref & post' & -> & -> & R & ->)|[(v & b & post' & E2 & V & N1 & N2 & B & ->)|(N1 & N2 & ->)]]]].
    + right. exists (Text []). split; [|reflexivity]. eapply at_end; eauto.
    + right. exists Crash. split; [|reflexivity]. eapply at_short; eauto.
    + destruct (IW (le_val ref)) as [->|([t|] & Ho & ->)]; [left; reflexivity| |].
      * cbn [result_of bind]. destruct (IL (zlen pre + 9)) as [->|(o & Ho' & ->)]; [lia|left; reflexivity|]. right.
        exists (after t o). split; [eapply at_ref; eauto|]. destruct o; reflexivity.
      * right. exists Crash. split; [eapply at_ref_crash; eauto|reflexivity].
    + rewrite E2 in E. destruct (IL (zlen pre + zlen v)) as [->|(o & Ho' & ->)]; [pose proof (zlen_nonneg v); lia|left; reflexivity|]. right.
      exists (after (lossy v) o). split; [|destruct o; reflexivity].
      eapply at_value; eauto. apply C50_lossy_exact; [eapply value_ok; exact E|reflexivity].
    + right. exists (Text (str "<invalid>")). split; [|reflexivity]. eapply at_unfinished; eauto. discriminate.
Qed.

(** Every outcome of the specification is reached, and kept with more fuel. *)
Definition eventually (r : nat -> res bytes) (o : outcome) : Prop := exists n, forall m, (n <= m)%nat -> r m = result_of o.

Lemma sound :
  (forall a o, at_ a o -> eventually (fun m => write_loop m tbl a) o) /\
  (forall id o, of_ id o -> eventually (fun m => write_to_string m tbl id) o).
Proof.
  assert (forall a o (P : (nat -> Prop)), (forall m, P m -> write_loop (S m) tbl a = result_of o) -> (exists n, forall m, (n <= m)%nat -> P m) -> eventually (fun m => write_loop m tbl a) o) as K.
  { intros a o P H (n & Hn). exists (S n). intros [|m] Hm; [lia|]. apply H, Hn. lia. }
  apply (strings_min d ix (fun a o => eventually (fun m => write_loop m tbl a) o) (fun id o => eventually (fun m => write_to_string m tbl id) o)).
  - intros a Ha. apply (K a Crash (fun _ => True)); [|exists O; auto]. intros m _. rewrite loop_S. unfold step_loop.
    assert (znth a d = None) as -> by (apply znth_None; auto). reflexivity.
  - intros pre post E. apply (K _ _ (fun _ => True)); [|exists O; auto]. intros m _. exact (loop_end tbl pre post m E).
  - intros pre v b post t o E V N1 N2 B D _ (n & Hn). apply C50_lossy_exact in D; [|eapply value_ok; exact E]. subst t. apply (K _ _ (fun m => write_loop m tbl (zlen pre + zlen v) = result_of o)); [|eauto].
    intros m Hm. destruct v as [|x v]; [tauto|]. rewrite loop_S. cbn [app] in E.
    destruct (step_shapes tbl (write_to_string m tbl) (write_loop m tbl) pre x _ E) as
      [(-> & _)|[(-> & _)|[(ref & post' & -> & _)|[(v' & b' & post' & E2 & V' & N1' & N2' & B' & ->)|(M1 & M2 & _)]]]].
    + destruct N2; cbn; auto.
    + destruct N1; cbn; auto.
    + destruct N1; cbn; auto.
    + assert (v' = x :: v) as ->.
      { change (x :: v ++ b :: post) with ((x :: v) ++ b :: post) in E2. clear -E2 N1 N2 N1' N2' B B'.
        revert v' E2 N1' N2'. induction (x :: v) as [|y w IH]; intros [|y' w'] E2 N1' N2'; cbn in E2.
        - reflexivity.
        - injection E2 as -> _. cbn in N1', N2'. destruct B; subst; tauto.
        - injection E2 as -> _. cbn in N1, N2. destruct B'; subst; tauto.
        - injection E2 as -> E2. f_equal. cbn in N1, N2, N1', N2'. apply IH; auto. }
      rewrite Hm. destruct o; reflexivity.
    + exfalso. change (x :: v ++ b :: post) with ((x :: v) ++ b :: post) in M1, M2.
      destruct B; subst b; [apply M1|apply M2]; apply in_or_app; cbn; auto.
  - intros pre v E V N1 N2. apply (K _ _ (fun _ => True)); [|exists O; auto]. intros m _. destruct v as [|x v]; [tauto|]. rewrite loop_S.
    destruct (step_shapes tbl (write_to_string m tbl) (write_loop m tbl) pre x _ E) as
      [(-> & _)|[(-> & _)|[(ref & post' & -> & _)|[(v' & b' & post' & E2 & V' & N1' & N2' & B' & ->)|(M1 & M2 & ->)]]]].
    + destruct N2; cbn; auto.
    + destruct N1; cbn; auto.
    + destruct N1; cbn; auto.
    + exfalso. rewrite E2 in N1, N2. destruct B'; subst b'; [apply N1|apply N2]; apply in_or_app; cbn; auto.
    + reflexivity.
  - intros pre post E S. apply (K _ _ (fun _ => True)); [|exists O; auto]. intros m _. rewrite loop_S.
    destruct (step_shapes tbl (write_to_string m tbl) (write_loop m tbl) pre _ _ E) as
      [(H & _)|[(_ & _ & ->)|[(ref & post' & _ & -> & R & _)|[(v' & b' & post' & E2 & V' & N1' & N2' & B' & _)|(M1 & M2 & _)]]]].
    + discriminate H.
    + reflexivity.
    + rewrite zlen_app in S. pose proof (zlen_nonneg post'). lia.
    + exfalso. destruct v' as [|y v']; [tauto|]. cbn in E2. injection E2 as <- _. cbn in N1'. tauto.
    + cbn in M1. tauto.
  - intros pre ref post E R _ (n & Hn). apply (K _ _ (fun m => write_to_string m tbl (le_val ref) = Panic)); [|eauto].
    intros m Hm. rewrite loop_S.
    destruct (step_shapes tbl (write_to_string m tbl) (write_loop m tbl) pre _ _ E) as
      [(H & _)|[(_ & S & ->)|[(ref' & post' & _ & E2 & R' & ->)|[(v' & b' & post' & E2 & V' & N1' & N2' & B' & _)|(M1 & M2 & _)]]]].
    + discriminate H.
    + reflexivity.
    + assert (ref' = ref) as ->. { rewrite <- (ztake_app ref' post'), <- E2, R', <- R. apply ztake_app. }
      rewrite Hm. reflexivity.
    + exfalso. destruct v' as [|y v']; [tauto|]. cbn in E2. injection E2 as <- _. cbn in N1'. tauto.
    + cbn in M1. tauto.
  - intros pre ref post t o E R _ (n & Hn) _ (n' & Hn').
    apply (K _ _ (fun m => write_to_string m tbl (le_val ref) = Ok t /\ write_loop m tbl (zlen pre + 9) = result_of o)).
    2:{ exists (Nat.max n n'). intros m Hm. split; [apply Hn|apply Hn']; lia. }
    intros m (Hm & Hm'). rewrite loop_S.
    destruct (step_shapes tbl (write_to_string m tbl) (write_loop m tbl) pre _ _ E) as
      [(H & _)|[(_ & S & _)|[(ref' & post' & _ & E2 & R' & ->)|[(v' & b' & post' & E2 & V' & N1' & N2' & B' & _)|(M1 & M2 & _)]]]].
    + discriminate H.
    + rewrite zlen_app in S. pose proof (zlen_nonneg post). lia.
    + assert (ref' = ref) as ->. { rewrite <- (ztake_app ref' post'), <- E2, R', <- R. apply ztake_app. }
      rewrite Hm. cbn [bind]. rewrite Hm'. destruct o; reflexivity.
    + exfalso. destruct v' as [|y v']; [tauto|]. cbn in E2. injection E2 as <- _. cbn in N1'. tauto.
    + cbn in M1. tauto.
  - intros id L U. exists 1%nat. intros [|m] Hm; [lia|]. cbn [write_to_string]. destruct (addr_cases id) as [(-> & _)|(a & E & C)]; [reflexivity|].
    exfalso. destruct C as [(_ & M)|]; [|lia]. apply lookup_unmapped in U. apply lookup_mapped in M. congruence.
  - exists 1%nat. intros [|m] Hm; [lia|]. cbn [write_to_string]. destruct (addr_cases 100000002) as [(-> & _)|(a & E & C)]; [reflexivity|]. lia.
  - intros id a o L M _ (n & Hn). exists (S n). intros [|m] Hm; [lia|]. cbn [write_to_string]. destruct (addr_cases id) as [(_ & C)|(a' & E & C)].
    + exfalso. destruct C as [(_ & U)|]; [|lia]. apply lookup_unmapped in U. apply lookup_mapped in M. congruence.
    + rewrite E. destruct C as [(_ & M')|]; [|lia]. apply lookup_mapped in M, M'. rewrite M in M'. injection M' as <-. apply Hn. lia.
  - intros id o L _ (n & Hn). exists (S n). intros [|m] Hm; [lia|]. cbn [write_to_string]. destruct (addr_cases id) as [(_ & C)|(a' & E & C)]; [lia|].
    rewrite E. destruct C as [|(_ & ->)]; [lia|]. apply Hn. lia.
Qed.

(** ** [to_string] *)
Definition step_ts (w t : Z -> res bytes) (id : Z) : res bytes :=
  match get_addr tbl id with
  | Err => Ok UNKNOWN_STRING
  | Panic => Panic
  | Diverge => Diverge
  | Ok pos =>
      if zlen d <? pos then Panic
      else
        let slice_to_search := zdrop pos d in
        match memchr TERMINATOR slice_to_search with
        | None => Panic
        | Some terminator_pos =>
            match znth pos d with
            | None => Panic
            | Some first_byte =>
                if (first_byte =? STRING_REF_TAG) && (terminator_pos =? pos + STRING_REF_ENCODED_SIZE) then
                  do id' <- decode_string_ref_from_data slice_to_search; t id'
                else if utf8_valid (ztake terminator_pos slice_to_search) then Ok (ztake terminator_pos slice_to_search)
                else w id
            end
        end
  end.
Lemma ts_S f id : to_string (S f) tbl id = step_ts (write_to_string f tbl) (to_string f tbl) id.
Proof. reflexivity. Qed.

Lemma step_ts_unfinished w t id a : get_addr tbl id = Ok a -> 0 <= a -> (forall pre post, d = pre ++ 255 :: post -> zlen pre < a) -> step_ts w t id = Panic.
Proof.
  intros E Ha H. unfold step_ts. rewrite E. destruct (Z.ltb_spec (zlen d) a) as [|L]; [reflexivity|]. cbv zeta.
  pose proof (memchr2_spec TERMINATOR TERMINATOR (zdrop a d)) as M. unfold memchr. destruct (memchr2 TERMINATOR TERMINATOR (zdrop a d)) as [n|]; [exfalso|reflexivity].
  destruct M as (R & B & _). assert (znth n (zdrop a d) = Some 255) as B' by (destruct B; auto).
  destruct (at_pos _ _ _ B') as (v & post & E2 & Ev).
  specialize (H (ztake a d ++ v) post). rewrite <- app_assoc, <- E2, ztake_zdrop, zlen_app, zlen_ztake in H by lia.
  pose proof (zlen_nonneg v). specialize (H eq_refl). lia.
Qed.

Lemma step_ts_terminated w t id pre v post : get_addr tbl id = Ok (zlen pre) -> d = pre ++ v ++ 255 :: post -> ~ In 255 v -> bytes_ok v ->
  (utf8 v /\ step_ts w t id = Ok v) \/
  (exists ref v', v = 254 :: ref ++ v' /\ zlen ref = 8 /\ 9 + zlen v' = zlen pre + 9 /\ step_ts w t id = t (le_val ref)) \/
  (~ utf8 v /\ (forall u, v = 254 :: u -> zlen v <> zlen pre + 9) /\ step_ts w t id = w id).
Proof.
  intros E Ed N OK. unfold step_ts. rewrite E. pose proof (zlen_nonneg pre). pose proof (zlen_nonneg (v ++ 255 :: post)).
  assert (zlen d = zlen pre + zlen (v ++ 255 :: post)) as L by (rewrite Ed; apply zlen_app).
  destruct (Z.ltb_spec (zlen d) (zlen pre)); [lia|]. cbv zeta. rewrite Ed, zdrop_app.
  unfold memchr. rewrite memchr2_app by auto. rewrite memchr2_here by auto. rewrite Z.add_0_r, ztake_app.
  pose proof (utf8_valid_iff v OK) as UV.
  destruct v as [|x v].
  - left. rewrite app_nil_l, znth_mid. split; [exists []; auto|]. reflexivity.
  - cbn [app]. rewrite znth_mid. unfold STRING_REF_TAG, STRING_REF_ENCODED_SIZE.
    destruct (Z.eqb_spec x 254) as [->|NX]; cbn [andb].
    + destruct (Z.eqb_spec (zlen (254 :: v)) (zlen pre + 9)) as [EL|NL].
      * right. left. rewrite zlen_cons in EL. exists (ztake 8 v), (zdrop 8 v). rewrite ztake_zdrop, zlen_ztake, zlen_zdrop by lia.
        split; [auto|]. split; [auto|]. split; [lia|]. unfold decode_string_ref_from_data, STRING_REF_TAG. rewrite Z.eqb_refl.
        rewrite zlen_cons, zlen_app. destruct (Z.leb_spec 9 (1 + (zlen v + zlen (255 :: post)))) as [|B]; [|rewrite zlen_cons in B; pose proof (zlen_nonneg post); lia].
        cbn [bind]. f_equal. f_equal. unfold zslice. change (zdrop 1 (254 :: v ++ 255 :: post)) with (v ++ 255 :: post). rewrite ztake_app_le by lia. reflexivity.
      * right. right. assert (~ utf8 (254 :: v)) as NU by (intros U; destruct (proj1 (C50_no_marker_bytes _ U)); cbn; auto).
        split; [auto|]. split; [auto|]. destruct (utf8_valid (254 :: v)) eqn:V; [destruct NU; apply UV; auto|reflexivity].
    + destruct (utf8_valid (x :: v)) eqn:V; [left|right; right].
      * split; [apply UV; auto|reflexivity].
      * split; [intros U; apply UV in U; auto; congruence|]. split; [intros u [= -> ->]; tauto|reflexivity].
Qed.

Notation shown_ := (shown d ix).

Lemma address_of id a : get_addr tbl id = Ok a <-> address ix id a.
Proof.
  destruct (addr_cases id) as [(E & C)|(a' & E & C)]; rewrite E; split; intros H; try discriminate H.
  - exfalso. inversion H; subst.
    + destruct C as [(_ & U)|]; [|lia]. apply lookup_unmapped in U. apply lookup_mapped in H1. congruence.
    + lia.
  - injection H as ->. destruct C as [(L & M)|(L & ->)]; [apply ad_mapped|apply ad_regular]; auto.
  - f_equal. inversion H; subst.
    + destruct C as [(_ & U)|]; [|lia]. apply lookup_mapped in U. apply lookup_mapped in H1. congruence.
    + destruct C as [|(_ & ->)]; [lia|reflexivity].
Qed.
Lemma no_address id : get_addr tbl id = Err <-> id <= 100000001 /\ unmapped ix id \/ id = 100000002.
Proof.
  destruct (addr_cases id) as [(E & C)|(a' & E & C)]; rewrite E; split; intros H; try discriminate H; auto.
  exfalso. destruct H as [(L & U)| ->]; [|lia]. destruct C as [(_ & M)|]; [|lia]. apply lookup_unmapped in U. apply lookup_mapped in M. congruence.
Qed.

(** Either no FF at or behind an address, or a first one. *)
Lemma first_end a : 0 <= a -> (forall pre post, d = pre ++ 255 :: post -> zlen pre < a) \/
  exists pre v post, zlen pre = a /\ d = pre ++ v ++ 255 :: post /\ ~ In 255 v.
Proof.
  intros Ha. destruct (Z_le_gt_dec a (zlen d)) as [L|L].
  2:{ left. intros pre post E. assert (zlen d = zlen pre + zlen (255 :: post)) by (rewrite E; apply zlen_app). pose proof (zlen_nonneg (255 :: post)). lia. }
  pose proof (memchr2_spec 255 255 (zdrop a d)) as M. destruct (memchr2 255 255 (zdrop a d)) as [n|].
  - right. destruct M as (R & B & N & _). assert (znth n (zdrop a d) = Some 255) as B' by (destruct B; auto).
    destruct (at_pos _ _ _ B') as (v & post & E2 & Ev). exists (ztake a d), v, post. rewrite <- E2, ztake_zdrop, zlen_ztake by lia.
    split; [auto|]. split; [auto|]. rewrite E2, <- Ev, ztake_app in N. exact N.
  - left. intros pre post E. destruct (Z_lt_ge_dec (zlen pre) a) as [|G]; [auto|]. exfalso. apply (proj1 M). rewrite E.
    pose proof (zlen_nonneg pre). rewrite zdrop_app_le by lia. apply in_or_app. cbn; auto.
Qed.
Lemma part_ok pre v post : d = pre ++ v ++ 255 :: post -> bytes_ok v.
Proof. intros E. pose proof data_ok as H. rewrite E in H. apply bytes_ok_app in H. destruct H as (_ & H). apply bytes_ok_app in H. tauto. Qed.

Lemma complete_ts : forall f id, to_string f tbl id = Diverge \/ exists o, shown_ id o /\ to_string f tbl id = result_of o.
Proof.
  induction f as [|f IH]; intros id; [left; reflexivity|]. rewrite ts_S.
  destruct (get_addr tbl id) as [a| | |] eqn:A.
  2:{ right. exists (Text (str "<unknown>")). unfold step_ts. rewrite A. split; [|reflexivity].
      apply no_address in A. destruct A as [(L & U)| ->]; [apply sh_unmapped|apply sh_invalid]; auto. }
  2,3: exfalso; destruct (addr_cases id) as [(E & _)|(a2 & E & _)]; congruence.
  pose proof (addr_nonneg _ _ A) as Ha. destruct (first_end a Ha) as [H|(pre & v & post & <- & E & N)].
  - right. exists Crash. rewrite (step_ts_unfinished _ _ id a A Ha H). split; [|reflexivity]. eapply sh_unfinished; eauto. apply address_of; auto.
  - pose proof (proj1 (address_of _ _) A) as AD.
    destruct (step_ts_terminated (write_to_string f tbl) (to_string f tbl) id pre v post A E N (part_ok _ _ _ E)) as [(U & ->)|[(ref & v' & -> & R & J & ->)|(U & J & ->)]].
    + right. exists (Text v). split; [|reflexivity]. eapply sh_text; eauto.
    + destruct (IH (le_val ref)) as [->|(o & Ho & ->)]; [left; reflexivity|]. right. exists o. split; [|reflexivity]. eapply sh_jump; eauto. cbn in N. tauto.
    + destruct (proj1 (complete f) id) as [->|(o & Ho & ->)]; [left; reflexivity|]. right. exists o. split; [|reflexivity]. eapply sh_other; eauto.
Qed.

Lemma first_unique (v v' post post' : bytes) : v ++ 255 :: post = v' ++ 255 :: post' -> ~ In 255 v -> ~ In 255 v' -> v = v'.
Proof.
  revert v'. induction v as [|x v IH]; intros [|x' v'] E N N'; cbn in E; auto.
  - injection E as <- _. cbn in N'. tauto.
  - injection E as -> _. cbn in N. tauto.
  - injection E as -> E. f_equal. cbn in N, N'. apply IH; auto.
Qed.
Lemma same_first pre v post pre' v' post' : d = pre ++ v ++ 255 :: post -> d = pre' ++ v' ++ 255 :: post' -> zlen pre = zlen pre' ->
  ~ In 255 v -> ~ In 255 v' -> v = v'.
Proof.
  intros E E' L N N'. rewrite E in E'. assert (v ++ 255 :: post = v' ++ 255 :: post') as H.
  { rewrite <- (zdrop_app pre (v ++ 255 :: post)), E', L. apply zdrop_app. }
  eapply first_unique; eauto.
Qed.

Lemma sound_ts id o : shown_ id o -> eventually (fun m => to_string m tbl id) o.
Proof.
  assert (forall id o (P : nat -> Prop), (forall m, P m -> to_string (S m) tbl id = result_of o) -> (exists n, forall m, (n <= m)%nat -> P m) -> eventually (fun m => to_string m tbl id) o) as K.
  { intros a o' P H (n & Hn). exists (S n). intros [|m] Hm; [lia|]. apply H, Hn. lia. }
  induction 1 as [id L U| |id a A H|id pre v post A E N U|id pre ref v post o A E N R J _ (n & Hn)|id pre v post o A E N U J Ho].
  - apply (K _ _ (fun _ => True)); [|exists O; auto]. intros m _. rewrite ts_S. unfold step_ts. rewrite (proj2 (no_address id)) by auto. reflexivity.
  - apply (K _ _ (fun _ => True)); [|exists O; auto]. intros m _. rewrite ts_S. unfold step_ts. rewrite (proj2 (no_address 100000002)) by auto. reflexivity.
  - apply (K _ _ (fun _ => True)); [|exists O; auto]. intros m _. rewrite ts_S. apply address_of in A. eapply step_ts_unfinished; eauto. eapply addr_nonneg; eauto.
  - apply (K _ _ (fun _ => True)); [|exists O; auto]. intros m _. rewrite ts_S. apply address_of in A.
    destruct (step_ts_terminated (write_to_string m tbl) (to_string m tbl) id pre v post A E N (part_ok _ _ _ E)) as [(_ & ->)|[(ref & v' & -> & _)|(U' & _)]]; [reflexivity| |tauto].
    exfalso. destruct (proj1 (C50_no_marker_bytes _ U)). cbn; auto.
  - apply (K _ _ (fun m => to_string m tbl (le_val ref) = result_of o)); [|eauto]. intros m Hm. rewrite ts_S. apply address_of in A.
    assert (~ In 255 (254 :: ref ++ v)) as N' by (cbn; intros [H|H]; [discriminate H|tauto]).
    destruct (step_ts_terminated (write_to_string m tbl) (to_string m tbl) id pre _ post A E N' (part_ok _ _ _ E)) as [(U & _)|[(ref' & v' & E2 & R' & J' & ->)|(_ & J' & _)]].
    + exfalso. destruct (proj1 (C50_no_marker_bytes _ U)). cbn; auto.
    + injection E2 as E2. assert (ref = ref') as <-; [|exact Hm]. rewrite <- (ztake_app ref v), E2, R, <- R'. apply ztake_app.
    + exfalso. apply (J' _ eq_refl). rewrite zlen_cons, zlen_app. lia.
  - destruct (proj2 sound _ _ Ho) as (n & Hn). apply (K _ _ (fun m => write_to_string m tbl id = result_of o)); [|eauto]. intros m Hm. rewrite ts_S. apply address_of in A.
    destruct (step_ts_terminated (write_to_string m tbl) (to_string m tbl) id pre v post A E N (part_ok _ _ _ E)) as [(U' & _)|[(ref & v' & -> & R & J' & _)|(_ & _ & ->)]]; [tauto| |exact Hm].
    exfalso. apply (J _ eq_refl). rewrite zlen_cons, zlen_app. lia.
Qed.
End Table.

(** ** The claims *)
(** The addresses in the index and the string data are what can stand in a file. *)
Definition from_a_file (tbl : string_table) : Prop := bytes_ok (string_data tbl) /\ Forall (fun e => 0 <= snd e) (index tbl).

Lemma eventually_complete (r : nat -> res bytes) (S : outcome -> Prop) :
  (forall m, r m = Diverge \/ exists o, S o /\ r m = result_of o) -> (forall o, S o -> eventually r o) ->
  (forall o, S o <-> exists n, forall m, (n <= m)%nat -> r m = result_of o) /\
  (forall o o', S o -> S o' -> o = o') /\ ((forall o, ~ S o) <-> forall m, r m = Diverge).
Proof.
  intros C So. assert (forall o o', eventually r o -> eventually r o' -> o = o') as U.
  { intros o o' (n & Hn) (n' & Hn'). specialize (Hn (Nat.max n n') ltac:(lia)). specialize (Hn' (Nat.max n n') ltac:(lia)).
    rewrite Hn in Hn'. destruct o, o'; cbn in Hn'; congruence. }
  split; [|split].
  - intros o. split; [apply So|]. intros (n & Hn). destruct (C n) as [E|(o' & Ho & E)].
    + rewrite Hn in E by lia. destruct o; discriminate E.
    + rewrite Hn in E by lia. destruct o, o'; cbn in E; try discriminate E; auto. injection E as ->. auto.
  - eauto.
  - split.
    + intros N m. destruct (C m) as [|(o & Ho & _)]; [auto|]. destruct (N _ Ho).
    + intros D o Ho. destruct (So _ Ho) as (n & Hn). specialize (Hn n ltac:(lia)). rewrite D in Hn. destruct o; discriminate Hn.
Qed.

Theorem C68_write_to_string : forall tbl id, from_a_file tbl ->
  (forall o, string_of (string_data tbl) (index tbl) id o <-> exists n, forall m, (n <= m)%nat -> write_to_string m tbl id = result_of o) /\
  (forall o o', string_of (string_data tbl) (index tbl) id o -> string_of (string_data tbl) (index tbl) id o' -> o = o') /\
  ((forall o, ~ string_of (string_data tbl) (index tbl) id o) <-> forall m, write_to_string m tbl id = Diverge).
Proof.
  intros tbl id (Hd & Hi). apply (eventually_complete (fun m => write_to_string m tbl id)).
  - intros m. apply (proj1 (complete tbl Hd Hi m)).
  - intros o. apply (proj2 (sound tbl Hd)).
Qed.

Theorem C68_to_string : forall tbl id, from_a_file tbl ->
  (forall o, shown (string_data tbl) (index tbl) id o <-> exists n, forall m, (n <= m)%nat -> to_string m tbl id = result_of o) /\
  (forall o o', shown (string_data tbl) (index tbl) id o -> shown (string_data tbl) (index tbl) id o' -> o = o') /\
  ((forall o, ~ shown (string_data tbl) (index tbl) id o) <-> forall m, to_string m tbl id = Diverge).
Proof.
  intros tbl id (Hd & Hi). apply (eventually_complete (fun m => to_string m tbl id)).
  - intros m. apply (complete_ts tbl Hd Hi m).
  - intros o. apply (sound_ts tbl Hd Hi).
Qed.
Print Assumptions C68_write_to_string.
Print Assumptions C68_to_string.

(** The two ways to read a string agree, but in two cases. *)
Theorem C68_difference : forall tbl id o o', from_a_file tbl ->
  let d := string_data tbl in let ix := index tbl in
  shown d ix id o -> string_of d ix id o' ->
  o = o' \/
  (o = Crash /\ exists a, address ix id a /\ forall pre post, d = pre ++ 255 :: post -> zlen pre < a) \/
  (exists pre ref v post, address ix id (zlen pre) /\ d = pre ++ (254 :: ref ++ v) ++ 255 :: post /\ ~ In 255 (ref ++ v) /\
     zlen ref = 8 /\ zlen v = zlen pre /\ shown d ix (le_val ref) o).
Proof.
  intros tbl id o o' F d ix Hs Hr. pose proof (proj1 (proj2 (C68_write_to_string tbl id F))) as U. change (string_data tbl) with d in U. change (index tbl) with ix in U.
  pose proof (part_ok tbl (proj1 F)) as PO. change (string_data tbl) with d in PO. clearbody d ix.
  inversion Hs as [i0 H1 H2|E1 E2|i0 a H H1|i0 pre v post H H0 H1 H2|i0 pre ref v post o0 H H0 H1 H2 H3 H4|i0 pre v post o0 H H0 H1 H2 H3 H4]; try subst i0; try subst o; try subst id; try subst o0.
  - left. apply U; auto. constructor; auto.
  - left. apply U; auto. apply of_invalid.
  - right. left. split; [reflexivity|]. eauto.
  - left. apply U; auto.
    assert (string_at d ix (zlen pre) (Text v)) as A.
    { destruct v as [|x v].
      - eapply at_end. exact H0.
      - rewrite <- (app_nil_r (x :: v)). change (Text ((x :: v) ++ [])) with (after (x :: v) (Text [])).
        eapply at_value with (b := 255); [exact H0|discriminate|apply (proj1 (C50_no_marker_bytes _ H2))|auto|auto| |].
        { apply C50_lossy_exact; [exact (PO _ _ _ H0)|]. symmetry. apply (proj2 (C50_lossy (x :: v) (PO _ _ _ H0)) H2). }
        rewrite <- zlen_app. eapply at_end. rewrite <- app_assoc. exact H0. }
    inversion H; subst; [eapply of_mapped; eauto|apply of_regular; [auto|congruence]].
  - right. right. exists pre, ref, v, post. do 4 (split; [assumption|]). split; [lia|assumption].
  - left. apply U; auto.
Qed.
Print Assumptions C68_difference.

(** ** Examples *)
(** A table with a plain string at 8, a string with a reference to it and an invalid byte at 11, a reference
    to itself at 23 (virtual id 5), a reference cut short at the end (virtual id 6); id 7 points outside. *)
Definition ex_data : bytes := str "MMSD" ++ le_bytes 4 9 ++ [104; 105; 255] ++ (254 :: le_bytes 8 100000011 ++ [200; 33; 255]) ++ (254 :: le_bytes 8 5 ++ [255]) ++ [120; 254; 1].
Definition ex_table : string_table := mkTable ex_data [(5, 11); (5, 23); (6, 33); (7, 1000)].
Lemma bytes_check l : forallb (fun b => (0 <=? b) && (b <? 256)) l = true -> bytes_ok l.
Proof. intros H. rewrite forallb_forall in H. apply Forall_forall. intros b Hb. apply H in Hb. apply andb_prop in Hb. rewrite Z.leb_le, Z.ltb_lt in Hb. split; apply Hb. Qed.
Lemma ex_table_file : from_a_file ex_table.
Proof. split; [apply bytes_check; vm_compute; reflexivity|unfold ex_table; cbn; repeat constructor; cbn; lia]. Qed.
Example ex_C68_plain : string_of ex_data [(5, 11); (5, 23); (6, 33); (7, 1000)] 100000011 (Text [104; 105]).
Proof. apply (proj1 (C68_write_to_string ex_table 100000011 ex_table_file)). exists 5%nat. intros m Hm. do 5 (destruct m as [|m]; [lia|]). vm_compute. reflexivity. Qed.
Example ex_C68_values :
  write_to_string 9 ex_table 100000014 = Ok (str "hi" ++ [239; 191; 189; 33]) /\ to_string 9 ex_table 100000014 = Ok (str "hi" ++ [239; 191; 189; 33]) /\
  write_to_string 9 ex_table 6 = Panic /\ to_string 9 ex_table 6 = Panic /\ to_string 9 ex_table 7 = Panic /\
  to_string 9 ex_table 8 = Ok (str "<unknown>") /\ to_string 9 ex_table 100000002 = Ok (str "<unknown>") /\
  write_to_string 9 (mkTable (str "MMSD" ++ le_bytes 4 9 ++ str "abc") []) 100000011 = Ok (str "<invalid>").
Proof. vm_compute. repeat split. Qed.
(** A string that refers to itself has no text. *)
Example ex_C68_endless : forall o, ~ string_of ex_data [(5, 11); (5, 23); (6, 33); (7, 1000)] 5 o.
Proof.
  apply (proj2 (proj2 (C68_write_to_string ex_table 5 ex_table_file))).
  intros m. induction m as [m IH] using (well_founded_induction lt_wf). destruct m as [|m]; [reflexivity|]. destruct m as [|m]; [reflexivity|].
  cbn [write_to_string]. assert (get_addr ex_table 5 = Ok 23) as -> by (vm_compute; reflexivity). rewrite loop_S. unfold step_loop.
  assert (znth 23 (string_data ex_table) = Some 254) as -> by (vm_compute; reflexivity).
  change (254 =? TERMINATOR) with false. change (254 =? STRING_REF_TAG) with true. cbv iota.
  assert (decode_string_ref_from_data (zdrop 23 (string_data ex_table)) = Ok 5) as -> by (vm_compute; reflexivity). cbn [bind].
  rewrite IH by lia. reflexivity.
Qed.
