(** Exactly which JSON texts the readers accept (C41, C57, C63). *)
From Coq Require Import String ZArith List Lia Bool.
From Verif Require Import M_Base F_Base M_Raw M_V8 M_Map M_Crox M_Analysis M_Metadata S_Json F_Json M_Json.
Import ListNotations.
Open Scope Z_scope.

Lemma Ok_inj {A} (a b : A) : Ok a = Ok b -> a = b.
Proof. congruence. Qed.
Lemma bind_Ok {A B} (r : res A) (k : A -> res B) b : (do a <- r; k a) = Ok b -> exists a, r = Ok a /\ k a = Ok b.
Proof. destruct r; cbn [bind]; try discriminate. eauto. Qed.
Lemma fields_cons k m l : fields k (m :: l) = if beq (fst m) k then snd m :: fields k l else fields k l.
Proof. unfold fields. cbn [filter]. destruct (beq (fst m) k); reflexivity. Qed.
Lemma fields_app k a b : fields k (a ++ b) = fields k a ++ fields k b.
Proof. unfold fields. rewrite filter_app, map_app. reflexivity. Qed.
Lemma fields_nil k l : fields k l = [] <-> ~ In k (map fst l).
Proof.
  induction l as [|(k', x) l IH]; [cbn; tauto|]. rewrite fields_cons. cbn [fst snd map In]. destruct (beq k' k) eqn:E.
  - apply beq_true in E. subst k'. split; [discriminate|tauto].
  - rewrite IH. assert (k' <> k) by (intros ->; rewrite (proj2 (beq_true k k) eq_refl) in E; discriminate). tauto.
Qed.
Lemma field_iff k l x : field k l = Ok x <-> exists before after, l = before ++ (k, x) :: after /\ ~ In k (map fst (before ++ after)).
Proof.
  unfold field. split.
  - induction l as [|(k', y) l IH]; [discriminate|]. rewrite fields_cons. cbn [fst snd]. destruct (beq k' k) eqn:E.
    + apply beq_true in E. subst k'. destruct (fields k l) as [|] eqn:F; [|discriminate]. intros K. injection K as ->. exists [], l. split; [reflexivity|]. apply fields_nil, F.
    + intros K. destruct (IH K) as (b & a & -> & N). exists ((k', y) :: b), a. split; [reflexivity|]. cbn [app map fst In]. intros [->|H]; [|tauto]. rewrite (proj2 (beq_true k k) eq_refl) in E. discriminate.
  - intros (b & a & -> & N). rewrite map_app, in_app_iff in N. rewrite fields_app, fields_cons. cbn [fst snd]. rewrite (proj2 (beq_true k k) eq_refl).
    rewrite (proj2 (fields_nil k b)), (proj2 (fields_nil k a)) by tauto. reflexivity.
Qed.
Lemma Forall2_fun {A B} (R : A -> B -> Prop) l a b : (forall x y z, R x y -> R x z -> y = z) -> Forall2 R l a -> Forall2 R l b -> a = b.
Proof.
  intros H F. revert b. induction F as [|x y l a HR F IH]; intros b G; inversion G; subst; [reflexivity|]. f_equal; [eauto|auto].
Qed.
Lemma Forall2_weaken {A B} (P Q : A -> B -> Prop) l l' : (forall a b, P a b -> Q a b) -> Forall2 P l l' -> Forall2 Q l l'.
Proof. intros H F. induction F; constructor; auto. Qed.
Lemma combine_fields names : NoDup names -> forall vals, List.length vals = List.length names -> Forall2 (fun k x => field k (combine names vals) = Ok x) names vals.
Proof.
  induction names as [|k names IH]; intros ND [|x vals] L; try discriminate; [constructor|]. inversion ND as [|? ? NI ND']; subst.
  assert (NC : forall ns (vs : list json), ~ In k ns -> ~ In k (map fst (combine ns vs))).
  { clear. induction ns as [|n ns IH]; intros [|v vs] H; cbn; try tauto. cbn [In] in H. intros [->|Q]; [tauto|]. revert Q. apply IH. tauto. }
  constructor.
  - apply field_iff. exists [], (combine names vals). split; [reflexivity|]. apply NC, NI.
  - assert (G : forall (ks : list bytes) vs, Forall2 (fun k0 x0 => field k0 (combine names vals) = Ok x0) ks vs -> ~ In k ks -> Forall2 (fun k0 x0 => field k0 (combine (k :: names) (x :: vals)) = Ok x0) ks vs).
    { induction 1 as [|k0 x0 ks vs H F IHF]; intros Hk; [constructor|]. cbn [In] in Hk. constructor; [|tauto]. unfold field in *. cbn [combine]. rewrite fields_cons. cbn [fst snd].
      destruct (beq k k0) eqn:E; [apply beq_true in E; subst; tauto|exact H]. }
    apply G; [|exact NI]. apply IH; auto.
Qed.
Lemma structure_iff names v vals : NoDup names ->
  structure names v vals <-> exists l, as_object names v = Ok l /\ Forall2 (fun k x => field k l = Ok x) names vals.
Proof.
  intros ND. unfold structure, as_object. assert (FX : forall l, Forall2 (fun k x => field k l = Ok x) names vals <-> Forall2 (fun k x => exists before after, l = before ++ (k, x) :: after /\ ~ In k (map fst (before ++ after))) names vals).
  { intros l. split; apply Forall2_weaken; intros k x; apply field_iff. }
  split.
  - intros [(l & -> & F)|(-> & L)].
    + exists l. split; [reflexivity|]. apply FX, F.
    + exists (combine names vals). cbn [members_of]. rewrite L, Nat.eqb_refl. split; [reflexivity|]. apply combine_fields; auto.
  - intros (l & E & F). destruct v as [| | | | |l'|l']; try discriminate; cbn [members_of] in E.
    + right. destruct (Nat.eqb_spec (List.length l') (List.length names)) as [L|]; [|discriminate]. injection E as <-.
      pose proof (Forall2_fun _ _ _ _ (fun k x y (H1 : field k (combine names l') = Ok x) H2 => Ok_inj _ _ (eq_trans (eq_sym H1) H2)) (combine_fields names ND l' L) F) as ->. auto.
    + left. injection E as <-. exists l'. split; [reflexivity|]. apply FX, F.
Qed.
(** ** The values *)
Ltac inv_binds H := repeat (let a := fresh "a" in let E := fresh "E" in apply bind_Ok in H; destruct H as (a & E & H)).
Ltac distinct := repeat (apply NoDup_cons; [cbn [In]; intros Q; repeat (destruct Q as [Q|Q]; [discriminate Q|]); exact Q|]); apply NoDup_nil.
Ltac inv_fields F := repeat match type of F with Forall2 _ _ _ => let H := fresh "Hf" in let F' := fresh "F" in inversion F as [|? ? ? ? H F']; subst; clear F; rename F' into F end.
Lemma as_unsigned_iff b v n : as_unsigned b v = Ok n <-> unsigned_value b v n.
Proof.
  unfold as_unsigned, unsigned_value. split.
  - destruct v as [| |m| | | |]; try discriminate. destruct ((0 <=? m) && (m <? b)) eqn:E; [|discriminate]. intros K. injection K as <-. split; [reflexivity|lia].
  - intros (-> & H). replace ((0 <=? n) && (n <? b)) with true by lia. reflexivity.
Qed.
Lemma as_u64_iff v n : as_unsigned U64 v = Ok n <-> unsigned_value (2 ^ 64) v n.
Proof. exact (as_unsigned_iff (2 ^ 64) v n). Qed.
Lemma as_string_iff v s : as_string v = Ok s <-> v = JStr s.
Proof. destruct v; cbn; split; congruence. Qed.
Lemma as_array_iff v s : as_array v = Ok s <-> v = JArr s.
Proof. destruct v; cbn; split; congruence. Qed.
Lemma read_all_iff {A} (f : json -> res A) (R : json -> A -> Prop) l xs : (forall v x, f v = Ok x <-> R v x) -> read_all f l = Ok xs <-> Forall2 R l xs.
Proof.
  intros H. revert xs. induction l as [|v l IH]; intros xs; cbn [read_all].
  - split; [intros E; injection E as <-; constructor|intros F; inversion F; reflexivity].
  - split.
    + intros E. inv_binds E. injection E as <-. constructor; [apply H; auto|apply IH; auto].
    + intros F. inversion F as [|? y ? ys HR F']; subst. apply H in HR. apply IH in F'. rewrite HR, F'. reflexivity.
Qed.
Lemma as_duration_iff v n : as_duration v = Ok n <-> duration_value v n.
Proof.
  assert (ND : NoDup [str "secs"; str "nanos"]) by distinct. unfold as_duration, duration_value. split.
  - intros H. apply bind_Ok in H. destruct H as (l & EO & H). destruct (forallb _ l) eqn:FB; [|discriminate]. inv_binds H.
    destruct (a1 + a2 / 1000000000 <? U64) eqn:EB; [|discriminate]. injection H as <-. apply as_unsigned_iff in E1, E2. exists a, a0, a1, a2.
    split; [apply structure_iff; [exact ND|]; exists l; split; [exact EO|]; constructor; [exact E|]; constructor; [exact E0|constructor]|].
    split. { intros l' k x -> HI. unfold as_object in EO. cbn [members_of] in EO. injection EO as <-. rewrite forallb_forall in FB. apply FB in HI. cbn [fst] in HI. apply orb_true_iff in HI. rewrite !beq_true in HI. exact HI. }
    unfold U64 in *. split; [exact E1|]. split; [exact E2|]. split; [reflexivity|]. destruct E1 as (_ & E1), E2 as (_ & E2). apply Z.ltb_lt in EB. Z.to_euclidean_division_equations; lia.
  - intros (vs & vn & s & ns & S & HK & H1 & H2 & -> & HB). apply structure_iff in S; [|exact ND]. destruct S as (l & EO & F). rewrite EO. cbn [bind].
    assert (FB : forallb (fun m => beq (fst m) (str "secs") || beq (fst m) (str "nanos")) l = true).
    { apply forallb_forall. intros (k & x) HI. cbn [fst]. rewrite orb_true_iff, !beq_true. unfold as_object in EO. destruct v as [| | | | |l'|l']; try discriminate; cbn [members_of] in EO.
      - destruct (_ =? _)%nat; [|discriminate]. injection EO as <-. destruct l' as [|x1 [|x2 l']]; cbn [combine In] in HI; repeat destruct HI as [HI|HI]; try (injection HI as <- _); tauto.
      - injection EO as <-. eapply HK; eauto. }
    rewrite FB. inv_fields F. rewrite Hf, Hf0. cbn [bind]. pose proof (proj2 (as_u64_iff _ _) H1) as H1'. pose proof (proj2 (as_unsigned_iff _ _ _) H2) as H2'. rewrite H1', H2'. cbn [bind].
    destruct H1 as (_ & H1), H2 as (_ & H2). destruct (Z.ltb_spec (s + ns / 1000000000) U64) as [|G]; [reflexivity|]. exfalso. unfold U64 in *. Z.to_euclidean_division_equations; lia.
Qed.
Lemma as_query_iff v q : as_query v = Ok q <-> query_value v q.
Proof.
  assert (ND : NoDup (map str ["label"; "time"; "self_time"; "number_of_cache_misses"; "number_of_cache_hits"; "invocation_count"; "blocked_time"; "incremental_load_time"; "incremental_hashing_time"]%string)) by (cbn [map]; distinct).
  unfold as_query, query_value. split.
  - intros H. inv_binds H. injection H as <-. cbn [q_label q_time q_self_time q_misses q_hits q_count q_blocked q_load q_hashing].
    repeat match goal with H : as_duration _ = Ok _ |- _ => apply as_duration_iff in H | H : as_unsigned _ _ = Ok _ |- _ => apply as_u64_iff in H | H : as_string _ = Ok _ |- _ => apply as_string_iff in H end. subst.
    do 8 eexists. split; [apply structure_iff; [exact ND|]; eexists; split; [eassumption|]; cbn [map]; repeat (apply Forall2_cons; [eassumption|]); apply Forall2_nil|].
    repeat (split; [eassumption|]). assumption.
  - intros (v1 & v2 & v3 & v4 & v5 & v6 & v7 & v8 & S & H1 & H2 & H3 & H4 & H5 & H6 & H7 & H8). apply structure_iff in S; [|exact ND]. destruct S as (l & EO & F). cbn [map] in EO, F. rewrite EO. cbn [bind].
    inv_fields F. apply as_duration_iff in H1, H2, H6, H7, H8. apply as_u64_iff in H3, H4, H5.
    repeat match goal with H : ?x = Ok _ |- context [bind ?x] => rewrite H; cbn [bind as_string] end. destruct q; reflexivity.
Qed.
Lemma as_artifact_iff v a : as_artifact v = Ok a <-> artifact_value v a.
Proof.
  assert (ND : NoDup [str "label"; str "value"]) by distinct. unfold as_artifact, artifact_value. split.
  - intros H. inv_binds H. injection H as <-. apply as_string_iff in E1. apply as_u64_iff in E3. subst. cbn [art_label art_value]. eexists. split; [|exact E3].
    apply structure_iff; [exact ND|]. eexists. split; [eassumption|]. repeat (apply Forall2_cons; [eassumption|]). apply Forall2_nil.
  - intros (x & S & H). apply structure_iff in S; [|exact ND]. destruct S as (l & EO & F). rewrite EO. cbn [bind]. inv_fields F. apply as_u64_iff in H.
    repeat match goal with H : ?x = Ok _ |- context [bind ?x] => rewrite H; cbn [bind as_string] end. destruct a; reflexivity.
Qed.
Lemma as_results_iff v r : as_results v = Ok r <-> results_value v r.
Proof.
  assert (ND : NoDup [str "query_data"; str "artifact_sizes"; str "total_time"]) by distinct. unfold as_results, results_value. split.
  - intros H. inv_binds H. injection H as <-.
    repeat match goal with H : as_duration _ = Ok _ |- _ => apply as_duration_iff in H | H : as_array _ = Ok _ |- _ => apply as_array_iff in H | H : read_all as_query _ = Ok _ |- _ => apply (read_all_iff _ _ _ _ as_query_iff) in H | H : read_all as_artifact _ = Ok _ |- _ => apply (read_all_iff _ _ _ _ as_artifact_iff) in H end.
    subst. cbn [query_data artifact_sizes total_time]. do 3 eexists. split; [apply structure_iff; [exact ND|]; eexists; split; [eassumption|]; repeat (apply Forall2_cons; [eassumption|]); apply Forall2_nil|].
    split; [eassumption|]. split; eassumption.
  - intros (qs & as_ & t & S & H1 & H2 & H3). apply structure_iff in S; [|exact ND]. destruct S as (l & EO & F). rewrite EO. cbn [bind]. inv_fields F.
    apply (read_all_iff _ _ _ _ as_query_iff) in H1. apply (read_all_iff _ _ _ _ as_artifact_iff) in H2. apply as_duration_iff in H3.
    repeat match goal with H : ?x = Ok _ |- context [bind ?x] => rewrite H; cbn [bind as_array] end. destruct r; reflexivity.
Qed.

(** ** C57: the reader of result files accepts exactly the JSON documents of results *)
Theorem C57_accepts : forall text r, read_results text = Ok r <-> exists v, document text v /\ results_value v r.
Proof.
  intros text r. unfold read_results. split.
  - destruct (from_str text) as [v|] eqn:E; [|discriminate]. intros H. exists v. split; [apply from_str_iff, E|apply as_results_iff, H].
  - intros (v & D & H). apply from_str_iff in D. rewrite D. apply as_results_iff, H.
Qed.
Print Assumptions C57_accepts.
(** ** C41: the same for the metadata of a profile *)
Theorem C41_accepts : forall text m, parse_metadata text = Ok m <-> exists v, document text v /\ metadata_value v m.
Proof.
  assert (ND : NoDup [str "start_time"; str "process_id"; str "cmd"]) by distinct.
  assert (FO : forall k l x, fields k l = [x] <-> field k l = Ok x).
  { intros k l x. unfold field. destruct (fields k l) as [|y [|]]; split; congruence. }
  intros text m. unfold parse_metadata. split.
  - destruct (from_str text) as [v|] eqn:E; [|discriminate]. destruct (members_of _ v) as [l|] eqn:EM; [|discriminate].
    destruct (fields (str "start_time") l) as [|x1 [|]] eqn:E1; try (destruct x1; discriminate); try discriminate. destruct x1 as [| |t| | | |]; try discriminate.
    destruct (fields (str "process_id") l) as [|x2 [|]] eqn:E2; try (destruct x2; discriminate); try discriminate. destruct x2 as [| |p| | | |]; try discriminate.
    destruct (fields (str "cmd") l) as [|x3 [|]] eqn:E3; try (destruct x3; discriminate); try discriminate. destruct x3 as [| | | |c| |]; try discriminate.
    destruct (_ && _) eqn:B; [|discriminate]. intros K. injection K as <-. exists v. split; [apply from_str_iff, E|]. apply FO in E1, E2, E3. exists (JInt t), (JInt p). cbn [md_cmd md_start_time md_process_id].
    split; [|split; (split; [reflexivity|lia])]. apply structure_iff; [exact ND|]. exists l. split; [unfold as_object; rewrite EM; reflexivity|]. repeat (apply Forall2_cons; [assumption|]). apply Forall2_nil.
  - intros (v & D & t & p & S & (-> & H1) & (-> & H2)). apply from_str_iff in D. rewrite D. apply structure_iff in S; [|exact ND]. destruct S as (l & EO & F). unfold as_object in EO.
    destruct (members_of _ v) as [l'|]; [|discriminate]. injection EO as ->. inv_fields F. apply FO in Hf, Hf0, Hf1. rewrite Hf, Hf0, Hf1.
    match goal with |- (if ?c then _ else _) = _ => replace c with true by lia end. destruct m; reflexivity.
Qed.
Print Assumptions C41_accepts.
(** A text that no program of this repository writes: fields in another order, an unknown field, a duration as an
    array; a repeated field is an error. *)
Example ex_C57_accepts :
  read_results (str " {""total_time"":[1, 5],""x"":[{}],""artifact_sizes"":[[""a"",7]], ""query_data"":[]}") = Ok (mkRes [] [mkArt (str "a") 7] 1000000005) /\
  read_results (str "{""total_time"":[1, 5],""total_time"":[1, 5],""artifact_sizes"":[], ""query_data"":[]}") = Err /\
  read_results (str "{""total_time"":[-0, 5],""artifact_sizes"":[], ""query_data"":[]}") = Err /\
  parse_metadata (str "[5,6,""rustc""]") = Ok (mkMd 5 6 (str "rustc")).
Proof. repeat split; vm_compute; reflexivity. Qed.
