(** C37: the exported records.  Model M_Crox.v, specification S_Crox.v. *)
From Coq Require Import String ZArith List Lia Bool Sorted Permutation.
From Verif Require Import M_Base F_Base M_Raw M_V8 M_Map M_Analysis S_Analysis F_Analysis M_Diff F_Diff M_Crox S_Crox Prop_Crox.
Import ListNotations.
Open Scope Z_scope.

(** ** Decimal numbers *)
Lemma digits_denotes fuel : forall n acc, 0 <= n -> (Z.to_nat n < fuel)%nat ->
  fold_left (fun n d => 10 * n + (d - 48)) (digits_fuel fuel n acc) 0 = fold_left (fun n d => 10 * n + (d - 48)) acc n.
Proof.
  induction fuel as [|f IH]; intros n acc H L; [lia|]. cbn [digits_fuel]. destruct (Z.eqb_spec (n / 10) 0) as [E|E].
  - cbn [fold_left]. f_equal. pose proof (Z.div_mod n 10). lia.
  - rewrite IH; [| |].
    + cbn [fold_left]. f_equal. pose proof (Z.div_mod n 10). lia.
    + apply Z.div_pos; lia.
    + assert (n / 10 < n) by (Z.to_euclidean_division_equations; lia). pose proof (Z.div_pos n 10 H ltac:(lia)). lia.
Qed.
Lemma decimal_denotes n : 0 <= n -> denotes (decimal n) = n.
Proof. intros H. unfold denotes, decimal. rewrite digits_denotes by lia. reflexivity. Qed.
(** Decimal numerals are different for different numbers. *)
Lemma decimal_inj a b : 0 <= a -> 0 <= b -> decimal a = decimal b -> a = b.
Proof. intros HA HB E. rewrite <- (decimal_denotes a HA), <- (decimal_denotes b HB), E. reflexivity. Qed.

(** ** Arguments *)
Lemma number_args_In args : forall i k v, 0 <= i -> (In (k, v) (number_args i args) <-> exists j, i <= j /\ k = str "arg" ++ decimal j /\ znth (j - i) args = Some v).
Proof.
  induction args as [|a args IH]; intros i k v Hi; cbn [number_args In].
  - split; [intros []|]. intros (j & Hj & _ & E). unfold znth in E. destruct (j - i <? 0); [discriminate|]. destruct (Z.to_nat (j - i)); discriminate.
  - rewrite IH by lia. split.
    + intros [[= <- <-]|(j & Hj & -> & E)].
      * exists i. split; [lia|]. split; auto. replace (i - i) with 0 by lia. reflexivity.
      * exists j. split; [lia|]. split; auto. unfold znth in *. destruct (Z.ltb_spec (j - (i + 1)) 0); [lia|]. destruct (Z.ltb_spec (j - i) 0); [lia|]. replace (Z.to_nat (j - i)) with (S (Z.to_nat (j - (i + 1)))) by lia. exact E.
    + intros (j & Hj & -> & E). destruct (Z.eq_dec j i) as [->|NE].
      * left. replace (i - i) with 0 in E by lia. change (Some a = Some v) in E. injection E as ->. reflexivity.
      * right. exists j. split; [lia|]. split; auto. unfold znth in *. destruct (Z.ltb_spec (j - (i + 1)) 0); [lia|]. destruct (Z.ltb_spec (j - i) 0); [lia|]. replace (Z.to_nat (j - i)) with (S (Z.to_nat (j - (i + 1)))) in E by lia. exact E.
Qed.
Lemma beq_eq' (a b : bytes) : beq a b = true <-> a = b.
Proof. apply beq_eq. Qed.
Lemma put_all_In (l : list (bytes * bytes)) : NoDup (map fst l) -> forall m, NoDup (map fst m) -> (forall k, In k (map fst l) -> ~ In k (map fst m)) ->
  NoDup (map fst (fold_left (fun m x => map_put beq (fst x) (snd x) m) l m)) /\
  forall k v, In (k, v) (fold_left (fun m x => map_put beq (fst x) (snd x) m) l m) <-> In (k, v) l \/ In (k, v) m.
Proof.
  assert (PN : forall (m : list (bytes * bytes)) k v, ~ In k (map fst m) -> map_put beq k v m = m ++ [(k, v)]).
  { induction m as [|(k', v') m IH]; intros k v N; cbn [map_put]; auto. destruct (beq k k') eqn:E; [apply beq_eq' in E; subst; destruct N; left; auto|]. cbn. f_equal. apply IH. intros H. apply N. right; auto. }
  induction l as [|(k0, v0) l IH]; intros ND m NM D; cbn [fold_left fst snd]; [split; auto; intros; cbn; tauto|].
  cbn [map fst] in ND. inversion ND as [|? ? N0 ND']; subst. rewrite PN by (apply D; left; auto). destruct (IH ND' (m ++ [(k0, v0)])) as (A & B).
  - rewrite map_app. cbn [map fst]. apply Permutation_NoDup with (k0 :: map fst m); [apply Permutation_cons_append|]. constructor; auto. apply D. left; auto.
  - intros k Hk. rewrite map_app, in_app_iff. cbn [map fst In]. intros [H|[<-|[]]]; [apply (D k); [right; auto|auto]|contradiction].
  - split; auto. intros k v. rewrite B, in_app_iff. cbn [In]. tauto.
Qed.
Lemma number_args_NoDup args : forall i, 0 <= i -> NoDup (map fst (number_args i args)).
Proof.
  induction args as [|a args IH]; intros i Hi; cbn [number_args map fst]; constructor; [|apply IH; lia]. intros H. apply in_map_iff in H. destruct H as ((k, v) & E & H). cbn [fst] in E.
  apply number_args_In in H; [|lia]. destruct H as (j & Hj & Ek & _). subst k. apply app_inv_head in Ek. apply decimal_inj in Ek; lia.
Qed.
(** The arguments are exported as arg0, arg1, ... *)
Theorem C37_args : forall e, match get_args e with
  | None => ev_args e = []
  | Some m => ev_args e <> [] /\ NoDup (map fst m) /\
      forall k v, In (k, v) m <-> exists i, 0 <= i /\ k = str "arg" ++ decimal i /\ znth i (ev_args e) = Some v
  end.
Proof.
  intros e. unfold get_args. destruct (ev_args e) as [|a args] eqn:E; auto. split; [discriminate|]. rewrite <- E.
  destruct (put_all_In (number_args 0 (ev_args e)) (number_args_NoDup _ 0 ltac:(lia)) []) as (A & B); [constructor|intros k _ []|]. split; auto.
  intros k v. rewrite B. rewrite number_args_In by lia. cbn [In]. split.
  - intros [(j & Hj & Ek & Ez)|[]]. exists j. replace (j - 0) with j in Ez by lia. auto.
  - intros (j & Hj & Ek & Ez). left. exists j. replace (j - 0) with j by lia. auto.
Qed.

(** ** Times *)
Theorem C37_micros : forall oc d, 0 <= d < 18446744073709551616 * 1000 -> as_micros oc d = Ok (d / 1000).
Proof.
  intros oc d H. unfold as_micros, u64_add. assert (E : d / 1000 = d / 1000000000 * 1000000 + d mod 1000000000 / 1000) by (Z.to_euclidean_division_equations; lia).
  assert (d / 1000 < 18446744073709551616) by (apply Z.div_lt_upper_bound; lia). pose proof (Z.div_pos (d mod 1000000000) 1000 ltac:(apply Z.mod_pos_bound; lia) ltac:(lia)).
  destruct (Z.ltb_spec (d / 1000000000 * 1000000) U64) as [L|L]; [|unfold U64 in L; lia]. cbn [bind]. rewrite <- E. destruct (Z.ltb_spec (d / 1000) U64) as [L2|L2]; [reflexivity|unfold U64 in L2; lia].
Qed.
Lemma below_min d m : (d / 1000 <? m) = negb (m * 1000 <=? d).
Proof. destruct (Z.ltb_spec (d / 1000) m), (Z.leb_spec (m * 1000) d); auto; Z.to_euclidean_division_equations; lia. Qed.
Lemma export_event_ok oc minimum m pid e : exportable e ->
  exists rs, export_event oc minimum m pid e = Ok rs /\
    if selected minimum e then exists r, rs = [r] /\ chrome_record pid (match map_get Z.eqb (ev_thread e) m with Some t => t | None => ev_thread e end) e r else rs = [].
Proof.
  unfold exportable, export_event, selected. destruct (ev_payload e) as [[a b|t]|v] eqn:EP; cbn [p_is_interval negb]; intros H; try (exists []; split; reflexivity).
  cbn [duration ts_duration p_timestamp option_map ts_start]. destruct (Z.leb_spec a b) as [L|L]; [|lia]. cbn [unwrap bind].
  replace (match minimum with Some m0 => (b - a) / 1000 <? m0 | None => false end) with (negb (match minimum with Some m0 => m0 * 1000 <=? b - a | None => true end)) by (destruct minimum; [rewrite below_min|]; reflexivity).
  destruct (match minimum with Some m0 => m0 * 1000 <=? b - a | None => true end); cbn [negb]; [|exists []; auto].
  destruct (Z.leb_spec 0 a); [|lia]. cbn [bind]. rewrite C37_micros by lia. cbn [bind]. rewrite C37_micros by lia. cbn [bind].
  eexists. split; [reflexivity|]. eexists. split; [reflexivity|]. unfold chrome_record. exists a, b, (get_args e). split; auto. split; [reflexivity|]. apply C37_args.
Qed.
(** Exactly the selected events are exported, in order, each with its name, category, times, process,
    displayed thread and arguments; then the crate name (if any) and the sort index. *)
Theorem C37_export : forall oc minimum m md evs, Forall exportable evs -> 0 <= md_start_time md < 18446744073709551616 * 1000 ->
  exists rs, export_file oc minimum m md evs = Ok (rs ++ crate_name_record md ++ [ProcessSortIndex (md_process_id md) (md_start_time md / 1000)]) /\
    Forall2 (fun e r => chrome_record (md_process_id md) (match map_get Z.eqb (ev_thread e) m with Some t => t | None => ev_thread e end) e r) (filter (selected minimum) evs) rs.
Proof.
  intros oc minimum m md evs F HT. unfold export_file.
  assert (K : exists rss, collectM (export_event oc minimum m (md_process_id md)) evs = Ok rss /\
     Forall2 (fun e r => chrome_record (md_process_id md) (match map_get Z.eqb (ev_thread e) m with Some t => t | None => ev_thread e end) e r) (filter (selected minimum) evs) (concat rss)).
  { induction F as [|e evs He F (rss & E & IH)]; [exists []; split; [reflexivity|constructor]|]. cbn [collectM filter]. destruct (export_event_ok oc minimum m (md_process_id md) e He) as (rs & E1 & S).
    rewrite E1. cbn [bind]. rewrite E. cbn [bind]. exists (rs :: rss). split; [reflexivity|]. cbn [concat]. destruct (selected minimum e).
    - destruct S as (r & -> & C). cbn [app]. constructor; auto.
    - subst rs. exact IH. }
  destruct K as (rss & -> & K). cbn [bind]. unfold sort_index_record. destruct (Z.leb_spec 0 (md_start_time md)); [|lia]. cbn [bind].
  exists (concat rss). split; auto. do 4 f_equal. rewrite Z.mod_small; auto. split; [apply Z.div_pos; lia|]. apply Z.div_lt_upper_bound; unfold U64; lia.
Qed.
(** Reversed intervals and events before 1970 abort the export. *)
Theorem C37_reversed : forall oc minimum m pid e a b, ev_payload e = Timestamp (Interval a b) -> b < a -> export_event oc minimum m pid e = Panic.
Proof. intros oc minimum m pid e a b E H. unfold export_event. rewrite E. cbn [p_is_interval negb duration ts_duration]. destruct (Z.leb_spec a b); [lia|]. reflexivity. Qed.
Theorem C37_before_epoch : forall oc m pid e a b, ev_payload e = Timestamp (Interval a b) -> a <= b -> a < 0 -> export_event oc None m pid e = Panic.
Proof. intros oc m pid e a b E L H. unfold export_event. rewrite E. cbn [p_is_interval negb duration ts_duration]. destruct (Z.leb_spec a b); [|lia]. cbn [unwrap bind p_timestamp option_map ts_start]. destruct (Z.leb_spec 0 a); [lia|]. reflexivity. Qed.

(** ** The crate name *)
Lemma starts_with_app p : forall b, starts_with p b = true <-> exists rest, b = p ++ rest.
Proof.
  induction p as [|x p IH]; intros b; cbn [starts_with]; [split; [intros _; exists b; reflexivity|reflexivity]|]. destruct b as [|y b].
  - split; [discriminate|]. intros (rest & H). discriminate.
  - rewrite andb_true_iff, IH. split.
    + intros (E & rest & ->). apply Z.eqb_eq in E. subst. exists rest. reflexivity.
    + intros (rest & H). cbn in H. injection H as -> ->. split; [apply Z.eqb_refl|eauto].
Qed.
Lemma str_find_None p b : str_find p b = None <-> forall pre rest, b <> pre ++ p ++ rest.
Proof.
  induction b as [|x b IH].
  - cbn [str_find]. destruct (starts_with p []) eqn:E.
    + split; [discriminate|]. intros H. apply starts_with_app in E. destruct E as (rest & E). destruct (H [] rest E).
    + split; auto. intros _ pre rest H. destruct pre; [|discriminate]. cbn in H. assert (starts_with p [] = true) by (apply starts_with_app; eauto). congruence.
  - cbn [str_find]. destruct (starts_with p (x :: b)) eqn:E.
    + split; [discriminate|]. intros H. apply starts_with_app in E. destruct E as (rest & E). destruct (H [] rest E).
    + destruct (str_find p b) eqn:EF.
      * split; [discriminate|]. intros H. assert (QQ : Some z = None); [|discriminate QQ]. apply (proj2 IH). intros pre rest Q. apply (H (x :: pre) rest). cbn. congruence.
      * split; auto. intros _ pre rest H. destruct pre as [|y pre].
        -- cbn in H. assert (starts_with p (x :: b) = true) by (apply starts_with_app; eauto). congruence.
        -- cbn in H. injection H as -> H. eapply (proj1 IH eq_refl); eauto.
Qed.
Lemma str_find_Some p b n : str_find p b = Some n <-> exists pre rest, occurs_first p b pre rest /\ n = zlen pre.
Proof.
  revert n. induction b as [|x b IH]; intros n; cbn [str_find].
  - destruct (starts_with p []) eqn:E.
    + apply starts_with_app in E. destruct E as (rest & E). split.
      * intros [= <-]. exists [], rest. split; [split; auto; intros; cbn; lia|reflexivity].
      * intros (pre & rest' & (H & _) & ->). destruct pre; [reflexivity|discriminate].
    + split; [discriminate|]. intros (pre & rest & (H & _) & _). destruct pre; [|discriminate]. cbn in H. assert (starts_with p [] = true) by (apply starts_with_app; eauto). congruence.
  - destruct (starts_with p (x :: b)) eqn:E.
    + apply starts_with_app in E. destruct E as (rest & E). split.
      * intros [= <-]. exists [], rest. split; [split; auto; intros; cbn; lia|reflexivity].
      * intros (pre & rest' & (_ & M) & ->). specialize (M [] rest E). destruct pre; [reflexivity|cbn in M; lia].
    + split.
      * destruct (str_find p b) as [k|] eqn:EF; [|discriminate]. intros [= <-]. destruct (proj1 (IH k) eq_refl) as (pre & rest & (H & M) & ->). exists (x :: pre), rest. split.
        -- split; [cbn; congruence|]. intros pre' rest' Q. destruct pre' as [|y pre']; [cbn in Q; assert (starts_with p (x :: b) = true) by (apply starts_with_app; eauto); congruence|].
           cbn in Q. injection Q as -> Q. apply M in Q. cbn. lia.
        -- rewrite zlen_cons. lia.
      * intros (pre & rest & (H & M) & ->). destruct pre as [|y pre]; [cbn in H; assert (starts_with p (x :: b) = true) by (apply starts_with_app; eauto); congruence|].
        cbn in H. injection H as <- H. assert (Q : str_find p b = Some (zlen pre)).
        { apply IH. exists pre, rest. split; auto. split; auto. intros pre' rest' Q. specialize (M (x :: pre') rest' ltac:(cbn; congruence)). cbn in M. lia. }
        rewrite Q, zlen_cons. f_equal. lia.
Qed.
Lemma occurs_first_fun p b pre rest pre' rest' : occurs_first p b pre rest -> occurs_first p b pre' rest' -> pre = pre' /\ rest = rest'.
Proof.
  intros (E & M) (E' & M'). assert (L : List.length pre = List.length pre') by (specialize (M _ _ E'); specialize (M' _ _ E); lia).
  rewrite E in E'. assert (K : pre = pre' /\ p ++ rest = p ++ rest'). { clear - E' L. revert pre' L E'. induction pre as [|x pre IH]; intros [|y pre'] L E'; try discriminate; auto. cbn in *. injection E' as -> E'. destruct (IH pre' ltac:(lia) E') as (-> & ->). auto. }
  destruct K as (-> & K). apply app_inv_head in K. auto.
Qed.
Lemma space_split l : match str_find (str " ") l with Some n => exists t, l = ztake n l ++ 32 :: t /\ ~ In 32 (ztake n l) | None => ~ In 32 l end.
Proof.
  destruct (str_find (str " ") l) as [n|] eqn:E.
  - apply str_find_Some in E. destruct E as (pre & rest & (E & M) & ->). exists rest. change (str " ") with [32] in *. cbn [app] in E. subst l. rewrite ztake_app. split; auto.
    intros H. apply in_split in H. destruct H as (l1 & l2 & ->). specialize (M l1 (l2 ++ 32 :: rest)). cbn [app] in M. rewrite <- app_assoc in M. specialize (M eq_refl). rewrite app_length in M. cbn in M. lia.
  - intros H. apply in_split in H. destruct H as (l1 & l2 & ->). apply (proj1 (str_find_None _ _) E l1 l2). reflexivity.
Qed.
(** The process is named after the word following the first [" --crate-name "], if there is one. *)
Theorem C37_crate_name : forall md,
  (exists name, crate_name_of (md_cmd md) name /\ crate_name_record md = [ProcessName (md_process_id md) name]) \/
  ((forall pre rest, md_cmd md <> pre ++ str " --crate-name " ++ rest) /\ crate_name_record md = []).
Proof.
  intros md. unfold crate_name_record. destruct (str_find (str " --crate-name ") (md_cmd md)) as [n|] eqn:E.
  - left. apply str_find_Some in E. destruct E as (pre & rest & O & ->). assert (ED : zdrop (zlen pre + 14) (md_cmd md) = rest).
    { destruct O as (-> & _). change 14 with (zlen (str " --crate-name ")). rewrite <- zlen_app, app_assoc. apply zdrop_app. }
    rewrite ED. pose proof (space_split rest) as S. destruct (str_find (str " ") rest) as [k|].
    + destruct S as (t & S1 & S2). exists (ztake k rest). split; auto. exists pre, rest, (32 :: t). split; auto. split; auto. split; auto. right. eauto.
    + exists rest. rewrite ztake_all by lia. split; auto. exists pre, rest, []. split; auto. rewrite app_nil_r. auto.
  - right. split; auto. apply str_find_None. auto.
Qed.
(** The name is determined by the command line. *)
Theorem C37_crate_name_unique : forall cmd name name', crate_name_of cmd name -> crate_name_of cmd name' -> name = name'.
Proof.
  intros cmd name name' (pre & rest & tail & O & E & N & T) (pre' & rest' & tail' & O' & E' & N' & T'). destruct (occurs_first_fun _ _ _ _ _ _ O O') as (_ & <-). rewrite E in E'. clear - E' N T N' T'.
  revert name' N' E'. induction name as [|x name IH]; intros [|y name'] N' E'; auto.
  - cbn in E'. destruct T as [->|(t & ->)]; [discriminate|]. injection E' as <- _. destruct N'. left; auto.
  - cbn in E'. destruct T' as [->|(t & ->)]; [discriminate|]. injection E' as -> _. destruct N. left; auto.
  - cbn in E'. injection E' as -> E'. f_equal. apply IH; auto; intros H; [apply N|apply N']; right; auto.
Qed.

(** ** Decimal numerals *)
Lemma digits_digits fuel : forall n acc, 0 <= n -> Forall (fun d => 48 <= d <= 57) acc -> Forall (fun d => 48 <= d <= 57) (digits_fuel fuel n acc).
Proof.
  induction fuel as [|f IH]; intros n acc H F; cbn [digits_fuel]; auto. assert (F' : Forall (fun d => 48 <= d <= 57) ((48 + n mod 10) :: acc)) by (constructor; auto; Z.to_euclidean_division_equations; lia).
  destruct (n / 10 =? 0); auto. apply IH; auto. apply Z.div_pos; lia.
Qed.
Lemma digits_lead fuel : forall n acc, 0 < n -> (Z.to_nat n < fuel)%nat -> exists d t, digits_fuel fuel n acc = d :: t /\ d <> 48.
Proof.
  induction fuel as [|f IH]; intros n acc H L; [lia|]. cbn [digits_fuel]. destruct (Z.eqb_spec (n / 10) 0) as [E|E].
  - eexists _, _. split; [reflexivity|]. Z.to_euclidean_division_equations; lia.
  - apply IH; Z.to_euclidean_division_equations; lia.
Qed.
(** [decimal n] is the numeral of [n]: digits only, of value [n], without a leading zero. *)
Theorem C37_decimal : forall n, 0 <= n ->
  Forall (fun d => 48 <= d <= 57) (decimal n) /\ denotes (decimal n) = n /\
  (n = 0 -> decimal n = [48]) /\ (0 < n -> exists d t, decimal n = d :: t /\ d <> 48).
Proof.
  intros n H. split; [apply digits_digits; auto|]. split; [apply decimal_denotes; auto|]. split; [intros ->; reflexivity|]. intros L. apply digits_lead; lia.
Qed.

(** ** All files *)
Theorem C37_main : forall oc collapse minimum files r, Forall (fun f => Forall exportable (snd f) /\ 0 <= md_start_time (fst f) < 18446744073709551616 * 1000 /\ few_threads (snd f)) files ->
  crox_main oc collapse minimum files r ->
  exists rs, r = Ok (concat rs) /\
    Forall2 (fun f r => exists m, thread_mapping oc collapse (snd f) (Ok m) /\ export_file oc minimum m (fst f) (snd f) = Ok r) files rs.
Proof.
  intros oc collapse minimum files r F C. induction C as [|md evs files T|md evs files m rs r T E C IH|md evs files m T E].
  - exists []. split; [reflexivity|constructor].
  - inversion F as [|? ? (H1 & H2 & H3) F']; subst. cbn [fst snd] in *. destruct collapse; [|inversion T; discriminate]. destruct (C36_total _ _ _ H3 T) as (m & [=]).
  - inversion F as [|? ? (H1 & H2 & H3) F']; subst. destruct (IH F') as (rss & -> & K). exists (rs :: rss). split; [reflexivity|]. constructor; auto. exists m. auto.
  - inversion F as [|? ? (H1 & H2 & H3) F']; subst. cbn [fst snd] in *. destruct (C37_export oc minimum m md evs H1 H2) as (r & E' & _). congruence.
Qed.
(** There is always an outcome. *)
Theorem C37_main_exists : forall oc collapse minimum files, Forall (fun f => Forall exportable (snd f) /\ 0 <= md_start_time (fst f) < 18446744073709551616 * 1000 /\ few_threads (snd f)) files ->
  exists r, crox_main oc collapse minimum files r.
Proof.
  intros oc collapse minimum files F. induction F as [|(md, evs) files (H1 & H2 & H3) F (rs & C)]; [eexists; constructor|]. cbn [fst snd] in *.
  assert (T : exists m, thread_mapping oc collapse evs (Ok m)). { destruct collapse; [|exists []; constructor; auto]. destruct (C36_exists oc evs) as (r & T). destruct (C36_total _ _ _ H3 T) as (m & ->). eauto. }
  destruct T as (m & T). destruct (C37_export oc minimum m md evs H1 H2) as (r & E & _). eexists. exact (cm_cons oc collapse minimum md evs files m _ _ T E C).
Qed.
Example C37_example :
  export_file true (Some 2) [(7, 0)] (mkMd 5000 99 (str "rustc --crate-name foo x.rs"))
    [mkEv (str "Query") (str "q") [str "a"; str "b"] (Timestamp (Interval 10500 12500)) 7; mkEv (str "Query") (str "r") [] (Timestamp (Interval 12000 12900)) 7; mkEv (str "Query") (str "i") [] (Timestamp (Instant 12000)) 7] =
  Ok [Complete (str "q") (str "Query") 10 2 99 0 (Some [(str "arg0", str "a"); (str "arg1", str "b")]); ProcessName 99 (str "foo"); ProcessSortIndex 99 5].
Proof. reflexivity. Qed.
Print Assumptions C37_main.
