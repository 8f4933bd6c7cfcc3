(** C44: the readers find what the writers wrote.  Model M_Path.v. *)
From Coq Require Import ZArith List Lia Bool String.
From Verif Require Import M_Base F_Base M_Map M_Path.
Import ListNotations.
Open Scope Z_scope.

(** File names: non-empty, without a slash, and not one of the two special names. *)
Definition name_ok (n : bytes) : Prop := n <> [] /\ ~ In SLASH n /\ n <> [DOT] /\ n <> [DOT; DOT].
Definition path_ok (p : path) : Prop := Forall (fun c => match c with Normal n => name_ok n | _ => True end) p.
(** The path [dir/n]. *)
Definition in_dir (dir : path) (n : bytes) : path := dir ++ [Normal n].

(** * Facts about names *)
Lemma split_spec b : match split_last_dot b with
  | Some (x, y) => b = x ++ [DOT] ++ y /\ ~ In DOT y
  | None => ~ In DOT b end.
Proof.
  induction b as [|x b IH]; cbn [split_last_dot]; [intros []|].
  destruct (split_last_dot b) as [(y, z)|].
  - destruct IH as (-> & IH). auto.
  - destruct (Z.eqb_spec x DOT) as [->|N]; [auto|]. intros [E|H]; auto.
Qed.
Lemma split_join x y : ~ In DOT y -> split_last_dot (x ++ [DOT] ++ y) = Some (x, y).
Proof.
  intros H. induction x as [|a x IH]; cbn [app split_last_dot].
  - pose proof (split_spec y) as S. destruct (split_last_dot y) as [(u, v)|]; [|reflexivity].
    destruct S as (-> & _). destruct H. rewrite in_app_iff. right. left. auto.
  - cbn [app] in IH. rewrite IH. reflexivity.
Qed.
Lemma name_stem_nonempty n : n <> [] -> name_stem n <> [].
Proof. unfold name_stem. destruct (split_last_dot n) as [([|a x], y)|]; auto. discriminate. Qed.
Lemma name_stem_join n ext : n <> [] -> ~ In DOT ext -> name_stem (name_stem n ++ [DOT] ++ ext) = name_stem n.
Proof.
  intros Hn He. apply name_stem_nonempty in Hn. unfold name_stem at 1. rewrite split_join by auto.
  destruct (name_stem n); [congruence|reflexivity].
Qed.
Lemma file_name_in_dir dir n : file_name (in_dir dir n) = Some n.
Proof. unfold in_dir. induction dir as [|c dir IH]; cbn; auto. destruct dir; cbn in *; destruct c; auto. Qed.
Lemma with_extension_in_dir dir n ext : with_extension (in_dir dir n) ext = in_dir dir (name_stem n ++ [DOT] ++ ext).
Proof. unfold in_dir. induction dir as [|c dir IH]; cbn; auto. destruct dir; cbn in *; destruct c; rewrite <- ?IH; auto. Qed.
Lemma file_name_Some p n : file_name p = Some n <-> exists dir, p = in_dir dir n.
Proof.
  split.
  - induction p as [|c p IH]; [discriminate|]. destruct p as [|c' p].
    + destruct c; try discriminate. intros [= ->]. exists []. reflexivity.
    + intros H. destruct IH as (dir & E). { destruct c; exact H. } exists (c :: dir). unfold in_dir in *. rewrite E. reflexivity.
  - intros (dir & ->). apply file_name_in_dir.
Qed.
Lemma with_extension_None p ext : file_name p = None -> with_extension p ext = p.
Proof.
  induction p as [|c p IH]; auto. destruct p as [|c' p]; [destruct c; auto; discriminate|].
  intros H. assert (H' : file_name (c' :: p) = None) by (destruct c; exact H). specialize (IH H').
  transitivity (c :: with_extension (c' :: p) ext); [destruct c; reflexivity|]. rewrite IH. reflexivity.
Qed.
Lemma parent_in_dir dir n : parent (in_dir dir n) = Some dir.
Proof. unfold parent, in_dir. rewrite rev_app_distr. cbn. rewrite rev_involutive. reflexivity. Qed.
Lemma name_ok_app n ext : name_ok n -> ~ In SLASH ext -> name_ok (name_stem n ++ [DOT] ++ ext) \/ ext = [].
Proof.
  intros (H1 & H2 & H3 & H4) He. destruct ext as [|e ext]; [auto|]. left.
  pose proof (name_stem_nonempty n H1) as Hs.
  assert (Hi : forall x, In x (name_stem n) -> In x n).
  { unfold name_stem. pose proof (split_spec n) as S. destruct (split_last_dot n) as [([|a x], y)|]; auto.
    destruct S as (-> & _). intros z Hz. rewrite in_app_iff. auto. }
  split; [destruct (name_stem n); [congruence|discriminate]|]. split.
  - rewrite !in_app_iff. intros [H|[[H|[]]|H]]; [auto|discriminate|auto].
  - destruct (name_stem n) as [|a [|b x]]; [congruence| |]; cbn [app]; split; try discriminate; destruct x; discriminate.
Qed.
Lemma ext_facts : ~ In DOT FILE_EXTENSION /\ ~ In SLASH FILE_EXTENSION /\ FILE_EXTENSION <> [] /\ ~ In DOT (str "json").
Proof. split; [|split; [|split]]; [| |discriminate|]; vm_compute; intuition discriminate. Qed.

(** The profiler creates [dir/stem.mm_profdata] for every path [dir/name]; the reader opens that very
    file, given either the same path or the full name of the file; the exporter's directory scan
    picks it up. *)
Theorem C44_reader_finds_file : forall dir n, path_ok (in_dir dir n) ->
  let f := in_dir dir (name_stem n ++ str ".mm_profdata") in
  path_ok f /\ writer_path (in_dir dir n) = Ok f /\ reader_path (in_dir dir n) = f /\ reader_path f = f /\ crox_picks f = true.
Proof.
  intros dir n H f. destruct ext_facts as (E1 & E2 & E3 & _).
  assert (Ef : f = in_dir dir (name_stem n ++ [DOT] ++ FILE_EXTENSION)) by reflexivity.
  unfold path_ok, in_dir in H. apply Forall_app in H. destruct H as (Hd & Hn). inversion Hn as [|? ? Hn' _]; subst. clear Hn.
  rewrite Ef. split.
  { unfold path_ok, in_dir. apply Forall_app. split; auto. constructor; auto. destruct (name_ok_app n FILE_EXTENSION Hn' E2); congruence. }
  unfold writer_path, reader_path. rewrite !with_extension_in_dir, parent_in_dir.
  split; [reflexivity|]. split; [reflexivity|]. split.
  - f_equal. rewrite name_stem_join; auto. apply Hn'.
  - unfold crox_picks. rewrite file_name_in_dir. unfold name_extension. rewrite split_join by auto.
    pose proof (name_stem_nonempty n (proj1 Hn')). destruct (name_stem n); [congruence|]. apply beq_true. reflexivity.
Qed.
(** The stem is the name itself unless the name has a dot after its first character. *)
Theorem C44_plain_names : forall n, (forall x m, n = x :: m -> ~ In DOT m) -> name_stem n = n.
Proof.
  intros n H. unfold name_stem. pose proof (split_spec n) as S. destruct (split_last_dot n) as [([|a x], y)|]; auto.
  destruct S as (-> & _). exfalso. apply (H a (x ++ [DOT] ++ y)); [reflexivity|]. rewrite in_app_iff. right. left. auto.
Qed.
(** On such names distinct stems give distinct files. *)
Theorem C44_distinct_files : forall dir n dir' n',
  (forall x m, n = x :: m -> ~ In DOT m) -> (forall x m, n' = x :: m -> ~ In DOT m) ->
  reader_path (in_dir dir n) = reader_path (in_dir dir' n') -> in_dir dir n = in_dir dir' n'.
Proof.
  intros dir n dir' n' H H' E. unfold reader_path in E. rewrite !with_extension_in_dir, !C44_plain_names in E by auto.
  unfold in_dir in *. apply app_inj_tail in E. destruct E as (-> & E). injection E as E. apply app_inv_tail in E. subst. reflexivity.
Qed.
(** In general they do not: two sessions with different path stems overwrite each other's file. *)
Theorem C44_collision_refuted : exists p q, path_ok p /\ path_ok q /\ p <> q /\ writer_path p = writer_path q.
Proof.
  exists (in_dir [] (str "rustc-1.2")), (in_dir [] (str "rustc-1.3")). unfold path_ok, in_dir, name_ok.
  repeat split; try discriminate; vm_compute; repeat constructor; intuition discriminate.
Qed.
(** Without a file name the profiler panics or asks for a directory that cannot be a file. *)
Theorem C44_no_file_name : forall p, file_name p = None ->
  (writer_path p = Panic <-> p = [] \/ exists q, p = q ++ [RootDir]) /\ (forall f, writer_path p = Ok f -> f = p).
Proof.
  intros p H. unfold writer_path. rewrite with_extension_None by auto. unfold parent.
  destruct p as [|c p _] using rev_ind.
  - cbn. split; [tauto|discriminate].
  - rewrite rev_app_distr. cbn [rev app]. destruct c; cbn; (split; [split|]); try discriminate; intros; try congruence.
    + right. eauto.
    + destruct H0 as [E|(q & E)]; [destruct p; discriminate|apply app_inj_tail in E; destruct E; discriminate].
    + destruct H0 as [E|(q & E)]; [destruct p; discriminate|apply app_inj_tail in E; destruct E; discriminate].
    + destruct H0 as [E|(q & E)]; [destruct p; discriminate|apply app_inj_tail in E; destruct E; discriminate].
Qed.

(** [diff] reads JSON results only from a file called exactly "json" ... *)
Theorem C44_json_input : forall p, (exists q, process_results p = JsonResults q) <-> exists dir, p = in_dir dir (str "json").
Proof.
  intros p. unfold process_results, ends_with. destruct (file_name p) as [n|] eqn:E.
  - apply file_name_Some in E. destruct E as (dir & ->). destruct (beq n (str "json")) eqn:B.
    + apply beq_true in B. subst n. split; eauto.
    + split; [intros (q & Hq); discriminate|]. intros (dir' & E). unfold in_dir in E. apply app_inj_tail in E. destruct E as (_ & E).
      injection E as ->. rewrite (proj2 (beq_true _ _)) in B; auto. discriminate.
  - split; [intros (q & Hq); discriminate|]. intros (dir & ->). rewrite file_name_in_dir in E. discriminate.
Qed.
(** ... so it never reads the results that [summarize --json] wrote: given that file, it silently
    analyses the profile with the same stem instead. *)
Theorem C44_json_refuted : forall dir n, path_ok (in_dir dir n) ->
  json_path (in_dir dir n) = in_dir dir (name_stem n ++ str ".json") /\
  process_results (json_path (in_dir dir n)) = Profile (reader_path (in_dir dir n)).
Proof.
  intros dir n H. destruct ext_facts as (E1 & E2 & E3 & E4).
  unfold path_ok, in_dir in H. apply Forall_app in H. destruct H as (Hd & Hn). inversion Hn as [|? ? Hn' _]; subst. clear Hn.
  split. { unfold json_path. rewrite with_extension_in_dir. reflexivity. }
  unfold process_results, json_path, ends_with. rewrite with_extension_in_dir, file_name_in_dir.
  replace (beq _ _) with false.
  - f_equal. unfold reader_path. rewrite !with_extension_in_dir. f_equal. rewrite name_stem_join; auto. apply Hn'.
  - symmetry. apply not_true_is_false. intros B. apply beq_true in B.
    apply E4. rewrite <- B. rewrite in_app_iff. right. left. reflexivity.
Qed.
(** The truncated copy is found under its full name, but under its stem the original is found. *)
Theorem C44_truncated : forall dir n, path_ok (in_dir dir n) ->
  let t := truncated_path (in_dir dir n) in
  reader_path t = t /\
  exists stem, t = in_dir dir (stem ++ str ".mm_profdata") /\ reader_path (in_dir dir stem) = reader_path (in_dir dir n).
Proof.
  intros dir n H t. destruct ext_facts as (E1 & E2 & E3 & E4).
  unfold path_ok, in_dir in H. apply Forall_app in H. destruct H as (Hd & Hn). inversion Hn as [|? ? Hn' _]; subst. clear Hn.
  assert (Et : t = in_dir dir ((name_stem n ++ [DOT] ++ str "truncated") ++ [DOT] ++ FILE_EXTENSION)).
  { unfold t, truncated_path. rewrite with_extension_in_dir. f_equal. rewrite <- app_assoc. reflexivity. }
  rewrite Et. unfold reader_path. split.
  - rewrite with_extension_in_dir. f_equal. f_equal. unfold name_stem at 1. rewrite split_join by auto.
    destruct (name_stem n ++ [DOT] ++ str "truncated") eqn:E; [|reflexivity]. destruct (name_stem n); discriminate.
  - exists (name_stem n ++ [DOT] ++ str "truncated"). split; [reflexivity|]. rewrite !with_extension_in_dir. f_equal. f_equal.
    apply name_stem_join; [apply Hn'|]. vm_compute. intuition discriminate.
Qed.
(** The exporter reads the profile of every given prefix and, once for each, exactly the directory entries
    whose name is a non-empty stem followed by ".mm_profdata". *)
Theorem C44_crox_directory : forall prefixes entries, exists picked,
  crox_inputs prefixes entries = map reader_path prefixes ++ picked /\
  (forall p, In p picked <-> In p entries /\ exists dir stem, stem <> [] /\ p = in_dir dir (stem ++ str ".mm_profdata")) /\
  (NoDup entries -> NoDup picked).
Proof.
  intros prefixes entries. destruct ext_facts as (E1 & E2 & E3 & E4).
  assert (K : forall p, crox_picks p = true <-> exists dir stem, stem <> [] /\ p = in_dir dir (stem ++ str ".mm_profdata")).
  { intros p. unfold crox_picks. split.
    - destruct (file_name p) as [n|] eqn:E; [|discriminate]. apply file_name_Some in E. destruct E as (dir & ->). unfold name_extension. pose proof (split_spec n) as S. destruct (split_last_dot n) as [([|a x], y)|]; try discriminate.
      intros B. apply beq_true in B. subst y. destruct S as (-> & _). exists dir, (a :: x). split; [discriminate|reflexivity].
    - intros (dir & stem & N & ->). rewrite file_name_in_dir. unfold name_extension. change (str ".mm_profdata") with ([DOT] ++ FILE_EXTENSION). rewrite split_join by auto. destruct stem; [congruence|]. apply beq_true. reflexivity. }
  assert (R : forall p, crox_picks p = true -> reader_path p = p).
  { intros p H. apply K in H. destruct H as (dir & stem & N & ->). unfold reader_path. rewrite with_extension_in_dir. f_equal. change (str ".mm_profdata") with ([DOT] ++ FILE_EXTENSION). unfold name_stem. rewrite split_join by auto. destruct stem; [congruence|reflexivity]. }
  exists (filter crox_picks entries). unfold crox_inputs. rewrite map_app. split; [f_equal|split].
  - transitivity (map (fun p => p) (filter crox_picks entries)); [|apply map_id]. apply map_ext_in. intros p H. apply filter_In in H. apply R, H.
  - intros p. rewrite filter_In, K. tauto.
  - apply NoDup_filter.
Qed.
(** [diff --json] overwrites the results that [summarize --json] wrote for the second profile. *)
Theorem C44_json_overwrite_refuted : forall base dir n,
  summarize_json_output (in_dir dir n) = in_dir dir (name_stem n ++ str ".json") /\ diff_json_output base (in_dir dir n) = in_dir dir (name_stem n ++ str ".json").
Proof. intros base dir n. unfold summarize_json_output, diff_json_output, json_path. rewrite with_extension_in_dir. split; reflexivity. Qed.
Example C44_example : path_ok (in_dir [Normal (str "out")] (str "rustc-123")) /\
  reader_path (in_dir [Normal (str "out")] (str "rustc-123")) = [Normal (str "out"); Normal (str "rustc-123.mm_profdata")].
Proof. split; [|reflexivity]. unfold path_ok, in_dir, name_ok. repeat constructor; try discriminate; vm_compute; intuition discriminate. Qed.
Print Assumptions C44_json_refuted.
Print Assumptions C44_crox_directory.
