(** C96 for crox: with --collapse-threads the ids do not show.  Specification S_Rename.v. *)
From Coq Require Import String ZArith List Lia Bool Permutation Sorted.
From Verif Require Import M_Base F_Base M_Raw M_V8 M_Map M_Session M_Iter M_Analysis M_Diff M_Crox S_Crox S_Shift S_Rename Prop_Crox Prop_Shift Prop_Rename.
Import ListNotations.
Open Scope Z_scope.
Local Open Scope list_scope.

Section Rename.
Variable f : Z -> Z.
Hypothesis Hf : distinct f.
Notation R := (rethread f).
Definition ren_keys {V} : list (Z * V) -> list (Z * V) := map (fun x => (f (fst x), snd x)).
Definition ren_ids : list (Z * Z) -> list (Z * Z) := map (fun x => (fst x, f (snd x))).
Lemma span_ren evs : thread_start_and_end (map R evs) = ren_keys (thread_start_and_end evs).
Proof.
  unfold thread_start_and_end. assert (G : forall m, fold_left note_span (map R evs) (ren_keys m) = ren_keys (fold_left note_span evs m)); [|exact (G [])].
  induction evs as [|e evs IH]; intros m; cbn [map fold_left]; [reflexivity|]. rewrite <- IH. f_equal. unfold note_span. change (ev_thread (R e)) with (f (ev_thread e)). change (ev_payload (R e)) with (ev_payload e).
  destruct (p_timestamp (ev_payload e)) as [t|]; [|reflexivity]. cbv zeta. pose proof (get_ren f Hf (fun v : Z * Z => v) (ev_thread e) m) as G. cbv beta in G.
  unfold ren_keys. rewrite G. destruct (map_get Z.eqb (ev_thread e) m) as [(a, b)|]; cbn [option_map]; exact (put_ren f Hf (fun v : Z * Z => v) _ _ _).
Qed.
Definition cx_ren (s : cx) : cx := mkCx (ren_ids (next_ends s)) (ren_keys (mapping s)) (current_thread_id s).
(** Threads that have ended have been given an id before. *)
Definition known (rest : list (Z * Z)) (s : cx) : Prop :=
  forall e t, In (e, t) (next_ends s) -> map_get Z.eqb t (mapping s) <> None \/ exists b, b <= e /\ In (b, t) rest.
Lemma put_has (k v t : Z) (m : list (Z * Z)) : map_get Z.eqb t (map_put Z.eqb k v m) <> None <-> t = k \/ map_get Z.eqb t m <> None.
Proof.
  destruct (Z.eq_dec t k) as [->|N]; [rewrite get_put_eq; split; [left; reflexivity|discriminate]|]. rewrite get_put_neq by congruence. split; [right; assumption|intros [E|E]; [contradiction|exact E]].
Qed.
Lemma loop_ren oc : forall rest s, StronglySorted (fun a b => fst a <= fst b) rest -> known rest s ->
  foldM (collapse_one oc) (cx_ren s) (ren_ids rest) = rmap cx_ren (foldM (collapse_one oc) s rest).
Proof.
  induction rest as [|(b0, t0) rest IH]; intros s HS HK; cbn [foldM ren_ids map fst snd]; [reflexivity|]. inversion HS as [|? ? HS' HF]; subst. rewrite Forall_forall in HF.
  assert (HP : forall v ends c, incl ends (next_ends s) -> known rest (mkCx ends (map_put Z.eqb t0 v (mapping s)) c)).
  { intros v ends c HI e t Hin. cbn [next_ends mapping] in *. destruct (HK e t (HI _ Hin)) as [G|(b & Hb & [E|G])].
    - left. apply put_has. right. exact G.
    - injection E as -> ->. left. apply put_has. left. reflexivity.
    - right. exists b. auto. }
  rewrite rmap_bind. unfold collapse_one at 1 3. cbn [cx_ren next_ends mapping current_thread_id fst snd].
  destruct (next_ends s) as [|(e1, t1) ends] eqn:EN; cbn [ren_ids map fst snd]; [reflexivity|].
  destruct (Z.ltb_spec e1 b0) as [L|L].
  - assert (HM : map_get Z.eqb t1 (mapping s) <> None).
    { destruct (HK e1 t1) as [G|(b & Hb & [E|G])]; [rewrite EN; left; reflexivity|exact G| |]; [injection E as -> ->; lia|]. specialize (HF _ G). cbn [fst] in HF. lia. }
    pose proof (get_ren f Hf (fun v : Z => v) t1 (mapping s)) as G. cbv beta in G. unfold ren_keys at 1. rewrite G. destruct (map_get Z.eqb t1 (mapping s)) as [v|]; [|contradiction]. cbn [option_map bind].
    pose proof (put_ren f Hf (fun v : Z => v) t0 v (mapping s)) as P. cbv beta in P. unfold ren_keys. rewrite P.
    apply (IH (mkCx ends (map_put Z.eqb t0 v (mapping s)) (current_thread_id s)) HS'). apply HP. intros x Hx. right. exact Hx.
  - destruct (u32_add oc (current_thread_id s) 1) as [c| | |]; cbn [bind]; try reflexivity.
    pose proof (put_ren f Hf (fun v : Z => v) t0 (current_thread_id s) (mapping s)) as P. cbv beta in P. unfold ren_keys. rewrite P.
    apply (IH (mkCx ((e1, t1) :: ends) (map_put Z.eqb t0 (current_thread_id s) (mapping s)) c) HS'). apply HP. intros x Hx. exact Hx.
Qed.
Lemma loop_has oc : forall rest s s', foldM (collapse_one oc) s rest = Ok s' -> forall t, map_get Z.eqb t (mapping s) <> None \/ In t (map snd rest) -> map_get Z.eqb t (mapping s') <> None.
Proof.
  induction rest as [|(b0, t0) rest IH]; intros s s' E t H; cbn [foldM map snd] in *; [injection E as <-; destruct H as [H|[]]; exact H|].
  unfold collapse_one at 1 in E. cbn [fst snd] in E. destruct (next_ends s) as [|(e1, t1) ends]; [discriminate|]. destruct (e1 <? b0); cbn [bind] in E.
  - apply (IH _ _ E). cbn [mapping]. rewrite put_has. destruct H as [H|[->|H]]; auto.
  - destruct (u32_add oc (current_thread_id s) 1) as [c| | |]; cbn [bind] in E; try discriminate. apply (IH _ _ E). cbn [mapping]. rewrite put_has. destruct H as [H|[->|H]]; auto.
Qed.
Lemma sorted_ren pairs result : sorted_by_key pairs result -> sorted_by_key (ren_ids pairs) (ren_ids result).
Proof.
  intros (P & S). split; [apply Permutation_map, P|]. clear P. induction S as [|x l S IH F]; cbn [ren_ids map]; constructor; auto.
  rewrite Forall_forall in *. intros y Hy. apply in_map_iff in Hy. destruct Hy as (z & <- & Hz). cbn [fst]. exact (F z Hz).
Qed.
Lemma sorted_unren pairs result' : sorted_by_key (ren_ids pairs) result' -> exists result, result' = ren_ids result /\ sorted_by_key pairs result.
Proof.
  intros (P & S). apply Permutation_sym in P. unfold ren_ids in P. apply Permutation_map_inv in P. destruct P as (result & -> & P). exists result. split; [reflexivity|]. split; [exact P|]. clear P.
  induction result as [|x l IH]; cbn [map] in S; constructor; inversion S as [|? ? S' F]; subst; auto. rewrite Forall_forall in *. intros y Hy. specialize (F (fst y, f (snd y)) (in_map _ _ _ Hy)). exact F.
Qed.
Lemma pairs_ren (g : Z * Z -> Z) evs : map (fun x : Z * (Z * Z) => (g (snd x), fst x)) (thread_start_and_end (map R evs)) = ren_ids (map (fun x : Z * (Z * Z) => (g (snd x), fst x)) (thread_start_and_end evs)).
Proof. rewrite span_ren. unfold ren_keys, ren_ids. rewrite !map_map. reflexivity. Qed.
Lemma starts_ids evs starts t : sorted_by_key (map (fun x => (fst (snd x), fst x)) (thread_start_and_end evs)) starts -> has_times evs t -> In t (map snd starts).
Proof.
  intros (P & _) H. apply spans_threads in H. apply in_map_iff in H. destruct H as (x & <- & Hx). apply in_map_iff. exists (fst (snd x), fst x). split; [reflexivity|].
  eapply Permutation_in; [exact P|]. apply in_map_iff. exists x. auto.
Qed.
Lemma loop_result oc evs ends starts :
  sorted_by_key (map (fun x => (snd (snd x), fst x)) (thread_start_and_end evs)) ends -> sorted_by_key (map (fun x => (fst (snd x), fst x)) (thread_start_and_end evs)) starts ->
  (do s <- foldM (collapse_one oc) (mkCx (ren_ids ends) [] 0) (ren_ids starts); Ok (mapping s)) = rmap ren_keys (do s <- foldM (collapse_one oc) (mkCx ends [] 0) starts; Ok (mapping s)).
Proof.
  intros (Pe & Se) (Ps & Ss). change (mkCx (ren_ids ends) [] 0) with (cx_ren (mkCx ends [] 0)). rewrite loop_ren; [|exact Ss|].
  - rewrite bind_rmap, rmap_bind. apply bind_same. reflexivity.
  - intros e t Hin. cbn [next_ends] in Hin. right. eapply Permutation_in in Hin; [|apply Permutation_sym; exact Pe]. apply in_map_iff in Hin. destruct Hin as ((t', (a, b)) & E & Hin). cbn [fst snd] in E. injection E as <- <-.
    exists a. split; [eapply spans_ordered; exact Hin|]. eapply Permutation_in; [exact Ps|]. apply in_map_iff. exists (t', (a, b)). auto.
Qed.
Lemma mapping_ren oc evs m : thread_mapping oc true evs m -> thread_mapping oc true (map R evs) (rmap ren_keys m).
Proof.
  intros H. destruct H as [E|ends starts _ He Hs]; [discriminate|]. rewrite <- (loop_result oc evs ends starts He Hs). apply tm_on; [reflexivity| |].
  - rewrite (pairs_ren snd). apply sorted_ren, He.
  - rewrite (pairs_ren fst). apply sorted_ren, Hs.
Qed.
Lemma mapping_unren oc evs m' : thread_mapping oc true (map R evs) m' -> exists m, thread_mapping oc true evs m /\ m' = rmap ren_keys m.
Proof.
  intros H. destruct H as [E|ends' starts' _ He Hs]; [discriminate|]. rewrite (pairs_ren snd) in He. rewrite (pairs_ren fst) in Hs. apply sorted_unren in He, Hs.
  destruct He as (ends & -> & He). destruct Hs as (starts & -> & Hs). rewrite (loop_result oc evs ends starts He Hs). eexists. split; [|reflexivity]. apply tm_on; auto.
Qed.
Lemma mapping_has oc evs m t : thread_mapping oc true evs (Ok m) -> has_times evs t -> map_get Z.eqb t m <> None.
Proof.
  intros H HT. inversion H as [E|ends starts _ He Hs E]; [discriminate|]. destruct (foldM (collapse_one oc) (mkCx ends [] 0) starts) as [s| | |] eqn:EF; cbn [bind] in E; try discriminate. injection E as <-.
  eapply loop_has; [exact EF|]. right. eapply starts_ids; [exact Hs|exact HT].
Qed.
Lemma event_ren oc minimum pid evs m e : thread_mapping oc true evs (Ok m) -> In e evs -> export_event oc minimum (ren_keys m) pid (R e) = export_event oc minimum m pid e.
Proof.
  intros H Hin. unfold export_event. change (ev_kind (R e)) with (ev_kind e). change (ev_label (R e)) with (ev_label e). change (ev_payload (R e)) with (ev_payload e). change (ev_thread (R e)) with (f (ev_thread e)). change (get_args (R e)) with (get_args e).
  destruct (ev_payload e) as [[a b|t0]|v] eqn:E; [|reflexivity|reflexivity].
  pose proof (get_ren f Hf (fun v : Z => v) (ev_thread e) m) as G. cbv beta in G. unfold ren_keys. rewrite G.
  assert (HM : map_get Z.eqb (ev_thread e) m <> None).
  { eapply mapping_has; [exact H|]. exists e, (Z.min a b), (Z.max a b). split; [exact Hin|]. split; [reflexivity|]. unfold happens. rewrite E. auto. }
  destruct (map_get Z.eqb (ev_thread e) m) as [v|]; [reflexivity|contradiction].
Qed.
Lemma collect_ext {A B} (g h : A -> res B) l : (forall a, In a l -> g a = h a) -> collectM g l = collectM h l.
Proof. induction l as [|a l IH]; intros H; cbn [collectM]; [reflexivity|]. rewrite (H a) by (left; reflexivity). rewrite IH; [reflexivity|]. intros x Hx. apply H. right. exact Hx. Qed.
Lemma collect_map {A B C} (g : B -> res C) (h : A -> B) l : collectM g (map h l) = collectM (fun a => g (h a)) l.
Proof. induction l as [|a l IH]; cbn [collectM map]; [reflexivity|]. rewrite IH. reflexivity. Qed.
Lemma file_ren oc minimum md evs m : thread_mapping oc true evs (Ok m) -> export_file oc minimum (ren_keys m) md (map R evs) = export_file oc minimum m md evs.
Proof.
  intros H. unfold export_file. rewrite collect_map, (collect_ext (fun a => export_event oc minimum (ren_keys m) (md_process_id md) (R a)) (export_event oc minimum m (md_process_id md))); [reflexivity|].
  intros a Ha. eapply event_ren; [exact H|exact Ha].
Qed.
End Rename.
(** crox --collapse-threads writes the same records for files whose threads were each renamed in their own way. *)
Definition same_but_ids (a b : metadata * list event) : Prop := fst a = fst b /\ exists f, distinct f /\ snd a = map (rethread f) (snd b).
Theorem C96_crox : forall oc minimum files' files r,
  Forall2 (fun a b => fst a = fst b /\ exists f, distinct f /\ snd a = map (rethread f) (snd b)) files' files ->
  (crox_main oc true minimum files' r <-> crox_main oc true minimum files r).
Proof.
  intros oc minimum files' files r F. change (Forall2 same_but_ids files' files) in F. revert r. induction F as [|(md', evs') (md, evs) l' l (E & f & Hf & E') F IH]; intros r; [reflexivity|]. cbn [fst snd] in *. subst md' evs'.
  split; intros H; inversion H as [|? ? ? HP|? ? ? m rs r0 HM HE HR|? ? ? m HM HE]; subst.
  - apply (mapping_unren f Hf) in HP. destruct HP as (m & HM & E). destruct m; try discriminate. apply cm_map_panic. exact HM.
  - apply (mapping_unren f Hf) in HM. destruct HM as (m1 & HM & E). destruct m1 as [m1| | |]; try discriminate. injection E as ->. rewrite (file_ren f Hf oc minimum md evs m1 HM) in HE.
    eapply cm_cons; [exact HM|exact HE|apply IH; exact HR].
  - apply (mapping_unren f Hf) in HM. destruct HM as (m1 & HM & E). destruct m1 as [m1| | |]; try discriminate. injection E as ->. rewrite (file_ren f Hf oc minimum md evs m1 HM) in HE.
    eapply cm_panic; [exact HM|exact HE].
  - apply (mapping_ren f Hf) in HP. apply cm_map_panic. exact HP.
  - eapply cm_cons; [apply (mapping_ren f Hf) in HM; exact HM|rewrite (file_ren f Hf oc minimum md evs m HM); exact HE|apply IH; exact HR].
  - eapply cm_panic; [apply (mapping_ren f Hf) in HM; exact HM|rewrite (file_ren f Hf oc minimum md evs m HM); exact HE].
Qed.
(** A concrete case. *)
Example ex_C96_crox : exists rs, crox_main true true None [(mkMd 1000 7 [], ex_two)] (Ok rs) /\ crox_main true true None [(mkMd 1000 7 [], map (rethread (fun t => 7 - t)) ex_two)] (Ok rs) /\
  rs <> [].
Proof.
  assert (A : exists rs, crox_main true true None [(mkMd 1000 7 [], ex_two)] (Ok rs) /\ rs <> []).
  { eassert (HM : thread_mapping true true ex_two _).
    { apply (tm_on true true ex_two [(1900, 2); (2000, 1)] [(1000, 1); (1200, 2)]); [reflexivity| |]; vm_compute (thread_start_and_end ex_two); cbn [map fst snd].
      - split; [apply perm_swap|]. repeat constructor; cbn [fst]; lia.
      - split; [apply Permutation_refl|]. repeat constructor; cbn [fst]; lia. }
    match type of HM with thread_mapping _ _ _ ?x => let y := eval vm_compute in x in change x with y in HM end.
    eexists. split; [refine (cm_cons true true None (mkMd 1000 7 []) ex_two [] _ _ (Ok []) HM _ (cm_nil true true None)); vm_compute; reflexivity|vm_compute; discriminate]. }
  destruct A as (rs & A & N). exists rs. split; [exact A|]. split; [|exact N]. apply (C96_crox true None _ [(mkMd 1000 7 [], ex_two)]); [|exact A].
  constructor; [|constructor]. split; [reflexivity|]. exists (fun t => 7 - t). split; [intros a b E; lia|reflexivity].
Qed.
Print Assumptions C96_crox.
