(** C59: the folded stacks file.  Model M_Folded.v (and M_Collapse.v), specification S_Folded.v. *)
From Coq Require Import String ZArith List Lia Bool Permutation.
From Verif Require Import M_Base F_Base M_Raw M_V8 M_Map S_Analysis M_Collapse S_Collapse Prop_Collapse M_Crox S_Crox Prop_Crox2 M_Folded S_Folded.
Import ListNotations.
Open Scope Z_scope.

(** ** Reading lines *)
Lemma split_unique (c : Z) a b a' b' : ~ In c a -> ~ In c a' -> a ++ c :: b = a' ++ c :: b' -> a = a' /\ b = b'.
Proof.
  revert a'. induction a as [|x a IH]; intros a' N N' E.
  - destruct a' as [|y a']; cbn [app] in E; [injection E as <-; auto|]. injection E as <- _. destruct N'. left; auto.
  - destruct a' as [|y a']; cbn [app] in E; [injection E as -> _; destruct N; left; auto|]. injection E as <- E. destruct (IH a') as (-> & ->); auto; intros H; [apply N|apply N']; right; auto.
Qed.
Lemma lines_unique l l' : Forall (fun line => ~ In 10 line) l -> Forall (fun line => ~ In 10 line) l' ->
  concat (map (fun x : bytes => x ++ [10]) l) = concat (map (fun x => x ++ [10]) l') -> l = l'.
Proof.
  intros F. revert l'. induction F as [|x l N F IH]; intros l' F' E.
  - destruct F' as [|y l' N' F']; [auto|]. cbn [map concat] in E. rewrite <- app_assoc in E. destruct y; discriminate.
  - destruct F' as [|y l' N' F']; cbn [map concat] in E; [rewrite <- app_assoc in E; destruct x; discriminate|]. rewrite <- !app_assoc in E. cbn [app] in E. apply split_unique in E; auto. destruct E as (<- & E). f_equal. auto.
Qed.
Lemma line_unique line x x' : line_says line x -> line_says line x' -> x = x'.
Proof.
  intros (ds & E & _ & F & D) (ds' & E' & _ & F' & D'). assert (R : rev ds ++ 32 :: rev (fst x) = rev ds' ++ 32 :: rev (fst x')).
  { apply (f_equal (@rev Z)) in E, E'. rewrite rev_app_distr in E, E'. cbn [rev] in E, E'. rewrite <- app_assoc in E, E'. cbn [app] in E, E'. congruence. }
  assert (N : forall l, Forall (fun d => 48 <= d <= 57) l -> ~ In 32 (rev l)). { intros l H HI. apply in_rev in HI. rewrite Forall_forall in H. apply H in HI. lia. }
  apply split_unique in R; auto. destruct R as (R1 & R2). apply (f_equal (@rev Z)) in R1, R2. rewrite !rev_involutive in R1, R2. subst ds'. destruct x, x'. cbn [fst snd] in *. congruence.
Qed.
Lemma text_unique text l l' : text_says text l -> text_says text l' -> l = l'.
Proof.
  intros (ls & E & N & F) (ls' & E' & N' & F'). rewrite E in E'. apply lines_unique in E'; auto. subst ls'. clear - F F'. revert l' F'. induction F as [|line x ls l H F IH]; intros l' F'; inversion F'; subst; auto. f_equal; [eapply line_unique; eauto|auto].
Qed.
Lemma text_written l : Forall (fun x => ~ In 10 (fst x) /\ 0 <= snd x) l -> text_says (folded_text l) l.
Proof.
  intros H. exists (map (fun x => fst x ++ 32 :: decimal (snd x)) l). split; [|split].
  - unfold folded_text. rewrite map_map. f_equal. apply map_ext. intros x. unfold folded_line. change (str " ") with [32]. rewrite <- app_assoc. reflexivity.
  - apply Forall_map. eapply Forall_impl; [|exact H]. intros x (N & P) HI. apply in_app_or in HI. destruct HI as [HI|[HI|HI]]; [auto|lia|]. destruct (C37_decimal (snd x) P) as (F & _). rewrite Forall_forall in F. apply F in HI. lia.
  - induction H as [|x l (N & P) H IH]; cbn [map]; constructor; auto. exists (decimal (snd x)). split; auto. destruct (C37_decimal (snd x) P) as (F & D & Z0 & NZ). split; auto.
    destruct (Z.eq_dec (snd x) 0) as [E|NE]; [rewrite Z0 by auto; discriminate|]. destruct (NZ ltac:(lia)) as (d & t & -> & _). discriminate.
Qed.

(** ** The characters of the stacks *)
Definition no (c : Z) (b : bytes) : Prop := ~ In c b.
Lemma no_app c a b : no c a -> no c b -> no c (a ++ b).
Proof. unfold no. intros A B H. apply in_app_or in H. tauto. Qed.
Lemma no_take c n a : no c a -> no c (ztake n a).
Proof. unfold no, ztake. intros A H. apply A. rewrite <- (firstn_skipn (Z.to_nat n) a). apply in_or_app. left. auto. Qed.
Definition fine (c : Z) (x : bytes * Z) : Prop := no c (fst x) /\ 0 <= snd x.
Lemma put_fine c k v m : no c k -> 0 <= v -> Forall (fine c) m -> Forall (fine c) (map_put beq k v m).
Proof. intros A B F. induction F as [|(k', v') m H F IH]; cbn [map_put]; [repeat constructor; auto|]. destruct (beq k k'); constructor; auto. split; auto. Qed.
Lemma get_fine c k v m : Forall (fine c) m -> map_get beq k m = Some v -> 0 <= v.
Proof. intros F. induction F as [|(k', v') m (A & B) F IH]; cbn [map_get]; [discriminate|]. destruct (beq k k'); auto. intros E. injection E as <-. auto. Qed.
Lemma u64_add_nonneg oc a b v : 0 <= a -> 0 <= b -> u64_add oc a b = Ok v -> 0 <= v.
Proof. unfold u64_add. intros A B. destruct (a + b <? U64); [intros E; injection E as <-; lia|]. destruct oc; [discriminate|]. intros E. assert ((a + b) mod U64 = v) as <- by congruence. apply (Z.mod_pos_bound (a + b) U64). reflexivity. Qed.
Lemma u64_sub_nonneg oc a b v : u64_sub oc a b = Ok v -> 0 <= v.
Proof. unfold u64_sub. destruct (Z.leb_spec b a); [intros E; injection E as <-; lia|]. destruct oc; [discriminate|]. intros E. assert ((a - b) mod U64 = v) as <- by congruence. apply (Z.mod_pos_bound (a - b) U64). reflexivity. Qed.
Lemma nanos_nonneg e d : nanos_u64 e = Ok d -> 0 <= d.
Proof. unfold nanos_u64. destruct (duration (ev_payload e)) as [x|]; cbn [unwrap bind]; [|discriminate]. intros E. assert (x mod U64 = d) as <- by congruence. apply (Z.mod_pos_bound x U64). reflexivity. Qed.
Lemma pop_fine c st : forall id e st' id', no c id -> c_pop st id e = Ok (st', id') -> no c id'.
Proof.
  induction st as [|top st IH]; intros id e st' id' N; cbn [c_pop]; [intros E; injection E as _ <-; auto|]. destruct (contains (ev_payload top) (ev_payload e)); [intros E; injection E as _ <-; auto|].
  destruct (zlen (ev_label top) + 1 <=? zlen id); [|discriminate]. apply IH. apply no_take, N.
Qed.
Definition cfine (c : Z) (s : cstate) : Prop := Forall (fine c) (c_counters s) /\ Forall (fun t => no c (ct_id (snd t))) (c_threads s).
Lemma tput_fine c k v (m : list (Z * cthread)) : no c (ct_id v) -> Forall (fun t => no c (ct_id (snd t))) m -> Forall (fun t => no c (ct_id (snd t))) (map_put Z.eqb k v m).
Proof. intros A F. induction F as [|(k', v') m H F IH]; cbn [map_put]; [repeat constructor; auto|]. destruct (k =? k'); constructor; auto. Qed.
Lemma tget_fine c k v (m : list (Z * cthread)) : Forall (fun t => no c (ct_id (snd t))) m -> map_get Z.eqb k m = Some v -> no c (ct_id v).
Proof. intros F. induction F as [|(k', v') m H F IH]; cbn [map_get]; [discriminate|]. destruct (k =? k'); auto. intros E. injection E as <-. auto. Qed.
Lemma step_fine oc c s e s' : no c (str "rustc;") -> no c (ev_label e) -> cfine c s -> collapse_step oc s e = Ok s' -> cfine c s'.
Proof.
  intros NR NL (I1 & I2). unfold collapse_step. destruct (ev_payload e) as [[start end_|t]|v] eqn:EP; [|intros E; injection E as <-; split; auto|intros E; injection E as <-; split; auto].
  set (th := match map_get Z.eqb (ev_thread e) (c_threads s) with Some t => t | None => mkCt [] (str "rustc") start end_ 0 end).
  assert (HT : no c (ct_id th)). { unfold th. destruct (map_get Z.eqb (ev_thread e) (c_threads s)) eqn:G; [eapply tget_fine; eauto|]. cbn [ct_id]. intros H. apply NR. change (str "rustc;") with (str "rustc" ++ str ";"). apply in_or_app. left. exact H. }
  assert (NS : no c (str ";")). { intros H. apply NR. change (str "rustc;") with (str "rustc" ++ str ";"). apply in_or_app. right. exact H. }
  destruct (c_pop (ct_stack th) (ct_id th) e) as [(st, id)| | |] eqn:EC; cbn [bind]; try discriminate. apply pop_fine with (c := c) in EC; auto.
  match goal with |- bind ?x _ = _ -> _ => destruct x as [(counters, total)| | |] eqn:EU end; cbn [bind]; try discriminate.
  assert (FC : Forall (fine c) counters).
  { destruct st as [|x st].
    - destruct (nanos_u64 e) as [d| | |]; cbn [bind] in EU; try discriminate. destruct (u64_add oc (ct_total th) d); cbn [bind] in EU; try discriminate. injection EU as <- _. auto.
    - destruct (map_get beq id (c_counters s)) as [self|]; [|injection EU as <- _; auto]. destruct (nanos_u64 e) as [d| | |]; cbn [bind] in EU; try discriminate. destruct (u64_sub oc self d) as [w| | |] eqn:EW; cbn [bind] in EU; try discriminate. injection EU as <- _. apply put_fine; auto. eapply u64_sub_nonneg; eauto. }
  destruct (nanos_u64 e) as [d| | |] eqn:ED; cbn [bind]; try discriminate. set (id' := id ++ str ";" ++ ev_label e).
  assert (NI : no c id') by (unfold id'; apply no_app; [auto|apply no_app; auto]).
  match goal with |- bind ?x _ = _ -> _ => destruct x as [w| | |] eqn:EW end; cbn [bind]; try discriminate. intros E. injection E as <-. split; cbn [c_counters c_threads].
  - apply put_fine; auto. eapply u64_add_nonneg; [| |exact EW]; [|eapply nanos_nonneg; eauto]. destruct (map_get beq id' counters) as [o|] eqn:G; [eapply get_fine; eauto|lia].
  - apply tput_fine; auto.
Qed.
Lemma collapse_fine oc c evs m : no c (str "rustc;") -> Forall (fun e => no c (ev_label e)) evs -> collapse_stacks oc evs = Ok m -> Forall (fine c) m.
Proof.
  intros NR F. unfold collapse_stacks. destruct (foldM (collapse_step oc) (mkC [] []) (rev evs)) as [s| | |] eqn:E; cbn [bind]; try discriminate.
  destruct (foldM (gap_step oc) 0 (c_threads s)) as [g| | |] eqn:EG; cbn [bind]; try discriminate. intros K. injection K as <-.
  assert (I : cfine c s). { assert (F' : Forall (fun e => no c (ev_label e)) (rev evs)) by (apply Forall_rev, F). clear F. revert F' E. assert (I0 : cfine c (mkC [] [])) by (split; constructor). revert I0. generalize (mkC [] []). generalize (rev evs). intros l. induction l as [|e l IH]; intros s0 I0 F' E; cbn [foldM] in E; [injection E as <-; auto|].
    destruct (collapse_step oc s0 e) as [s1| | |] eqn:E1; cbn [bind] in E; try discriminate. inversion F'; subst. eapply IH; [|auto|exact E]. eapply step_fine; [| | |exact E1]; auto. }
  destruct I as (I1 & _). apply put_fine; auto.
  - intros H. apply NR. change (str "rustc;") with (str "rustc" ++ str ";"). apply in_or_app. left. exact H.
  - assert (G : forall acc, 0 <= acc -> foldM (gap_step oc) acc (c_threads s) = Ok g -> 0 <= g).
    { clear. induction (c_threads s) as [|t ts IH]; intros acc A E; cbn [foldM] in E; [injection E as <-; auto|]. destruct (gap_step oc acc t) as [a1| | |] eqn:E1; cbn [bind] in E; try discriminate. eapply IH; [|exact E].
      unfold gap_step in E1. match type of E1 with bind ?x _ = _ => destruct x as [sp| | |] end; cbn [bind] in E1; try discriminate. destruct (u64_sub oc (sp mod U64) (ct_total (snd t))) as [gg| | |] eqn:EW; cbn [bind] in E1; try discriminate. eapply u64_add_nonneg; [| |exact E1]; auto. eapply u64_sub_nonneg; eauto. }
    eapply G; [|exact EG]. lia.
Qed.
(** If no label contains a line feed, the file, whatever the order of its lines, says exactly the collapsed
    stacks and nothing else. *)
Theorem C59_text : forall oc evs m written, Forall (fun e => ~ In 10 (ev_label e)) evs -> collapse_stacks oc evs = Ok m -> Permutation m written ->
  forall l, text_says (folded_text written) l <-> l = written.
Proof.
  intros oc evs m written F H P l. assert (K : text_says (folded_text written) written).
  { apply text_written. eapply Permutation_Forall; [exact P|]. apply (collapse_fine oc 10 evs m); auto. unfold no. cbn. lia. }
  split; [intros T; eapply text_unique; eauto|intros ->; auto].
Qed.
Print Assumptions C59_text.
(** The lines given to inferno by flamegraph say exactly the collapsed stacks, whatever the labels. *)
Lemma fresh (l : list Z) : exists c, ~ In c l.
Proof.
  assert (K : forall x, In x l -> x <= fold_right Z.max 0 l). { induction l as [|y l IH]; cbn [fold_right]; intros x H; [destruct H|]. destruct H as [<-|H]; [lia|apply IH in H; lia]. }
  exists (1 + fold_right Z.max 0 l). intros H. apply K in H. lia.
Qed.
Theorem C59_flamegraph : forall oc evs m given, collapse_stacks oc evs = Ok m -> Permutation m given ->
  forall l, Forall2 line_says (flamegraph_lines given) l <-> l = given.
Proof.
  intros oc evs m given H P l. assert (K : Forall2 line_says (flamegraph_lines given) given).
  { destruct (fresh (str "rustc;" ++ concat (map ev_label evs))) as (c & N). assert (F : Forall (fine c) m).
    { eapply collapse_fine; [| |exact H]; [intros HI; apply N, in_or_app; left; auto|]. apply Forall_forall. intros e HE HI. apply N, in_or_app. right. apply in_concat. exists (ev_label e). split; auto. apply in_map, HE. }
    eapply Permutation_Forall in F; [|exact P]. clear - F. induction F as [|x given (_ & HP) F IH]; cbn [flamegraph_lines map]; constructor; auto. exists (decimal (snd x)). split; [reflexivity|]. destruct (C37_decimal (snd x) HP) as (FD & D & Z0 & NZ). split; [|split; auto].
    destruct (Z.eq_dec (snd x) 0) as [E|NE]; [rewrite Z0 by auto; discriminate|]. destruct (NZ ltac:(lia)) as (d & t & -> & _). discriminate. }
  split; [|intros ->; auto]. intros T. clear - K T. revert l T. induction K as [|line x ls given HX K IH]; intros l T; inversion T; subst; auto. f_equal; [eapply line_unique; eauto|auto].
Qed.
Print Assumptions C59_flamegraph.
(** ** Frames *)
Lemma frames_unique stack fs fs' : frames stack fs -> frames stack fs' -> fs = fs'.
Proof.
  intros (N & E & F) (N' & E' & F'). rewrite E in E'. clear E stack. revert fs' N N' E' F'. induction F as [|f fs HF F IH]; intros fs' N N' E' F'; [exfalso; apply N; reflexivity|]. destruct F' as [|f' fs' HF' F']; [exfalso; apply N'; reflexivity|].
  assert (NO : forall f, ~ In 59 f -> forall a b, f = a ++ 59 :: b -> False) by (intros g HG a b ->; apply HG, in_or_app; right; left; auto).
  destruct fs as [|g fs]; destruct fs' as [|g' fs']; cbn [with_semicolons] in E'.
  - subst f'. reflexivity.
  - exfalso. apply (NO f HF _ _ E').
  - exfalso. symmetry in E'. apply (NO f' HF' _ _ E').
  - apply split_unique in E'; auto. destruct E' as (<- & E'). f_equal. apply IH; auto; discriminate.
Qed.
Lemma with_semicolons_snoc fs f : fs <> [] -> with_semicolons (fs ++ [f]) = with_semicolons fs ++ 59 :: f.
Proof.
  induction fs as [|g fs IH]; [congruence|]. intros _. destruct fs as [|h fs]; [reflexivity|]. change (with_semicolons ((g :: h :: fs) ++ [f])) with (g ++ 59 :: with_semicolons ((h :: fs) ++ [f])). rewrite IH by discriminate.
  change (with_semicolons (g :: h :: fs)) with (g ++ 59 :: with_semicolons (h :: fs)). rewrite <- app_assoc. reflexivity.
Qed.
Lemma ancestors_chain later : forall e, ancestors e later = with_semicolons (str "rustc" :: chain e later).
Proof.
  induction later as [|x later IH]; intros e; [reflexivity|]. cbn [ancestors chain]. destruct (encloses x e); [|apply IH]. rewrite IH. change (str ";") with [59]. rewrite app_comm_cons, with_semicolons_snoc by discriminate. reflexivity.
Qed.
Lemma chain_no c later : forall e, Forall (fun e => ~ In c (ev_label e)) later -> Forall (fun f => ~ In c f) (chain e later).
Proof.
  induction later as [|x later IH]; intros e F; [constructor|]. inversion F; subst. cbn [chain]. destruct (encloses x e); auto. apply Forall_app. split; auto.
Qed.
(** If moreover no label contains a semicolon (and the recording is nested, within the bounds of C30), the
    frames of every line but "rustc" are "rustc" and the labels of the events from the outermost to the innermost. *)
Theorem C59_frames : forall oc evs t0 W T m k v, nested_recording evs ->
  0 <= W -> NoDup T -> zlen T * W < 2 ^ 64 -> (forall t, thread_spans t evs <> [] -> In t T) ->
  (forall e a b, In e evs -> ev_payload e = Timestamp (Interval a b) -> t0 <= a /\ b <= t0 + W) ->
  Forall (fun e => ~ In 59 (ev_label e)) evs -> collapse_stacks oc evs = Ok m -> In (k, v) m ->
  k = str "rustc" \/
  exists before e after, evs = before ++ e :: after /\ is_interval e = true /\
    forall fs, frames k fs <-> fs = str "rustc" :: chain e after ++ [ev_label e].
Proof.
  intros oc evs t0 W T m k v HN HW HT HTW HTT HWin F HC HI. destruct (C30_lines oc evs t0 W T HN HW HT HTW HTT HWin) as (m' & sp & HC' & _ & _ & HL). rewrite HC in HC'. injection HC' as <-. apply HL in HI.
  destruct HI as [(-> & _)|((before & e & after & -> & HE & ->) & _)]; [left; auto|right]. exists before, e, after. split; auto. split; auto. apply Forall_app in F. destruct F as (_ & F). inversion F as [|? ? FE FA]; subst.
  assert (K : frames (stack_line e after) (str "rustc" :: chain e after ++ [ev_label e])).
  { split; [discriminate|]. split.
    - unfold stack_line. rewrite ancestors_chain. change (str ";") with [59]. rewrite app_comm_cons, with_semicolons_snoc by discriminate. reflexivity.
    - constructor; [cbn; lia|]. apply Forall_app. split; [apply chain_no, FA|constructor; auto]. }
  intros fs. split; [intros H; eapply frames_unique; eauto|intros ->; auto].
Qed.
Print Assumptions C59_frames.
(** Otherwise lines and frames are ambiguous: labels are written as they are. *)
Definition ev1 (l : bytes) (a b : Z) : event := mkEv (str "Query") l [] (Timestamp (Interval a b)) 1.
Theorem C59_ambiguous_refuted :
  (* a label with a line feed adds a stack that was never recorded *)
  (exists m, collapse_stacks true [ev1 (str "a 5" ++ [10] ++ str "rustc;b") 0 7] = Ok m /\
     text_says (folded_text m) [(str "rustc;a", 5); (str "rustc;b", 7); (str "rustc", 0)]) /\
  (* a label with a semicolon looks like two nested events *)
  collapse_stacks true [ev1 (str "b") 0 10; ev1 (str "a") 0 10] = collapse_stacks true [ev1 (str "a;b") 0 10; ev1 (str "a") 10 10].
Proof.
  split; [|vm_compute; reflexivity]. eexists. split; [vm_compute; reflexivity|]. exists [str "rustc;a 5"; str "rustc;b 7"; str "rustc 0"]. split; [vm_compute; reflexivity|]. split.
  - repeat (constructor; [cbn; lia|]). constructor.
  - constructor; [exists (str "5")|constructor; [exists (str "7")|constructor; [exists (str "0")|constructor]]]; (split; [reflexivity|]; split; [discriminate|]; split; [repeat constructor; cbn; lia|reflexivity]).
Qed.
Print Assumptions C59_ambiguous_refuted.
Example C59_example : exists m, collapse_stacks true [ev1 (str "b c") 0 4; ev1 (str "a") 0 10] = Ok m /\
  folded_text m = str "rustc;a 6" ++ [10] ++ str "rustc;a;b c 4" ++ [10] ++ str "rustc 0" ++ [10] /\
  Forall (fun e => ~ In 10 (ev_label e)) [ev1 (str "b c") 0 4; ev1 (str "a") 0 10].
Proof. eexists. split; [vm_compute; reflexivity|]. split; [vm_compute; reflexivity|]. repeat (constructor; [cbn; lia|]). constructor. Qed.
