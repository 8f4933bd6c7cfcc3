(** C86: the end-to-end check of the crate.  Model M_Harness.v, specification S_Harness.v. *)
From Coq Require Import String ZArith List Lia Bool Permutation Sorted.
From Verif Require Import M_Base F_Base M_Map M_Sink S_Sink M_Conc S_Conc M_Raw M_V8 M_Strings S_Utf8 S_Strings M_EventId S_EventId M_Iter M_Session S_Session M_Run S_Run M_Guard S_Guard M_Index S_Whole
  F_Session F_Session2 F_Run Prop_Run Prop_Whole Prop_Guard M_Harness S_Harness.
From Verif Require Prop_Format F_Utf8.
Import ListNotations.
Open Scope Z_scope.

(** ** What the check accepts *)
Lemma Ok_inj {A} (a b : A) : Ok a = Ok b -> a = b.
Proof. intros E. injection E. auto. Qed.
Lemma list_eqb_spec {A} (eqb : A -> A -> bool) (H : forall x y, eqb x y = true <-> x = y) a : forall b, list_eqb eqb a b = true <-> a = b.
Proof.
  induction a as [|x a IH]; intros [|y b]; cbn [list_eqb]; try (split; [discriminate|intros Q; discriminate Q]); [split; reflexivity|]. rewrite andb_true_iff, H, IH. split; [intros (-> & ->); reflexivity|intros Q; injection Q as <- <-; auto].
Qed.
Lemma same_event_spec a e : same_event a e = true <-> as_expected a e.
Proof.
  unfold same_event, as_expected. rewrite !andb_true_iff, !beq_true, (list_eqb_spec beq beq_true). split.
  - intros (((((K & L) & A) & I) & J) & N). split; [exact K|]. split; [exact L|]. split; [exact A|].
    destruct (ev_payload e) as [[s x|t]|n]; destruct (ev_payload a) as [[s' x'|t']|n']; cbn in I, J, N; try discriminate; [econstructor 2; reflexivity|econstructor 3; reflexivity|].
    apply Z.eqb_eq in N. subst. econstructor 1; reflexivity.
  - intros (K & L & A & G). destruct G as [n -> ->|s x s' x' -> ->|t t' -> ->]; cbn; rewrite ?Z.eqb_refl; auto 10.
Qed.
Lemma of_by t es : of_thread t es = by_thread t es.
Proof. reflexivity. Qed.
Lemma insertions_spec es : forall seen, NoDup seen -> NoDup (insertions seen es) /\ forall t, In t (insertions seen es) <-> In t seen \/ In t (map ev_thread es).
Proof.
  induction es as [|e es IH]; intros seen N; cbn [insertions map]; [split; [exact N|]; intros t; cbn; tauto|]. destruct (existsb (Z.eqb (ev_thread e)) seen) eqn:X.
  - apply existsb_exists in X. destruct X as (y & I & Q). apply Z.eqb_eq in Q. subst y. destruct (IH seen N) as (N1 & M). split; [exact N1|]. intros t. rewrite M. cbn [In]. split; [tauto|]. intros [H|[<-|H]]; auto.
  - assert (NI : ~ In (ev_thread e) seen). { intros I. apply not_true_iff_false in X. apply X. apply existsb_exists. exists (ev_thread e). split; [exact I|apply Z.eqb_refl]. }
    destruct (IH (seen ++ [ev_thread e])) as (N1 & M). { apply (Permutation_NoDup (l := ev_thread e :: seen)); [apply Permutation_cons_append|constructor; assumption]. }
    split; [exact N1|]. intros t. rewrite M, in_app_iff. cbn [In]. tauto.
Qed.
Lemma keys_of es : NoDup (insertions [] es) /\ forall t, In t (insertions [] es) <-> by_thread t es <> [].
Proof.
  destruct (insertions_spec es [] (NoDup_nil _)) as (N & M). split; [exact N|]. intros t. rewrite M. cbn [In]. split.
  - intros [[]|H]. apply in_map_iff in H. destruct H as (e & <- & I). intros Q. assert (In e (by_thread (ev_thread e) es)) by (apply filter_In; split; [exact I|apply Z.eqb_refl]). rewrite Q in H. exact H.
  - intros H. right. destruct (by_thread t es) as [|e l] eqn:B; [contradiction|]. assert (I : In e (by_thread t es)) by (rewrite B; left; reflexivity). apply filter_In in I. destruct I as (I & Q). apply Z.eqb_eq in Q. subst t. apply in_map, I.
Qed.
Lemma zlen_combine {A B} (a : list A) (b : list B) : zlen a = zlen b -> zlen (combine a b) = zlen a.
Proof. unfold zlen. intros H. rewrite combine_length. lia. Qed.
Lemma forallb_Forall2 a : forall e, zlen a = zlen e -> forallb (fun p => same_event (fst p) (snd p)) (combine a e) = true <-> Forall2 as_expected a e.
Proof.
  induction a as [|x a IH]; intros [|y e] L.
  - split; [constructor|reflexivity].
  - rewrite zlen_cons in L. pose proof (zlen_nonneg e). change (zlen (@nil event)) with 0 in L. lia.
  - rewrite zlen_cons in L. pose proof (zlen_nonneg a). change (zlen (@nil event)) with 0 in L. lia.
  - rewrite !zlen_cons in L. cbn [combine forallb fst snd]. rewrite andb_true_iff, same_event_spec, IH by lia. split; [intros (A & B); constructor; assumption|intros H; inversion H; auto].
Qed.
Lemma Forall2_zlen {A B} (R : A -> B -> Prop) a b : Forall2 R a b -> zlen a = zlen b.
Proof. induction 1; [reflexivity|]. rewrite !zlen_cons. lia. Qed.
Lemma check_threads_spec keys actual expected n : check_threads keys actual expected = Ok n <->
  (forall t, In t keys -> Forall2 as_expected (by_thread t actual) (by_thread t expected)) /\ n = zsum (map (fun t => zlen (by_thread t expected)) keys).
Proof.
  revert n. induction keys as [|t keys IH]; intros n; cbn [check_threads map zsum fold_right].
  - split; [intros E; injection E as <-; split; [intros t []|reflexivity]|intros (_ & ->); reflexivity].
  - change of_thread with by_thread. unfold assert. destruct (Z.eqb_spec (zlen (by_thread t actual)) (zlen (by_thread t expected))) as [L|NL]; cbn [bind].
    + destruct (forallb _ _) eqn:F; cbn [bind].
      * apply (forallb_Forall2 _ _ L) in F. split.
        -- destruct (check_threads keys actual expected) as [m| | |] eqn:C; cbn [bind]; try discriminate. intros E. apply Ok_inj in E. rewrite <- E. destruct (proj1 (IH m) eq_refl) as (A & ->). split; [intros t' [<-|I]; auto|]. rewrite zlen_combine by exact L. unfold zsum. cbn. lia.
        -- intros (A & ->). rewrite (proj2 (IH _) (conj (fun t' I => A t' (or_intror I)) eq_refl)). cbn [bind]. rewrite zlen_combine by exact L. f_equal. unfold zsum. cbn. lia.
      * split; [discriminate|]. intros (A & _). assert (Q : forallb (fun p => same_event (fst p) (snd p)) (combine (by_thread t actual) (by_thread t expected)) = true) by (apply (forallb_Forall2 _ _ L), A; left; reflexivity). congruence.
    + split; [discriminate|]. intros (A & _). exfalso. apply NL. apply (Forall2_zlen as_expected). apply A. left. reflexivity.
Qed.
Lemma by_thread_cons t e es : by_thread t (e :: es) = if ev_thread e =? t then e :: by_thread t es else by_thread t es.
Proof. reflexivity. Qed.
Lemma zsum_by_thread es : forall keys, NoDup keys -> (forall t, by_thread t es <> [] -> In t keys) -> zsum (map (fun t => zlen (by_thread t es)) keys) = zlen es.
Proof.
  induction es as [|e es IH]; intros keys N M.
  - clear. induction keys as [|t keys IH]; [reflexivity|]. unfold zsum in *. cbn [map fold_right]. rewrite IH. reflexivity.
  - assert (I : In (ev_thread e) keys). { apply M. cbn. rewrite Z.eqb_refl. discriminate. }
    rewrite zlen_cons, <- (IH keys N).
    + clear IH M. induction keys as [|t keys IH]; [destruct I|]. inversion N as [|? ? NI N']; subst. cbn [map zsum fold_right]. unfold zsum in *. cbn [fold_right map]. destruct I as [->|I].
      * assert (Q : map (fun t => zlen (by_thread t (e :: es))) keys = map (fun t => zlen (by_thread t es)) keys).
        { apply map_ext_in. intros t It. cbn. destruct (Z.eqb_spec (ev_thread e) t) as [<-|]; [contradiction|reflexivity]. }
        rewrite Q, by_thread_cons, Z.eqb_refl, zlen_cons. lia.
      * rewrite (IH N' I), by_thread_cons. destruct (Z.eqb_spec (ev_thread e) t) as [<-|]; [contradiction|]. lia.
    + intros t H. apply M. cbn. destruct (ev_thread e =? t); [discriminate|exact H].
Qed.
Lemma check_iff key_order hint actual expected : yields_keys key_order -> same_order key_order (insertions [] expected) ->
  check_profiling_data key_order hint actual expected = Ok tt <->
  hint = (zlen expected, Some (zlen expected)) /\ forall t, Forall2 as_expected (by_thread t actual) (by_thread t expected).
Proof.
  intros YK SO. destruct (keys_of actual) as (NA & MA). destruct (keys_of expected) as (NE & ME). unfold check_profiling_data, assert.
  assert (HI : (fst hint =? zlen expected) && match snd hint with Some m => m =? zlen expected | None => false end = true <-> hint = (zlen expected, Some (zlen expected))).
  { destruct hint as (a & [b|]); cbn [fst snd]; rewrite ?andb_false_r, ?andb_true_iff, ?Z.eqb_eq; (split; [|intros Q; injection Q; auto || discriminate]); [intros (-> & ->); reflexivity|discriminate]. }
  destruct (_ && _) eqn:H; cbn [bind]; [|split; [discriminate|intros (Q & _); apply HI in Q; congruence]].
  destruct (list_eqb Z.eqb _ _) eqn:KE; cbn [bind].
  - apply (list_eqb_spec Z.eqb Z.eqb_eq) in KE. pose proof (YK _ NA) as PA. pose proof (YK _ NE) as PE. split.
    + destruct (check_threads _ _ _) as [n| | |] eqn:C; cbn [bind]; try discriminate. intros _. split; [apply HI; reflexivity|]. apply check_threads_spec in C. destruct C as (C & _). intros t.
      destruct (in_dec Z.eq_dec t (insertions [] actual)) as [I|NI]; [apply C, (Permutation_in _ PA), I|].
      assert (EA : by_thread t actual = []). { destruct (by_thread t actual) eqn:B; [reflexivity|]. exfalso. apply NI, MA. rewrite B. discriminate. }
      assert (EE : by_thread t expected = []). { destruct (by_thread t expected) eqn:B; [reflexivity|]. exfalso. apply NI. apply (Permutation_in _ (Permutation_sym PA)). rewrite KE. apply (Permutation_in _ PE), ME. rewrite B. discriminate. }
      rewrite EA, EE. constructor.
    + intros (_ & F). rewrite (proj2 (check_threads_spec _ actual expected _) (conj (fun t _ => F t) eq_refl)). cbn [bind]. rewrite zsum_by_thread, Z.eqb_refl; [reflexivity|rewrite KE; apply (Permutation_NoDup PE NE)|]. intros t B. rewrite KE. apply (Permutation_in _ PE), ME, B.
  - split; [discriminate|]. intros (_ & F). exfalso. assert (Q : list_eqb Z.eqb (key_order (insertions [] actual)) (key_order (insertions [] expected)) = true); [|congruence].
    apply (list_eqb_spec Z.eqb Z.eqb_eq). apply SO. apply NoDup_Permutation; [exact NE|exact NA|]. intros t. rewrite MA, ME. specialize (F t). destruct F; split; congruence.
Qed.
(** The check accepts exactly what it should: the announced number of events, and for every thread the expected events in order. *)
Theorem C86_check : forall key_order hint actual expected, yields_keys key_order -> (forall keys, same_order key_order keys) ->
  check_profiling_data key_order hint actual expected = Ok tt <->
  hint = (zlen expected, Some (zlen expected)) /\ forall t, Forall2 as_expected (by_thread t actual) (by_thread t expected).
Proof. intros key_order hint actual expected YK SO. apply check_iff; auto. Qed.

(** ** What a thread calls *)
(** A call and the event expected of it: the template at the place of the ids. *)
Inductive asked (ids : list (Z * Z)) (tid : Z) : call -> event -> Prop :=
| as_integer j kind id t v : znth j ids = Some (kind, id) -> znth j templates = Some t -> asked ids tid (KInteger kind id tid v) (expect t tid (Integer v))
| as_instant j kind id t now : znth j ids = Some (kind, id) -> znth j templates = Some t -> asked ids tid (KInstant kind id tid now) (expect t tid (Timestamp (Instant 0)))
| as_interval j kind id t s e : znth j ids = Some (kind, id) -> znth j templates = Some t -> asked ids tid (KInterval kind id tid s e) (expect t tid (Timestamp (Interval 0 0))).
Lemma bind_ok {A B} (r : res A) (f : A -> res B) b : bind r f = Ok b -> exists a, r = Ok a /\ f a = Ok b.
Proof. destruct r; cbn [bind]; try discriminate. eauto. Qed.
Lemma at_times_app a b : forall ts, length ts = length (a ++ b) -> exists ts1 ts2, ts = ts1 ++ ts2 /\ length ts1 = length a /\ length ts2 = length b /\ at_times (a ++ b) ts = at_times a ts1 ++ at_times b ts2.
Proof.
  induction a as [|f a IH]; intros ts L; [exists [], ts; auto|]. destruct ts as [|t ts]; [discriminate L|]. cbn [app length] in L. destruct (IH ts ltac:(lia)) as (t1 & t2 & -> & L1 & L2 & E). exists (t :: t1), t2. split; [reflexivity|]. split; [cbn; lia|]. split; [exact L2|].
  cbn [app]. unfold at_times in *. cbn [combine map app]. f_equal. exact E.
Qed.
Lemma pick_ok {A} ids (l : list A) r x : pick ids l r = Ok x -> znth (r mod zlen ids) l = Some x.
Proof. unfold pick. destruct (znth _ l); [|discriminate]. intros E. apply Ok_inj in E. subst. reflexivity. Qed.
Lemma calls_asked oc ids tid n : forall random w, pseudo_invocation oc ids tid random n = Ok w -> forall ts, length ts = length (fst w) ->
  (forall gs, Forall2 (asked ids tid) (grun gs (at_times (fst w) ts)) (snd w)) /\ (forall x h, In x (at_times (fst w) ts) -> about (fst x) h -> 1 <= h <= Z.of_nat n).
Proof.
  induction n as [|n IH]; intros random w E ts L; cbn [pseudo_invocation] in E.
  - apply Ok_inj in E. subst w. split; [intros gs; constructor|intros x h []].
  - apply bind_ok in E. destruct E as (e & P & E). apply bind_ok in E. destruct E as (r7 & _ & E). apply bind_ok in E. destruct E as (a & A & E). apply bind_ok in E. destruct E as (r17 & _ & E). apply bind_ok in E. destruct E as (b & B & E). apply bind_ok in E. destruct E as (r23 & _ & E). apply bind_ok in E. destruct E as (c & C & E). apply bind_ok in E. destruct E as (t & T & E).
    apply Ok_inj in E. subst w. cbn [fst snd] in *. apply pick_ok in P, T. unfold pseudo_integer_event in A. apply bind_ok in A. destruct A as (v & _ & A). apply bind_ok in A. destruct A as (e1 & P1 & A). apply bind_ok in A. destruct A as (t1 & T1 & A). apply Ok_inj in A. subst a. apply pick_ok in P1, T1.
    unfold pseudo_instant_event in C. apply bind_ok in C. destruct C as (e2 & P2 & C). apply bind_ok in C. destruct C as (t2 & T2 & C). apply Ok_inj in C. subst c. apply pick_ok in P2, T2. cbn [fst snd] in *.
    set (h := Z.of_nat (S n)) in *. destruct ts as [|u0 [|u1 ts]]; try (cbn in L; discriminate L). cbn [app length] in L. destruct (at_times_app (fst b) ([fun now => GCall (KInstant (fst e2) (snd e2) tid now)] ++ [fun _ => GDrop h]) ts) as (ts1 & ts2 & -> & L1 & L2 & E); [cbn [app]; lia|].
    destruct ts2 as [|u2 [|u3 [|]]]; try discriminate L2. destruct (IH r17 b B ts1 L1) as (G & AB).
    assert (PE : at_times ([fun _ => GStart h (fst e) (snd e) tid] ++ [fun _ => GCall (KInteger (fst e1) (snd e1) tid v)] ++ fst b ++ [fun now => GCall (KInstant (fst e2) (snd e2) tid now)] ++ [fun _ => GDrop h]) (u0 :: u1 :: ts1 ++ [u2; u3]) =
      [] ++ (GStart h (fst e) (snd e) tid, u0) :: ((GCall (KInteger (fst e1) (snd e1) tid v), u1) :: at_times (fst b) ts1 ++ [(GCall (KInstant (fst e2) (snd e2) tid u2), u2)]) ++ (GDrop h, u3) :: []).
    { cbn [app]. unfold at_times. cbn [combine map fst snd]. f_equal. f_equal. fold (at_times (fst b ++ [fun now => GCall (KInstant (fst e2) (snd e2) tid now); fun _ => GDrop h]) (ts1 ++ [u2; u3])). cbn [app] in E. rewrite E. rewrite <- app_assoc. reflexivity. }
    rewrite PE. split.
    + intros gs. rewrite (C23_one_interval gs [] (GStart h (fst e) (snd e) tid) _ (GDrop h) [] h (fst e) (snd e) (snd e) tid u0 u3).
      * cbn [grun app]. set (gs1 := gstate gs _). cbn [gstep app]. constructor; [destruct e1; apply (as_integer _ _ _ _ _ _ _ P1 T1)|]. rewrite grun_app. cbn [grun gstep app]. rewrite <- app_assoc. apply Forall2_app; [apply G|]. cbn [app].
        constructor; [destruct e2; apply (as_instant _ _ _ _ _ _ _ P2 T2)|]. constructor; [|constructor]. destruct e. apply (as_interval _ _ _ _ _ _ _ _ P T).
      * left. reflexivity.
      * left. split; reflexivity.
      * intros x I. cbn [In app] in I. destruct I as [<-|I]; [cbn; auto|]. apply in_app_iff in I. destruct I as [I|[<-|[]]]; [|cbn; auto]. intros Q. pose proof (AB x h I Q). unfold h in *. lia.
    + intros x h' I Q. cbn [app] in I. destruct I as [<-|I]; [cbn in Q; unfold h in Q; lia|]. destruct I as [<-|I]; [destruct Q|]. rewrite <- app_assoc in I. apply in_app_iff in I. destruct I as [I|[<-|[<-|[]]]]; [pose proof (AB x h' I Q); lia|destruct Q|cbn in Q; unfold h in Q; lia].
Qed.
Lemma stacks_asked oc ids tid (l : list nat) : forall ws, mapM (fun i => pseudo_invocation oc ids tid (Z.of_nat i) 4) l = Ok ws ->
  forall ts, length ts = length (concat (map fst ws)) -> forall gs, Forall2 (asked ids tid) (grun gs (at_times (concat (map fst ws)) ts)) (concat (map snd ws)).
Proof.
  induction l as [|i l IH]; intros ws E ts L gs; cbn [mapM] in E.
  - apply Ok_inj in E. subst ws. constructor.
  - apply bind_ok in E. destruct E as (w & W & E). apply bind_ok in E. destruct E as (ws' & WS & E). apply Ok_inj in E. subst ws. cbn [map concat] in *. destruct (at_times_app _ _ ts L) as (t1 & t2 & -> & L1 & L2 & ->).
    rewrite grun_app. apply Forall2_app; [apply (proj1 (calls_asked oc ids tid 4 _ _ W t1 L1))|apply (IH _ WS _ L2)].
Qed.
Lemma worker_asked oc ids tid n w ts gs : worker oc ids tid n = Ok w -> length ts = length (fst w) -> Forall2 (asked ids tid) (grun gs (at_times (fst w) ts)) (snd w).
Proof. unfold worker. intros E L. apply bind_ok in E. destruct E as (ws & WS & E). apply Ok_inj in E. subst w. cbn [fst snd] in *. apply (stacks_asked oc ids tid _ _ WS _ L). Qed.
Lemma worker_some oc ids tid n w : worker oc ids tid n = Ok w -> (snd w = [] <-> n = 0%nat).
Proof.
  unfold worker. intros E. apply bind_ok in E. destruct E as (ws & WS & E). apply Ok_inj in E. subst w. cbn [snd]. destruct n as [|n]; cbn [seq mapM] in WS.
  - apply Ok_inj in WS. subst ws. split; reflexivity.
  - split; [|discriminate]. intros Q. exfalso. apply bind_ok in WS. destruct WS as (w & W & WS). apply bind_ok in WS. destruct WS as (ws' & _ & WS). apply Ok_inj in WS. subst ws. cbn [map concat] in Q. apply app_eq_nil in Q. destruct Q as (Q & _).
    cbn [pseudo_invocation] in W. repeat (apply bind_ok in W; destruct W as (? & _ & W)). apply Ok_inj in W. subst w. cbn [snd] in Q. apply app_eq_nil in Q. destruct Q as (_ & Q). apply app_eq_nil in Q. destruct Q as (_ & Q). apply app_eq_nil in Q. destruct Q as (_ & Q). discriminate Q.
Qed.
Lemma asked_thread ids tid k e : asked ids tid k e -> ev_thread e = tid /\ exists w, call_event k = Some w /\ snd (fst w) = tid.
Proof. intros []; (split; [reflexivity|]); eexists; (split; [reflexivity|reflexivity]). Qed.

(** ** The recorded events of one thread *)
Definition tid_of (w : Z * Z * Z * want) : Z := snd (fst w).
Definition wants (ks : list call) : list (Z * Z * Z * want) := flat_map (fun k => match call_event k with Some w => [w] | None => [] end) ks.
Lemma recorded_wants K : recorded K = wants (map fst K).
Proof. induction K as [|(k & r) K IH]; [reflexivity|]. cbn [recorded map fst wants flat_map]. destruct (call_event k); [cbn [app]; f_equal|]; exact IH. Qed.
Lemma wants_app a b : wants (a ++ b) = wants a ++ wants b.
Proof. apply flat_map_app. Qed.
Lemma wants_cons k ks : wants (k :: ks) = wants [k] ++ wants ks.
Proof. apply (wants_app [k] ks). Qed.
Lemma in_wants w ks : In w (wants ks) <-> exists k, In k ks /\ call_event k = Some w.
Proof.
  unfold wants. rewrite in_flat_map. split; intros (k & I & H); exists k; (split; [exact I|]).
  - destruct (call_event k); [destruct H as [<-|[]]; reflexivity|destruct H].
  - rewrite H. left. reflexivity.
Qed.
Lemma wants_proj g t n : (forall x, x <> t -> forall w, In w (wants (map fst (ueffects (uproj x g)))) -> tid_of w <> n) ->
  filter (fun w => tid_of w =? n) (wants (map fst (ueffects g))) = filter (fun w => tid_of w =? n) (wants (map fst (ueffects (uproj t g)))).
Proof.
  induction g as [|x g IH]; intros H; [reflexivity|].
  assert (H' : forall y, y <> t -> forall w, In w (wants (map fst (ueffects (uproj y g)))) -> tid_of w <> n).
  { intros y Hy w Hin. apply (H y Hy w). unfold uproj in *. cbn [filter]. destruct (ug_tid x =? y); auto. destruct x; cbn [ueffects]; auto. cbn [map fst]. rewrite wants_cons. apply in_app_iff. right. exact Hin. }
  specialize (IH H'). unfold uproj in *. cbn [filter]. destruct x as [t' k|t' k r|t' r]; cbn [ug_tid ueffects].
  - destruct (t' =? t); exact IH.
  - destruct (Z.eqb_spec t' t) as [->|N]; cbn [ueffects map fst].
    + rewrite (wants_cons k (map fst (ueffects g))), (wants_cons k (map fst (ueffects (filter _ g)))), !filter_app. f_equal. exact IH.
    + rewrite <- IH. rewrite wants_cons, filter_app.
      assert (Q : filter (fun w => tid_of w =? n) (wants [k]) = []); [|rewrite Q; reflexivity]. cbn [wants flat_map]. rewrite app_nil_r. destruct (call_event k) as [w|] eqn:C; [|reflexivity]. cbn [filter]. destruct (Z.eqb_spec (tid_of w) n) as [EQ|]; [|reflexivity]. exfalso.
      apply (H t' N w); [|exact EQ]. cbn [filter ug_tid]. rewrite Z.eqb_refl. cbn [ueffects map fst]. rewrite wants_cons. apply in_app_iff. left. cbn [wants flat_map]. rewrite C. left. reflexivity.
  - destruct (t' =? t); exact IH.
Qed.

(** ** The strings *)
Lemma erase_proj t g : uerase (uproj t g) = filter (fun e => uev_tid e =? t) (uerase g).
Proof.
  induction g as [|x g IH]; [reflexivity|]. unfold uproj in *. destruct x as [t' k|t' k r|t' r]; cbn [filter ug_tid uerase uev_tid]; destruct (t' =? t); cbn [uerase]; rewrite ?IH; reflexivity.
Qed.
Lemma life_history t l : uerase (thread_life t l) = thread_history t l.
Proof. induction l as [|x l IH]; [reflexivity|]. cbn [thread_life thread_history flat_map app uerase]. f_equal. f_equal. exact IH. Qed.
Lemma history_inj t : forall l l', thread_history t l = thread_history t l' -> l = l'.
Proof.
  induction l as [|(k & r) l IH]; intros [|(k' & r') l'] E; try discriminate E; [reflexivity|]. cbn [thread_history flat_map app fst snd] in E. injection E as E1 E2 E3. subst. f_equal. apply IH, E3.
Qed.
Lemma effects_cut t l1 l2 : forall g, ueffects (uproj t g) = l1 ++ l2 -> exists g1 g2, g = g1 ++ g2 /\ ueffects (uproj t g1) = l1 /\ ueffects (uproj t g2) = l2.
Proof.
  intros g. revert l1. induction g as [|x g IH]; intros l1 E.
  - cbn in E. symmetry in E. apply app_eq_nil in E. destruct E as (-> & ->). exists [], []. auto.
  - destruct l1 as [|y l1]; [exists [], (x :: g); auto|]. unfold uproj in *. cbn [filter] in E. destruct (ug_tid x =? t) eqn:T.
    + destruct x as [t' k|t' k r|t' r]; cbn [ueffects] in E.
      * destruct (IH _ E) as (g1 & g2 & -> & E1 & E2). exists (UGInv t' k :: g1), g2. cbn [filter app]. rewrite T. auto.
      * injection E as E0 E. destruct (IH _ E) as (g1 & g2 & -> & E1 & E2). exists (UGEff t' k r :: g1), g2. cbn [filter app]. rewrite T. cbn [ueffects]. rewrite E1, E0. auto.
      * destruct (IH _ E) as (g1 & g2 & -> & E1 & E2). exists (UGRet t' r :: g1), g2. cbn [filter app]. rewrite T. auto.
    + destruct (IH _ E) as (g1 & g2 & -> & E1 & E2). exists (x :: g1), g2. cbn [filter app]. rewrite T. auto.
Qed.
Lemma proj_in t g x : In x (ueffects (uproj t g)) -> In x (ueffects g).
Proof.
  induction g as [|y g IH]; [auto|]. unfold uproj in *. cbn [filter]. destruct (ug_tid y =? t); destruct y; cbn [ueffects]; auto; [intros [<-|H]; [left; reflexivity|right; auto]|intros H; right; auto].
Qed.
Lemma allocs_increase en md r0 g L l1 s r l2 s' r' l3 t : session en md r0 (ueffects g) L -> ueffects (uproj t g) = l1 ++ (KAlloc s, r) :: l2 ++ (KAlloc s', r') :: l3 -> r0 < r /\ r < r'.
Proof.
  intros HS E. replace (l1 ++ (KAlloc s, r) :: l2 ++ (KAlloc s', r') :: l3) with ((l1 ++ (KAlloc s, r) :: l2) ++ (KAlloc s', r') :: l3) in E by (rewrite <- app_assoc; reflexivity).
  destruct (effects_cut t _ _ g E) as (g1 & g2 & -> & E1 & E2). assert (I1 : In (KAlloc s, r) (ueffects g1)) by (apply (proj_in t); rewrite E1; apply in_elt). assert (I2 : In (KAlloc s', r') (ueffects g2)) by (apply (proj_in t); rewrite E2; left; reflexivity).
  apply in_split in I1, I2. destruct I1 as (a & b & A). destruct I2 as (c & d & C). rewrite ueffects_app, A, C in HS. eapply (alloc_increasing en md r0 _ L a s r (b ++ c) s' r' d HS). rewrite <- !app_assoc. reflexivity.
Qed.
Lemma alloc_result_ok a id : alloc_result a = Ok id -> id = a + 100000003.
Proof. unfold alloc_result, from_addr. destruct (_ <? _); [|discriminate]. intros E. apply Ok_inj in E. rewrite <- E. reflexivity. Qed.
Lemma last_same v c ms : (forall m, In m ms -> m = (v, c)) -> ms <> [] -> forall d, last_mapping v ms d = Some c.
Proof.
  induction ms as [|m ms IH]; [contradiction|]. intros H _ d. rewrite (H m (or_introl eq_refl)). cbn [last_mapping]. rewrite Z.eqb_refl. destruct ms as [|m' ms]; [reflexivity|]. apply IH; [intros x I; apply H; right; exact I|discriminate].
Qed.
Definition named (kind query generic : Z) : template :=
  if kind =? generic then mkTemplate (str "Generic") (str "SomeGenericActivity") []
  else if kind =? query then mkTemplate (str "Query") (str "SomeQuery") []
  else mkTemplate (str "QueryWithArg") (str "AQueryWithArg") [str "some_arg"].
Lemma good_literal t : t <> [] -> Forall (fun c => 32 <= c < 127) t -> good_text t.
Proof. intros N F. split; [exact N|]. intros b I C. rewrite Forall_forall in F. specialize (F b I). cbv beta in F. unfold control in C. lia. Qed.
Lemma znth3 {A} (a b c : A) j x : znth j [a; b; c] = Some x -> j = 0 /\ x = a \/ j = 1 /\ x = b \/ j = 2 /\ x = c.
Proof.
  intros H. assert (L : 0 <= j < 3). { pose proof (znth_Some_lt _ _ _ H) as Q. change (zlen [a; b; c]) with 3 in Q. lia. }
  assert (C : j = 0 \/ j = 1 \/ j = 2) by lia. destruct C as [->|[->| ->]]; cbn in H; injection H as <-; auto.
Qed.
Lemma named_ids generic activity query with_arg event_id j kind id t : generic <> query -> generic <> with_arg -> query <> with_arg ->
  znth j [(generic, activity); (query, 42); (with_arg, event_id)] = Some (kind, id) -> znth j templates = Some t -> named kind query generic = t.
Proof.
  intros N1 N2 N3 H T. destruct (znth3 _ _ _ _ _ H) as [(-> & E)|[(-> & E)|(-> & E)]]; injection E as -> ->; cbn in T; injection T as <-; unfold named.
  - rewrite Z.eqb_refl. reflexivity.
  - destruct (Z.eqb_spec query generic); [congruence|]. rewrite Z.eqb_refl. reflexivity.
  - destruct (Z.eqb_spec with_arg generic); [congruence|]. destruct (Z.eqb_spec with_arg query); [congruence|]. reflexivity.
Qed.
(** Which calls are made at all. *)
Section Generated.
Variables (en : endian) (md : bytes) (r0 : Z) (g : list ugev) (L : list (op * Z)).
Hypothesis HS : session en md r0 (ueffects g) L.
Hypothesis HT : forall t, exists l, uproj t g = thread_life t l.
Variables (oc : bool) (ns nt : nat).
Variables (addrs : list Z) (generic activity query with_arg label arg event_id some_query r : Z) (works : list work).
Hypothesis HA : Forall2 (fun a id => alloc_result a = Ok id) addrs [generic; activity; query; with_arg; label; arg; event_id; some_query].
Hypothesis HM : filter (fun e => uev_tid e =? 0) (uerase g) = thread_history 0
      (combine (map KAlloc [SStr (str "Generic"); SStr (str "SomeGenericActivity"); SStr (str "Query"); SStr (str "QueryWithArg");
                            SStr (str "AQueryWithArg"); SStr (str "some_arg"); label_and_arg label arg; SStr (str "SomeQuery")]) addrs
       ++ [(KMap 42 some_query, r)]).
Let ids := [(generic, from_label activity); (query, from_label 42); (with_arg, event_id)].
Hypothesis HW : mapM (fun i => worker oc ids (Z.of_nat i mod 2 ^ 32) ns) (seq 0 nt) = Ok works.
Hypothesis HC : forall i w, nth_error works i = Some w -> exists ts, length ts = length (fst w) /\ calls_by (1 + Z.of_nat i) (uerase g) = grun (fun _ => None) (at_times (fst w) ts).
Hypothesis HN : forall t, t < 0 \/ Z.of_nat nt < t -> calls_by t (uerase g) = [].
Hypothesis Hnt : Z.of_nat nt <= 2 ^ 32.

Lemma g_calls t : map fst (ueffects (uproj t g)) = calls_by t (uerase g).
Proof. destruct (HT t) as (l & E). rewrite <- proj_calls, E, life_calls, life_effects. reflexivity. Qed.
Definition main_calls : list (call * Z) := combine (map KAlloc [SStr (str "Generic"); SStr (str "SomeGenericActivity"); SStr (str "Query"); SStr (str "QueryWithArg");
                            SStr (str "AQueryWithArg"); SStr (str "some_arg"); label_and_arg label arg; SStr (str "SomeQuery")]) addrs
       ++ [(KMap 42 some_query, r)].
Lemma g_main : ueffects (uproj 0 g) = main_calls.
Proof.
  destruct (HT 0) as (l & E). rewrite <- erase_proj, E, life_history in HM. apply history_inj in HM. rewrite E, life_effects, HM. reflexivity.
Qed.
Lemma g_works : length works = nt /\ forall i w, nth_error works i = Some w -> (i < nt)%nat /\ worker oc ids (Z.of_nat i) ns = Ok w.
Proof.
  assert (F : Forall2 (fun i w => worker oc ids (Z.of_nat i mod 2 ^ 32) ns = Ok w) (seq 0 nt) works).
  { revert HW. generalize (seq 0 nt) as l. generalize works as ws. clear. intros ws l. revert ws. induction l as [|i l IH]; intros ws E; cbn [mapM] in E; [apply Ok_inj in E; subst; constructor|]. apply bind_ok in E. destruct E as (w & W & E). apply bind_ok in E. destruct E as (ws' & WS & E). apply Ok_inj in E. subst. constructor; auto. }
  assert (LN : length works = nt) by (rewrite <- (Forall2_len _ _ _ F); apply seq_length). split; [exact LN|]. intros i w E. assert (Hi : (i < nt)%nat) by (rewrite <- LN; apply nth_error_Some; congruence). split; [exact Hi|].
  assert (Q : forall l ws, Forall2 (fun i w => worker oc ids (Z.of_nat i mod 2 ^ 32) ns = Ok w) l ws -> forall i j w, nth_error l i = Some j -> nth_error ws i = Some w -> worker oc ids (Z.of_nat j mod 2 ^ 32) ns = Ok w).
  { clear. intros l ws F. induction F; intros [|i] j w' E1 E2; try discriminate; [cbn in E1, E2; congruence|eapply IHF; eauto]. }
  assert (S1 : nth_error (seq 0 nt) i = Some i). { rewrite (nth_error_nth' _ 0%nat) by (rewrite seq_length; exact Hi). rewrite seq_nth by exact Hi. reflexivity. }
  pose proof (Q _ _ F i i w S1 E) as R. rewrite Z.mod_small in R by lia. exact R.
Qed.
Lemma g_asked i w : nth_error works i = Some w -> Forall2 (asked ids (Z.of_nat i)) (calls_by (1 + Z.of_nat i) (uerase g)) (snd w).
Proof. intros E. destruct (HC i w E) as (ts & LT & ->). destruct (proj2 g_works i w E) as (_ & W). apply (worker_asked oc ids _ ns w ts _ W LT). Qed.
Lemma g_thread t k : In k (calls_by t (uerase g)) -> (t = 0 /\ In k (map fst main_calls)) \/ exists i w e, t = 1 + Z.of_nat i /\ nth_error works i = Some w /\ asked ids (Z.of_nat i) k e.
Proof.
  intros I. assert (C : t < 0 \/ Z.of_nat nt < t \/ t = 0 \/ 1 <= t <= Z.of_nat nt) by lia. destruct C as [C|[C|[->|C]]].
  - rewrite HN in I by lia. destruct I.
  - rewrite HN in I by lia. destruct I.
  - left. split; [reflexivity|]. rewrite <- g_calls, g_main in I. exact I.
  - right. assert (E : exists w, nth_error works (Z.to_nat (t - 1)) = Some w). { destruct (nth_error works (Z.to_nat (t - 1))) eqn:Q; [eauto|]. apply nth_error_None in Q. rewrite (proj1 g_works) in Q. lia. }
    destruct E as (w & E). assert (T : t = 1 + Z.of_nat (Z.to_nat (t - 1))) by lia. pose proof (g_asked _ _ E) as F. rewrite <- T in F. clear - I F E T. assert (X : exists e, asked ids (Z.of_nat (Z.to_nat (t - 1))) k e). { induction F; [destruct I|]. destruct I as [->|I]; eauto. }
    destruct X as (e & X). eauto 8.
Qed.
Lemma g_in k x : In (k, x) (ueffects g) -> In (k, x) main_calls \/ exists i w e, nth_error works i = Some w /\ asked ids (Z.of_nat i) k e.
Proof.
  intros I. destruct (proj_effects _ _ _ I) as (t & Ht). assert (I' : In k (calls_by t (uerase g))) by (rewrite <- g_calls; apply (in_map fst) in Ht; exact Ht). destruct (g_thread t k I') as [(-> & _)|(i & w & e & _ & E & A)]; [left; rewrite <- g_main; exact Ht|right; eauto].
Qed.
(** Addresses. *)
Lemma g_addrs : exists a1 a2 a3 a4 a5 a6 a7 a8, addrs = [a1; a2; a3; a4; a5; a6; a7; a8] /\ 8 < a1 < a2 /\ a2 < a3 < a4 /\ a4 < a5 < a6 /\ a6 < a7 < a8 /\
  generic = a1 + 100000003 /\ activity = a2 + 100000003 /\ query = a3 + 100000003 /\ with_arg = a4 + 100000003 /\ label = a5 + 100000003 /\ arg = a6 + 100000003 /\ event_id = a7 + 100000003 /\ some_query = a8 + 100000003.
Proof.
  pose proof g_main as M. unfold main_calls in M.
  repeat match goal with H : Forall2 _ _ (_ :: _) |- _ => inversion H; clear H; subst end. match goal with H : Forall2 _ _ [] |- _ => inversion H; clear H; subst end.
  repeat match goal with H : alloc_result _ = Ok _ |- _ => apply alloc_result_ok in H end.
  match goal with |- exists a1 a2 a3 a4 a5 a6 a7 a8, [?b1; ?b2; ?b3; ?b4; ?b5; ?b6; ?b7; ?b8] = _ /\ _ => exists b1, b2, b3, b4, b5, b6, b7, b8 end. split; [reflexivity|].
  cbn [map combine app] in M.
  match type of M with _ = ?c1 :: ?c2 :: ?c3 :: ?c4 :: ?c5 :: ?c6 :: ?c7 :: ?c8 :: ?rest =>
    pose proof (allocs_increase en md r0 g L [] _ _ [] _ _ (c3 :: c4 :: c5 :: c6 :: c7 :: c8 :: rest) 0 HS M);
    pose proof (allocs_increase en md r0 g L [c1] _ _ [] _ _ (c4 :: c5 :: c6 :: c7 :: c8 :: rest) 0 HS M);
    pose proof (allocs_increase en md r0 g L [c1; c2] _ _ [] _ _ (c5 :: c6 :: c7 :: c8 :: rest) 0 HS M);
    pose proof (allocs_increase en md r0 g L [c1; c2; c3] _ _ [] _ _ (c6 :: c7 :: c8 :: rest) 0 HS M);
    pose proof (allocs_increase en md r0 g L [c1; c2; c3; c4] _ _ [] _ _ (c7 :: c8 :: rest) 0 HS M);
    pose proof (allocs_increase en md r0 g L [c1; c2; c3; c4; c5] _ _ [] _ _ (c8 :: rest) 0 HS M);
    pose proof (allocs_increase en md r0 g L [c1; c2; c3; c4; c5; c6] _ _ [] _ _ rest 0 HS M) end.
  pose proof (session_r0 _ _ _ _ _ HS) as R0. clear HC HW HM HT HN ids. lia.
Qed.
Lemma g_allocated c s : allocated md r0 (ueffects g) c s -> s = SStr md \/ exists a, In (KAlloc s, a) main_calls /\ c = a + 100000003.
Proof.
  intros [(-> & _)|(a & I & R)]; [left; reflexivity|]. right. exists a. split; [|apply alloc_result_ok, R]. destruct (g_in _ _ I) as [M|(i & w & e & _ & A)]; [exact M|inversion A].
Qed.
Lemma g_sound c s : allocated md r0 (ueffects g) c s -> ~ faulty (c - 100000003) (enc s).
Proof.
  intros A (F0 & F1 & _). assert (STR : forall t, utf8 t -> znth 0 (enc (SStr t)) <> Some 254).
  { intros t U Q. cbn [enc] in Q. destruct t as [|b t]; [discriminate Q|]. cbn in Q. injection Q as ->. pose proof (F_Utf8.utf8_max _ 254 U (or_introl eq_refl)). lia. }
  destruct (g_allocated c s A) as [->|(a & I & ->)]; [apply (STR md); [apply HS|exact F0]|]. destruct (session_alloc _ _ _ _ _ HS _ _ A) as (OK & _).
  destruct g_addrs as (a1 & a2 & a3 & a4 & a5 & a6 & a7 & a8 & EA & O1 & O2 & O3 & O4 & _). unfold main_calls in I. rewrite EA in I. cbn [map combine app In] in I.
  repeat (destruct I as [I|I]; [first [discriminate I|injection I as <- <-; try (exfalso; apply (STR _ OK), F0)]|]); [|destruct I].
  replace (a7 + 100000003 - 100000003) with a7 in F1 by lia. apply znth_Some_lt in F1. unfold label_and_arg in F1. cbn [enc map concat enc_comp] in F1. repeat (rewrite zlen_app in F1 || rewrite zlen_cons in F1 || rewrite zlen_le_bytes in F1). change (zlen (@nil Z)) with 0 in F1. lia.
Qed.
Lemma g_reads id text : denotes (allocated md r0 (ueffects g)) (resolved r0 (ueffects g)) id text -> reads md r0 (ueffects g) id text.
Proof. intros D. split; [exact D|]. intros c s _ A. apply g_sound, A. Qed.
Lemma g_main_in x : In x main_calls -> In x (ueffects g).
Proof. intros I. apply (proj_in 0). rewrite g_main. exact I. Qed.
Lemma g_str t a c : In (KAlloc (SStr t), a) main_calls -> In (a, c) (combine addrs [generic; activity; query; with_arg; label; arg; event_id; some_query]) -> denotes (allocated md r0 (ueffects g)) (resolved r0 (ueffects g)) c t.
Proof.
  intros I J. apply d_str. right. exists a. split; [apply g_main_in, I|]. clear - HA J. induction HA; [destruct J|]. destruct J as [E|J]; [injection E as <- <-; assumption|auto].
Qed.
Lemma g_resolved : resolved r0 (ueffects g) 42 = Some some_query.
Proof.
  unfold resolved. change (42 =? 100000001) with false. cbv iota. apply last_same.
  - intros m I. apply in_flat_map in I. destruct I as ((k & x) & I & M). cbn [fst] in M. destruct (g_in _ _ I) as [J|(i & w & e & _ & A)]; [|inversion A; subst; destruct M].
    unfold main_calls in J. destruct g_addrs as (a1 & a2 & a3 & a4 & a5 & a6 & a7 & a8 & EA & _). rewrite EA in J. cbn [map combine app In] in J. repeat (destruct J as [J|J]; [injection J as <- <-; try (destruct M; fail)|]); [|destruct J]. destruct M as [M|[]]. congruence.
  - intros Q. assert (I : In (42, some_query) (mappings (ueffects g))); [|rewrite Q in I; exact I]. apply in_flat_map. exists (KMap 42 some_query, r). split; [apply g_main_in; unfold main_calls; apply in_app_iff; right; left; reflexivity|left; reflexivity].
Qed.
(** What the ids of the events read as. *)
Lemma g_texts j kind id t : znth j ids = Some (kind, id) -> znth j templates = Some t ->
  reads md r0 (ueffects g) kind (t_kind t) /\ reads md r0 (ueffects g) id (join (t_label t) (t_args t)) /\ good_text (t_label t) /\ Forall good_text (t_args t).
Proof.
  intros I T. pose proof g_str as ST. unfold main_calls in ST. destruct g_addrs as (a1 & a2 & a3 & a4 & a5 & a6 & a7 & a8 & EA & _). rewrite EA in ST. cbn [map combine app In] in ST.
  assert (good : forall s : string, str s <> [] -> Forall (fun c => 32 <= c < 127) (str s) -> good_text (str s)) by (intros; apply good_literal; assumption).
  unfold ids in I. destruct (znth3 _ _ _ _ _ I) as [(-> & E)|[(-> & E)|(-> & E)]]; injection E as -> ->; cbn [znth templates] in T; injection T as <-; cbn [t_kind t_label t_args].
  - split; [apply g_reads, (ST _ a1); auto 12|]. split; [apply g_reads; unfold join; cbn [flat_map]; rewrite app_nil_r; apply (ST _ a2); auto 12|]. split; [apply good; cbv; [discriminate|repeat constructor; discriminate]|constructor].
  - split; [apply g_reads, (ST _ a3); auto 12|]. split; [apply g_reads; unfold join; cbn [flat_map]; rewrite app_nil_r; apply (d_mapped _ _ 42 some_query); [lia|apply g_resolved|apply (ST _ a8); auto 12]|]. split; [apply good; cbv; [discriminate|repeat constructor; discriminate]|constructor].
  - split; [apply g_reads, (ST _ a4); auto 12|]. split; [|split; [apply good; cbv; [discriminate|repeat constructor; discriminate]|constructor; [apply good; cbv; [discriminate|repeat constructor; discriminate]|constructor]]].
    apply g_reads. apply (d_comps _ _ event_id [CRef label; CValue [SEPARATOR_BYTE]; CRef arg]).
    + right. exists a7. split; [apply g_main_in; unfold main_calls; rewrite EA; cbn [map combine app In]; auto 12|]. rewrite EA in HA. clear - HA. repeat match goal with H : Forall2 _ _ (_ :: _) |- _ => inversion H; clear H; subst end. assumption.
    + cbn [join flat_map]. apply da_ref; [apply (ST _ a5); auto 12|]. apply (da_value _ _ [SEPARATOR_BYTE]). apply da_ref; [apply (ST _ a6); auto 12|constructor].
Qed.
(** The events read. *)
Variable st : Z.
Definition seen (w : Z * Z * Z * want) : event := expect (named (fst (fst (fst w))) query generic) (snd (fst w)) (shown st (snd w)).
Definition events : list event := map seen (wants (map fst (ueffects g))).
Lemma g_seen i k e w : asked ids (Z.of_nat i) k e -> call_event k = Some w -> should_read md r0 (ueffects g) st w (seen w) /\ tid_of w = Z.of_nat i /\ as_expected (seen w) e.
Proof.
  intros A C. assert (N : generic <> query /\ generic <> with_arg /\ query <> with_arg). { destruct g_addrs as (a1 & a2 & a3 & a4 & a5 & a6 & a7 & a8 & _ & O1 & O2 & O3 & O4 & ? & ? & ? & ? & _). clear - O1 O2 O3 O4 H H0 H1 H2. lia. }
  destruct N as (N1 & N2 & N3). destruct A as [j kind id t v I T|j kind id t now I T|j kind id t s e I T]; cbn [call_event] in C; injection C as <-; destruct (g_texts j kind id t I T) as (R1 & R2 & G1 & G2); pose proof (named_ids _ _ _ _ _ _ _ _ _ N1 N2 N3 I T) as NM;
    (split; [|split; [reflexivity|]]); unfold seen; cbn [should_read fst snd shown expect ev_kind ev_label ev_args ev_payload ev_thread]; rewrite NM.
  - split; [exact R1|]. split; [eauto 6|]. auto.
  - split; [reflexivity|]. split; [reflexivity|]. split; [reflexivity|]. cbn. econstructor 1; reflexivity.
  - split; [exact R1|]. split; [eauto 6|]. auto.
  - split; [reflexivity|]. split; [reflexivity|]. split; [reflexivity|]. cbn. econstructor 3; reflexivity.
  - split; [exact R1|]. split; [eauto 6|]. auto.
  - split; [reflexivity|]. split; [reflexivity|]. split; [reflexivity|]. cbn. econstructor 2; reflexivity.
Qed.
Lemma g_main_silent k : In k (map fst main_calls) -> call_event k = None.
Proof.
  destruct g_addrs as (a1 & a2 & a3 & a4 & a5 & a6 & a7 & a8 & EA & _). unfold main_calls. rewrite EA. cbn [map combine app In fst]. intros I. repeat (destruct I as [<-|I]; [reflexivity|]). destruct I.
Qed.
Lemma g_want t w : In w (wants (calls_by t (uerase g))) -> exists i x, t = 1 + Z.of_nat i /\ nth_error works i = Some x /\ tid_of w = Z.of_nat i /\ should_read md r0 (ueffects g) st w (seen w).
Proof.
  intros I. apply in_wants in I. destruct I as (k & I & C). destruct (g_thread t k I) as [(_ & M)|(i & x & e & T & E & A)]; [rewrite (g_main_silent k M) in C; discriminate|]. destruct (g_seen i k e w A C) as (S1 & S2 & _). eauto 8.
Qed.
Lemma g_events_read : Forall2 (should_read md r0 (ueffects g) st) (recorded (ueffects g)) events.
Proof.
  rewrite recorded_wants. unfold events. assert (F : Forall (fun w => should_read md r0 (ueffects g) st w (seen w)) (wants (map fst (ueffects g)))).
  { apply Forall_forall. intros w I. apply in_wants in I. destruct I as (k & I & C). apply in_map_iff in I. destruct I as ((k' & x) & <- & I). cbn [fst] in C. destruct (proj_effects _ _ _ I) as (t & Ht). destruct (g_want t w) as (_ & _ & _ & _ & _ & S1); [|exact S1].
    apply in_wants. exists k'. split; [|exact C]. rewrite <- g_calls. apply (in_map fst) in Ht. exact Ht. }
  clear - F. induction F; constructor; assumption.
Qed.
Lemma filter_seen n : by_thread n events = map seen (filter (fun w => tid_of w =? n) (wants (map fst (ueffects g)))).
Proof. unfold events. generalize (wants (map fst (ueffects g))) as l. induction l as [|w l IH]; [reflexivity|]. cbn [map filter]. rewrite by_thread_cons. change (ev_thread (seen w)) with (tid_of w). destruct (tid_of w =? n); cbn [map]; rewrite IH; reflexivity. Qed.
Lemma filter_all {A} (f : A -> bool) l : (forall x, In x l -> f x = true) -> filter f l = l.
Proof. induction l as [|x l IH]; intros H; [reflexivity|]. cbn [filter]. rewrite (H x (or_introl eq_refl)), IH; [reflexivity|]. intros y I. apply H. right. exact I. Qed.
Lemma filter_nothing {A} (f : A -> bool) l : (forall x, In x l -> f x = false) -> filter f l = [].
Proof. induction l as [|x l IH]; intros H; [reflexivity|]. cbn [filter]. rewrite (H x (or_introl eq_refl)). apply IH. intros y I. apply H. right. exact I. Qed.
Lemma g_by_thread i w : nth_error works i = Some w -> Forall2 as_expected (by_thread (Z.of_nat i) events) (snd w).
Proof.
  intros E. rewrite filter_seen, (wants_proj g (1 + Z.of_nat i)).
  - rewrite g_calls. rewrite filter_all.
    + pose proof (g_asked i w E) as F. revert F. generalize (calls_by (1 + Z.of_nat i) (uerase g)) as ks. generalize (snd w) as es. intros es ks F. induction F as [|k e ks es A F IH]; [constructor|]. destruct (asked_thread _ _ _ _ A) as (_ & x & C & _). rewrite wants_cons, map_app. cbn [wants flat_map]. rewrite C. cbn [app map]. constructor; [exact (proj2 (proj2 (g_seen i k e x A C)))|exact IH].
    + intros x I. destruct (g_want _ _ I) as (j & y & T & _ & Q & _). apply Z.eqb_eq. lia.
  - intros x NX y I. rewrite g_calls in I. destruct (g_want _ _ I) as (j & z & T & _ & Q & _). lia.
Qed.
Lemma g_expected i w : nth_error works i = Some w -> forall e, In e (snd w) -> ev_thread e = Z.of_nat i.
Proof. intros E e I. pose proof (g_asked i w E) as F. clear - F I. induction F as [|k x ks es A F IH]; [destruct I|]. destruct I as [->|I]; [exact (proj1 (asked_thread _ _ _ _ A))|auto]. Qed.
Lemma by_thread_app t a b : by_thread t (a ++ b) = by_thread t a ++ by_thread t b.
Proof. apply filter_app. Qed.
Lemma concat_by_thread (ws : list work) t : forall off, (forall i w, nth_error ws i = Some w -> forall e, In e (snd w) -> ev_thread e = Z.of_nat (off + i)) ->
  by_thread t (concat (map snd ws)) = if (t <? Z.of_nat off) then [] else match nth_error ws (Z.to_nat (t - Z.of_nat off)) with Some w => snd w | None => [] end.
Proof.
  induction ws as [|w ws IH]; intros off H.
  - cbn [map concat]. destruct (t <? _); [reflexivity|]. destruct (Z.to_nat _); reflexivity.
  - cbn [map concat]. rewrite by_thread_app, (IH (S off)).
    + assert (HW0 : forall e, In e (snd w) -> ev_thread e = Z.of_nat off) by (intros e I; rewrite (H 0%nat w eq_refl e I), Nat.add_0_r; reflexivity). destruct (Z.ltb_spec t (Z.of_nat off)).
      * destruct (Z.ltb_spec t (Z.of_nat (S off))); [|lia]. rewrite app_nil_r. apply filter_nothing. intros e I. rewrite (HW0 e I). apply Z.eqb_neq. lia.
      * destruct (Z.eq_dec t (Z.of_nat off)) as [->|N].
        -- destruct (Z.ltb_spec (Z.of_nat off) (Z.of_nat (S off))); [|lia]. rewrite Z.sub_diag, app_nil_r. cbn [Z.to_nat nth_error]. apply filter_all. intros e I. rewrite (HW0 e I). apply Z.eqb_refl.
        -- destruct (Z.ltb_spec t (Z.of_nat (S off))); [lia|]. replace (Z.to_nat (t - Z.of_nat off)) with (S (Z.to_nat (t - Z.of_nat (S off)))) by lia. cbn [nth_error]. replace (by_thread t (snd w)) with (@nil event); [reflexivity|]. symmetry. apply filter_nothing. intros e I. rewrite (HW0 e I). apply Z.eqb_neq. lia.
    + intros i w' E e I. rewrite (H (S i) w' E e I). f_equal. lia.
Qed.
Lemma g_expected_by t : by_thread t (concat (map snd works)) = if t <? 0 then [] else match nth_error works (Z.to_nat t) with Some w => snd w | None => [] end.
Proof. rewrite (concat_by_thread works t 0); [rewrite Z.sub_0_r; reflexivity|]. intros i w E. exact (g_expected i w E). Qed.
Lemma g_agree t : Forall2 as_expected (by_thread t events) (by_thread t (concat (map snd works))).
Proof.
  rewrite g_expected_by. assert (NO : (t < 0 \/ nth_error works (Z.to_nat t) = None) -> by_thread t events = []).
  { intros H. rewrite filter_seen. rewrite filter_nothing; [reflexivity|]. intros w I. apply in_wants in I. destruct I as (k & I & C). apply in_map_iff in I. destruct I as ((k' & x) & <- & I). cbn [fst] in C. destruct (proj_effects _ _ _ I) as (t' & Ht). destruct (g_want t' w) as (i & y & _ & E & Q & _).
    - apply in_wants. exists k'. split; [|exact C]. rewrite <- g_calls. apply (in_map fst) in Ht. exact Ht.
    - apply Z.eqb_neq. rewrite Q. intros <-. rewrite Nat2Z.id in H. destruct H; [lia|congruence]. }
  destruct (Z.ltb_spec t 0); [rewrite NO by auto; constructor|]. destruct (nth_error works (Z.to_nat t)) as [w|] eqn:E; [|rewrite NO by auto; constructor]. pose proof (g_by_thread _ _ E) as F. rewrite Z2Nat.id in F by lia. exact F.
Qed.
Lemma g_keys t : by_thread t (concat (map snd works)) <> [] <-> ns <> 0%nat /\ In t (numbers nt).
Proof.
  rewrite g_expected_by. destruct g_works as (LN & W). unfold numbers. rewrite in_map_iff. destruct (Z.ltb_spec t 0).
  - split; [congruence|]. intros (_ & i & <- & _). lia.
  - destruct (nth_error works (Z.to_nat t)) as [w|] eqn:E.
    + destruct (W _ _ E) as (Hi & HWk). rewrite (worker_some _ _ _ _ _ HWk). split; [|tauto]. intros N. split; [exact N|]. exists (Z.to_nat t). split; [lia|]. apply in_seq. lia.
    + split; [congruence|]. intros (_ & i & <- & I). apply in_seq in I. apply nth_error_None in E. lia.
Qed.
End Generated.

(** ** The file *)
Lemma mapM_Forall2 {A B} (f : A -> res B) l : forall r, mapM f l = Ok r <-> Forall2 (fun a b => f a = Ok b) l r.
Proof.
  induction l as [|a l IH]; intros r; cbn [mapM]; [split; [intros E; apply Ok_inj in E; subst; constructor|intros F; inversion F; reflexivity]|]. split.
  - intros E. apply bind_ok in E. destruct E as (b & B1 & E). apply bind_ok in E. destruct E as (bs & B2 & E). apply Ok_inj in E. subst r. constructor; [exact B1|apply IH, B2].
  - intros F. inversion F as [|x b y bs H1 H2]; subst. rewrite H1. cbn [bind]. rewrite (proj2 (IH _) H2). reflexivity.
Qed.
Lemma Forall2_reversed {A B} (R : A -> B -> Prop) a b : Forall2 R a b -> Forall2 R (rev a) (rev b).
Proof. induction 1; [constructor|]. cbn [rev]. apply Forall2_app; auto. Qed.
Lemma session_both en md r0 K L (HS : session en md r0 K L) en' m es : zlen (recorded K) < 2 ^ 64 -> Forall2 (should_read md r0 K (md_start_time m)) (recorded K) es ->
  exists n, forall f, (n <= f)%nat -> let d := session_decoder K L m in let full := fun lw => decode_full_event f en' d (lw_index lw) in
    exists lws, iter_collect (decode_lightweight_event en' d) f (iter_new (zlen (recorded K))) = Ok lws /\ mapM full lws = Ok es /\
      iter_collect_back (decode_lightweight_event en' d) f (iter_new (zlen (recorded K))) = Ok (rev lws) /\ mapM full (rev lws) = Ok (rev es).
Proof.
  intros LT HF. destruct (session_iter_full en md r0 K L HS en' m es LT HF) as (n & Hn). exists (n + S (length (recorded K)))%nat. intros f Hf d full. specialize (Hn f ltac:(lia)). unfold iter_full in Hn. rewrite (session_num en md r0 K L HS m) in Hn. cbn [bind] in Hn.
  set (lws := map (fun p => mkLw (Z.of_nat (fst p)) (snd (fst (snd p))) (shown (md_start_time m) (snd (snd p)))) (combine (seq 0 (length (recorded K))) (recorded K))).
  assert (Hlw : length lws = length (recorded K)) by (unfold lws; rewrite map_length, combine_length, seq_length; lia).
  assert (Hz : zlen (recorded K) = zlen lws) by (unfold zlen; congruence).
  assert (Hnth : forall i a, nth_error lws i = Some a -> decode_lightweight_event en' d (Z.of_nat i) = Ok a).
  { intros i a Ha. unfold lws in Ha. rewrite nth_error_map in Ha. destruct (nth_error (combine _ _) i) as [[j w]|] eqn:Ec; [|discriminate Ha]. cbn [option_map fst snd] in Ha. injection Ha as <-. apply nth_combine in Ec. destruct Ec as [E1 E2].
    assert (Hi : (i < length (recorded K))%nat) by (apply nth_error_Some; congruence). apply (nth_error_nth _ _ 0%nat) in E1. rewrite seq_nth in E1 by auto. cbn in E1. subst j. apply (session_lw en md r0 K L HS en' m i w E2). }
  rewrite Hz in *. destruct (Prop_Format.C24_collect _ lws (decode_lightweight_event en' d) Hnth LT f) as (C1 & C2); [lia|]. fold d in Hn. rewrite C1 in Hn. cbn [bind] in Hn. exists lws. split; [exact C1|]. split; [exact Hn|]. split; [exact C2|]. apply mapM_Forall2, Forall2_reversed, mapM_Forall2, Hn.
Qed.
Lemma by_thread_rev t es : by_thread t (rev es) = rev (by_thread t es).
Proof. induction es as [|e es IH]; [reflexivity|]. cbn [rev]. rewrite by_thread_app, IH, by_thread_cons. cbn. destruct (ev_thread e =? t); cbn [rev]; [reflexivity|apply app_nil_r]. Qed.
(** The check of the crate passes, whatever the schedule, the clock and the number of threads. *)
Theorem C86_passes : forall en en' parse md m r0 c0 acts drops key_order oc num_stacks num_threads expected, utf8 md -> started md r0 c0 -> ucalls_ok acts ->
  let c := urun en acts (mkU c0 []) in
  all_idle (uc c) -> Forall is_drop drops -> (forall t, In (ODrop t) drops) -> parse md = Ok m ->
  generates oc num_stacks num_threads (uhist c) expected -> Z.of_nat num_threads <= 2 ^ 32 -> zlen expected < 2 ^ 64 ->
  yields_keys key_order -> same_order key_order (numbers num_threads) ->
  exists n, forall fuel, (n <= fuel)%nat -> process_profiling_data key_order parse fuel en' (file_of (disk (snd (run_ops drops (cmem (uc c)))))) expected = Ok tt.
Proof.
  intros en en' parse md m r0 c0 acts drops key_order oc ns nt expected Hmd Hst Hok c Hidle Hd Hall Hm G Hnt Hlen YK SO.
  destruct (concurrent_session en md r0 c0 acts drops Hmd Hst Hok Hidle Hd Hall) as (K & L & (g & Hh & HK & HT) & HS & Hsp). fold c in Hh, Hsp. rewrite <- Hh in G.
  destruct G as (addrs & generic & activity & query & with_arg & label & arg & event_id & some_query & r & works & HA & HM & HW & HC & HN & HE). rewrite <- HK in *. clear K HK.
  pose proof (g_events_read en md r0 g L HS HT oc ns nt addrs generic activity query with_arg label arg event_id some_query r works HA HM HW HC HN Hnt (md_start_time m)) as RD.
  pose proof (g_agree en md r0 g L HS HT oc ns nt addrs generic activity query with_arg label arg event_id some_query r works HA HM HW HC HN Hnt (md_start_time m)) as AG.
  pose proof (g_keys g oc ns nt generic activity query with_arg event_id works HW HC Hnt) as KY. rewrite <- HE in AG, KY. set (es := events g generic query (md_start_time m)) in *.
  assert (ORD : forall l, (forall t, by_thread t l <> [] <-> by_thread t expected <> []) -> same_order key_order (insertions [] l)).
  { intros l H. destruct (keys_of l) as (N & M). destruct ns as [|ns'].
    - assert (insertions [] l = []) as ->. { destruct (insertions [] l) as [|t ks] eqn:Q; [reflexivity|]. exfalso. assert (I : In t (t :: ks)) by (left; reflexivity). apply M, H, KY in I. destruct I as (I & _). apply I. reflexivity. } intros k P. apply Permutation_nil in P. subst. reflexivity.
    - assert (P : Permutation (numbers nt) (insertions [] l)). { apply NoDup_Permutation; [unfold numbers; apply FinFun.Injective_map_NoDup; [intros a b; lia|apply seq_NoDup]|exact N|]. intros t. rewrite M, H, KY. split; [intros I; split; [discriminate|exact I]|intros (_ & I); exact I]. }
      intros k Q. rewrite (SO k), (SO (insertions [] l)); [reflexivity|exact P|exact (Permutation_trans P Q)]. }
  assert (LEN : zlen es = zlen expected).
  { destruct (keys_of expected) as (N & M). rewrite <- (zsum_by_thread es (insertions [] expected)), <- (zsum_by_thread expected (insertions [] expected)); [|exact N|intros t B; apply M, B|exact N|intros t B; apply M; specialize (AG t); destruct AG; [contradiction|discriminate]].
    f_equal. apply map_ext. intros t. apply (Forall2_zlen _ _ _ (AG t)). }
  pose proof (Forall2_zlen _ _ _ RD) as RL.
  destruct (session_decoder_new en md r0 _ L HS parse m _ Hm Hsp) as (n1 & N1). destruct (session_both en md r0 _ L HS en' m es) as (n2 & N2); [lia|exact RD|].
  exists (n1 + n2)%nat. intros f Hf. unfold process_profiling_data. rewrite (N1 f) by lia. cbn [bind]. rewrite (session_num en md r0 _ L HS m). cbn [bind]. destruct (N2 f ltac:(lia)) as (lws & C1 & F1 & C2 & F2). unfold iter_size_hint. cbn [iter_new forward_idx backward_idx].
  destruct (Z.leb_spec 0 (zlen (recorded (ueffects g)))) as [_|Q]; [|pose proof (zlen_nonneg (recorded (ueffects g))); lia]. cbn [bind]. rewrite Z.sub_0_r, C1. cbn [bind]. rewrite F1. cbn [bind].
  rewrite (proj2 (check_iff key_order _ es expected YK (ORD expected (fun t => iff_refl _)))); [cbn [bind]|split; [rewrite RL, LEN; reflexivity|exact AG]]. rewrite C2. cbn [bind]. rewrite F2. cbn [bind].
  apply (check_iff key_order _ (rev es) (rev expected) YK).
  - apply ORD. intros t. rewrite by_thread_rev. split; intros B Q; apply B; [rewrite Q; reflexivity|]. apply (f_equal (@rev event)) in Q. rewrite rev_involutive in Q. exact Q.
  - unfold zlen in *. rewrite rev_length. split; [rewrite RL, LEN; reflexivity|]. intros t. rewrite !by_thread_rev. apply Forall2_reversed, AG.
Qed.
Print Assumptions C86_passes.

(** ** Nothing overflows *)
Lemma pick_some {A} ids (l : list A) r : zlen ids = 3 -> zlen l = 3 -> exists x, pick ids l r = Ok x /\ In x l.
Proof.
  intros L1 L2. unfold pick. rewrite L1. destruct (znth_lt_Some (r mod 3) l) as (x & E); [rewrite L2; apply Z.mod_pos_bound; lia|]. rewrite E. exists x. split; [reflexivity|apply (znth_In _ _ _ E)].
Qed.
Lemma mul_small oc a b : a * b < 2 ^ 64 -> usize_mul oc a b = Ok (a * b).
Proof. unfold usize_mul, U64. intros H. destruct (Z.ltb_spec (a * b) 18446744073709551616) as [_|Q]; [reflexivity|]. change (2 ^ 64) with 18446744073709551616 in H. lia. Qed.
Definition id_ok (e : Z * Z) : Prop := is_u64 (fst e) /\ is_u64 (snd e).
Section Possible.
Variable en : endian.
Definition op_good (x : gop * Z) : Prop :=
  match fst x with
  | GStart _ kind id tid | GStartDetached _ kind id tid => is_u64 kind /\ is_u64 id /\ is_u32 tid
  | GOverride _ id => is_u64 id
  | GCall k => accepted en k
  | _ => True
  end.
Definition guard_good (lo : Z) (g : guard) : Prop := match g with mkGuard kind id tid s => is_u64 kind /\ is_u64 id /\ is_u32 tid /\ 0 <= s <= lo end.
Lemma in_time_u64 t : in_time t -> is_u64 t.
Proof. unfold in_time, is_u64. change (2 ^ 48 - 3) with 281474976710653. change (2 ^ 64) with 18446744073709551616. lia. Qed.
Lemma interval_good kind id tid s e : is_u64 kind -> is_u64 id -> is_u32 tid -> 0 <= s <= e -> in_time e -> accepted en (KInterval kind id tid s e).
Proof.
  intros H1 H2 H3 H4 H5. unfold accepted. split.
  - cbn [call_ok]. pose proof (in_time_u64 e H5). pose proof (in_time_u64 s ltac:(unfold in_time in *; lia)). tauto.
  - cbn [call_op]. unfold new_interval. unfold in_time in H5. change (2 ^ 48 - 3) with MAX_INTERVAL_VALUE in H5. destruct (Z.leb_spec s e); [|lia]. destruct (Z.leb_spec e MAX_INTERVAL_VALUE); [|lia]. cbn [andb bind]. eexists. reflexivity.
Qed.
Lemma grun_good p : forall gs lo, (forall h g, gs h = Some g -> guard_good lo g) -> StronglySorted Z.le (map snd p) -> Forall (fun x => lo <= snd x /\ in_time (snd x)) p -> Forall op_good p -> Forall (accepted en) (grun gs p).
Proof.
  induction p as [|(o & now) p IH]; intros gs lo G S T O; [constructor|]. cbn [grun map snd] in *. inversion_clear S as [|x y S1 S2]. inversion_clear T as [|x y T1 T2]. inversion_clear O as [|x y O1 O2]. cbn [snd] in T1. destruct T1 as (T0 & T1).
  assert (G' : forall h g, gs h = Some g -> guard_good now g). { intros h [a b c d] E. specialize (G _ _ E). cbn [guard_good] in *. destruct G as (? & ? & ? & ?). repeat (split; [assumption|]). lia. }
  assert (T' : Forall (fun x => now <= snd x /\ in_time (snd x)) p). { rewrite Forall_map in S2. rewrite Forall_forall in *. intros x I. split; [exact (S2 x I)|exact (proj2 (T2 x I))]. }
  assert (ST : forall gs', (forall h g, gs' h = Some g -> guard_good now g) -> Forall (accepted en) (grun gs' p)) by (intros gs' H; exact (IH gs' now H S1 T' O2)).
  assert (UN : forall h v h' g, (if h' =? h then v else gs h') = Some g -> (v = Some g \/ gs h' = Some g)) by (intros h v h' g; destruct (h' =? h); auto).
  unfold op_good in O1. cbn [fst] in O1. pose proof (in_time_u64 _ T1) as U. unfold in_time in T1.
  destruct o as [h kind id tid|h kind id tid|h|h id|h|k]; cbn [gstep].
  - cbn [app]. apply ST. intros h' g E. apply UN in E. destruct E as [E|E]; [|exact (G' _ _ E)]. injection E as <-. cbn. destruct O1 as (? & ? & ?). repeat (split; [assumption|]). lia.
  - cbn [app]. apply ST. intros h' g E. apply UN in E. destruct E as [E|E]; [|exact (G' _ _ E)]. injection E as <-. cbn. destruct O1 as (? & ? & ?). repeat (split; [assumption|]). lia.
  - destruct (gs h) as [g|] eqn:E; [|exact (ST _ G')]. cbn [app]. constructor; [|apply ST; intros h' g' E'; apply UN in E'; destruct E' as [E'|E']; [discriminate E'|exact (G' _ _ E')]]. destruct g as [kind id tid s]. apply G' in E. destruct E as (? & ? & ? & ?). apply interval_good; auto.
  - destruct (gs h) as [g|] eqn:E; [|exact (ST _ G')]. cbn [app]. constructor; [|apply ST; intros h' g' E'; apply UN in E'; destruct E' as [E'|E']; [discriminate E'|exact (G' _ _ E')]]. destruct g as [kind id0 tid s]. apply G' in E. destruct E as (? & ? & ? & ?). apply interval_good; auto.
  - destruct (gs h) as [g|] eqn:E; [|exact (ST _ G')]. cbn [app]. constructor; [|apply ST; intros h' g' E'; apply UN in E'; destruct E' as [E'|E']; [discriminate E'|exact (G' _ _ E')]]. destruct g as [kind id tid s]. apply G' in E. destruct E as (? & ? & ? & ?). apply interval_good; auto.
  - cbn [app]. constructor; [exact O1|exact (ST _ G')].
Qed.
Definition fun_good (f : Z -> gop) : Prop := forall t, in_time t -> op_good (f t, t).
Lemma invocation_possible oc ids tid n : zlen ids = 3 -> forall random, 0 <= random -> random * 17 ^ Z.of_nat n * 231 < 17 * 2 ^ 48 ->
  exists w, pseudo_invocation oc ids tid random n = Ok w /\ zlen (snd w) = 3 * Z.of_nat n /\ zlen (fst w) = 4 * Z.of_nat n /\ (Forall id_ok ids -> is_u32 tid -> Forall fun_good (fst w)).
Proof.
  intros L. assert (LT : zlen templates = 3) by reflexivity. induction n as [|n IH]; intros random R0 RB; cbn [pseudo_invocation].
  - exists ([], []). cbn [fst snd]. split; [reflexivity|]. split; [reflexivity|]. split; [reflexivity|]. constructor.
  - rewrite Nat2Z.inj_succ, Z.pow_succ_r in RB by lia. assert (P : 1 <= 17 ^ Z.of_nat n) by (pose proof (Z.pow_pos_nonneg 17 (Z.of_nat n)); lia). assert (R1 : random * 231 <= random * 17 ^ Z.of_nat n * 231) by nia. replace (random * (17 * 17 ^ Z.of_nat n) * 231) with (17 * (random * 17 ^ Z.of_nat n * 231)) in RB by ring. assert (R2 : random * 231 < 2 ^ 48) by lia.
    change (2 ^ 48) with 281474976710656 in R2.
    destruct (pick_some ids ids random L L) as (e & -> & Ie). cbn [bind]. rewrite mul_small by (change (2 ^ 64) with 18446744073709551616; lia). cbn [bind]. unfold pseudo_integer_event. rewrite mul_small by (change (2 ^ 64) with 18446744073709551616; lia). cbn [bind].
    destruct (pick_some ids ids (random * 7) L L) as (e1 & -> & Ie1). destruct (pick_some ids templates (random * 7) L LT) as (t1 & -> & _). cbn [bind]. rewrite mul_small by (change (2 ^ 64) with 18446744073709551616; lia). cbn [bind].
    destruct (IH (random * 17)) as (w & -> & Z1 & Z2 & W); [lia|replace (random * 17 * 17 ^ Z.of_nat n * 231) with (17 * (random * 17 ^ Z.of_nat n * 231)) by ring; lia|]. cbn [bind]. rewrite mul_small by (change (2 ^ 64) with 18446744073709551616; lia). cbn [bind]. unfold pseudo_instant_event.
    destruct (pick_some ids ids (random * 23) L L) as (e2 & -> & Ie2). destruct (pick_some ids templates (random * 23) L LT) as (t2 & -> & _). destruct (pick_some ids templates random L LT) as (t & -> & _). cbn [bind].
    eexists. split; [reflexivity|]. cbn [fst snd]. split; [rewrite !zlen_app, !zlen_cons, !zlen_nil, Z1; lia|]. split; [rewrite !zlen_app, !zlen_cons, !zlen_nil, Z2; lia|]. intros HI HT. specialize (W HI HT). rewrite Forall_forall in HI.
    apply HI in Ie, Ie1, Ie2. destruct Ie as (? & ?), Ie1 as (? & ?), Ie2 as (? & ?). apply Forall_app. split; [constructor; [intros u Hu; cbn; auto|constructor]|]. apply Forall_app. split; [constructor; [intros u Hu; cbn|constructor]|].
    { split; [cbn [call_ok]; split; [assumption|]; split; [assumption|]; split; [assumption|]; unfold is_u64; change (2 ^ 64) with 18446744073709551616; lia|]. cbn [call_op]. unfold new_integer. destruct (Z.leb_spec (random * 7 * 33) MAX_SINGLE_VALUE); [|unfold MAX_SINGLE_VALUE in *; lia]. cbn [bind]. eexists. reflexivity. }
    apply Forall_app. split; [exact W|]. apply Forall_app. split; [constructor; [intros u Hu; cbn|constructor]|constructor; [intros u Hu; exact I|constructor]].
    { pose proof (in_time_u64 u Hu). split; [cbn [call_ok]; tauto|]. unfold in_time in Hu. change (2 ^ 48 - 3) with MAX_INTERVAL_VALUE in Hu. unfold MAX_INTERVAL_VALUE, INTEGER_MARKER, INSTANT_MARKER in Hu. cbn [call_op]. unfold new_instant. destruct (Z.leb_spec u MAX_SINGLE_VALUE); [|unfold MAX_SINGLE_VALUE in *; lia]. cbn [bind]. eexists. reflexivity. }
Qed.
Lemma stacks_possible oc ids tid (l : list nat) : zlen ids = 3 -> Forall (fun i => Z.of_nat i * 1134903 < 2 ^ 48) l ->
  exists ws, mapM (fun i => pseudo_invocation oc ids tid (Z.of_nat i) 4) l = Ok ws /\ zlen (concat (map snd ws)) = 12 * zlen l /\ zlen (concat (map fst ws)) = 16 * zlen l /\ (Forall id_ok ids -> is_u32 tid -> Forall fun_good (concat (map fst ws))).
Proof.
  intros L. induction l as [|i l IH]; intros F; cbn [mapM].
  - exists []. cbn [map concat]. rewrite !zlen_nil. split; [reflexivity|]. split; [reflexivity|]. split; [reflexivity|]. constructor.
  - inversion_clear F as [|x y F1 F2]. destruct (invocation_possible oc ids tid 4 L (Z.of_nat i)) as (w & -> & Z1 & Z2 & W); [lia|change (17 ^ Z.of_nat 4) with (17 * 4913); lia|]. cbn [bind]. destruct (IH F2) as (ws & -> & Z3 & Z4 & W2). cbn [bind].
    eexists. split; [reflexivity|]. cbn [map concat]. rewrite !zlen_app, zlen_cons, Z1, Z2, Z3, Z4. split; [lia|]. split; [lia|]. intros HI HT. apply Forall_app. split; auto.
Qed.
End Possible.
Lemma map_at_times a : forall ts, length ts = length a -> map snd (at_times a ts) = ts.
Proof. induction a as [|f a IH]; intros [|t ts] L; try discriminate L; [reflexivity|]. unfold at_times in *. cbn [combine map snd]. f_equal. apply IH. cbn in L. lia. Qed.
(** Nothing in the threads panics: with numbers that fit, no multiplication overflows, every stack gives sixteen operations and twelve expected
    events, and the profiler accepts every call that they make as long as the counter does not go backwards. *)
Theorem C86_possible : forall en oc ids tid n, zlen ids = 3 -> Forall id_ok ids -> is_u32 tid -> fits n ->
  exists w, worker oc ids tid n = Ok w /\ zlen (snd w) = 12 * Z.of_nat n /\ zlen (fst w) = 16 * Z.of_nat n /\
    forall ts, length ts = length (fst w) -> Sorted Z.le ts -> Forall in_time ts -> Forall (accepted en) (grun (fun _ => None) (at_times (fst w) ts)).
Proof.
  intros en oc ids tid n L HI HT F. unfold fits in F. destruct (stacks_possible en oc ids tid (seq 0 n) L) as (ws & E & Z1 & Z2 & G).
  - apply Forall_forall. intros i I. apply in_seq in I. lia.
  - unfold worker. rewrite E. cbn [bind]. eexists. split; [reflexivity|]. cbn [fst snd]. assert (Q : zlen (seq 0 n) = Z.of_nat n) by (unfold zlen; rewrite seq_length; reflexivity). rewrite Q in *. split; [exact Z1|]. split; [exact Z2|]. specialize (G HI HT).
    intros ts LT S T. apply (grun_good en _ _ 0); [intros h g X; discriminate X|rewrite map_at_times by exact LT; apply Sorted_StronglySorted; [exact Z.le_trans|exact S]| |].
    + rewrite <- (map_at_times _ _ LT) in T. rewrite Forall_map in T. rewrite Forall_forall in *. intros x I. specialize (T x I). cbv beta in T. split; [unfold in_time in T; lia|exact T].
    + apply Forall_forall. intros x I. unfold at_times in I. apply in_map_iff in I. destruct I as ((f & t) & <- & I). cbn [fst snd]. rewrite Forall_forall in G, T. apply (G f (in_combine_l _ _ _ _ I)), T, (in_combine_r _ _ _ _ I).
Qed.
Print Assumptions C86_possible.

(** ** A concrete case: two threads with two stacks each, calling at the same time *)
Definition ex_addrs : list Z := [16; 24; 44; 50; 63; 77; 86; 106].
Definition ex_id (a : Z) : Z := a + 100000003.
Definition ex_ids : list (Z * Z) := [(ex_id 16, ex_id 24); (ex_id 44, 42); (ex_id 50, ex_id 86)].
Definition ex_work (tid : Z) : work := match worker true ex_ids tid 2 with Ok w => w | _ => ([], []) end.
Definition ex_times : list Z := map (fun i => 10 * Z.of_nat i) (seq 0 32).
Definition ex_thread (tid : Z) : list call := grun (fun _ => None) (at_times (fst (ex_work tid)) ex_times).
Definition ex_main : list call :=
  map KAlloc [SStr (str "Generic"); SStr (str "SomeGenericActivity"); SStr (str "Query"); SStr (str "QueryWithArg");
              SStr (str "AQueryWithArg"); SStr (str "some_arg"); label_and_arg (ex_id 63) (ex_id 77); SStr (str "SomeQuery")] ++ [KMap 42 (ex_id 106)].
Definition ex_call (t : Z) (k : call) : list uact := UCall t k :: repeat (UTick t) 12.
Definition ex_both (p : call * call) : list uact := [UCall 1 (fst p); UCall 2 (snd p)] ++ concat (repeat [UTick 2; UTick 1] 12).
Definition ex_acts : list uact := flat_map (ex_call 0) (firstn 7 ex_main) ++ flat_map ex_both (combine (ex_thread 0) (ex_thread 1)) ++ flat_map (ex_call 0) (skipn 7 ex_main).
Definition ex_expected : list event := snd (ex_work 0) ++ snd (ex_work 1).
Fixpoint ins (x : Z) (l : list Z) : list Z := match l with [] => [x] | y :: l' => if x <=? y then x :: l else y :: ins x l' end.
Definition ex_order (l : list Z) : list Z := fold_right ins [] l.
Lemma ins_perm x l : Permutation (x :: l) (ins x l).
Proof. induction l as [|y l IH]; cbn [ins]; [reflexivity|]. destruct (x <=? y); [reflexivity|]. etransitivity; [apply perm_swap|]. constructor. exact IH. Qed.
Lemma ex_yields : yields_keys ex_order /\ same_order ex_order (numbers 2).
Proof.
  split.
  - intros l _. induction l as [|x l IH]; [constructor|]. cbn [ex_order fold_right]. etransitivity; [apply perm_skip, IH|]. apply ins_perm.
  - intros l P. apply Permutation_length_2_inv in P. destruct P as [->| ->]; reflexivity.
Qed.
Definition ex_final : uconf := urun LittleEndian ex_acts (mkU (start_conf Prop_Strings.ex_md) []).
Definition ex_file : bytes := file_of (disk (snd (run_ops [ODrop TEvents; ODrop TStrData; ODrop TStrIndex] (cmem (uc ex_final))))).
Lemma ex_work_ok tid : is_u32 tid -> worker true ex_ids tid 2 = Ok (ex_work tid) /\ length (fst (ex_work tid)) = 32%nat /\ Forall (accepted LittleEndian) (ex_thread tid).
Proof.
  intros HT. destruct (C86_possible LittleEndian true ex_ids tid 2) as (w & E & Z1 & Z2 & A); [reflexivity|unfold ex_ids, id_ok, ex_id, is_u64; cbn; repeat constructor; cbn; lia|exact HT|unfold fits; cbn; lia|].
  assert (Q : ex_work tid = w) by (unfold ex_work; rewrite E; reflexivity). unfold ex_thread. rewrite Q. split; [exact E|]. assert (LE : length (fst w) = 32%nat) by (unfold zlen in Z2; lia). split; [exact LE|]. apply A.
  - rewrite LE. reflexivity.
  - unfold ex_times. cbn. repeat constructor; lia.
  - unfold ex_times, in_time. cbn. repeat constructor; lia.
Qed.
Lemma ex_main_history : filter (fun e => uev_tid e =? 0) (uhist ex_final) = thread_history 0 (combine ex_main (ex_addrs ++ [24])).
Proof. vm_compute. reflexivity. Qed.
Lemma ex_calls_1 : calls_by 1 (uhist ex_final) = ex_thread 0.
Proof. vm_compute. reflexivity. Qed.
Lemma ex_calls_2 : calls_by 2 (uhist ex_final) = ex_thread 1.
Proof. vm_compute. reflexivity. Qed.
Lemma ex_tids : forallb (fun e => (0 <=? uev_tid e) && (uev_tid e <=? 2)) (uhist ex_final) = true.
Proof. vm_compute. reflexivity. Qed.
Lemma ex_zlen : zlen ex_expected = 48.
Proof. vm_compute. reflexivity. Qed.
Lemma no_calls t h : t < 0 \/ 2 < t -> forallb (fun e => (0 <=? uev_tid e) && (uev_tid e <=? 2)) h = true -> calls_by t h = [].
Proof.
  intros T. induction h as [|e h IH]; intros F; [reflexivity|]. cbn [forallb] in F. apply andb_true_iff in F. destruct F as (F1 & F2). apply andb_true_iff in F1. destruct F1 as (F1 & F3). apply Z.leb_le in F1, F3.
  destruct e as [t' k|t' r|t']; cbn [calls_by uev_tid] in *; [destruct (Z.eqb_spec t' t); [lia|]|..]; auto.
Qed.
Lemma ex_generates : generates true 2 2 (uhist ex_final) ex_expected.
Proof.
  exists ex_addrs, (ex_id 16), (ex_id 24), (ex_id 44), (ex_id 50), (ex_id 63), (ex_id 77), (ex_id 86), (ex_id 106), 24, [ex_work 0; ex_work 1].
  split; [repeat constructor|]. split; [rewrite ex_main_history; reflexivity|]. change [(ex_id 16, from_label (ex_id 24)); (ex_id 44, from_label 42); (ex_id 50, ex_id 86)] with ex_ids.
  split; [|split; [|split; [|cbn [map concat snd]; rewrite app_nil_r; reflexivity]]].
  - cbn [seq mapM]. change (Z.of_nat 0 mod 2 ^ 32) with 0. change (Z.of_nat 1 mod 2 ^ 32) with 1. rewrite (proj1 (ex_work_ok 0 ltac:(unfold is_u32; lia))), (proj1 (ex_work_ok 1 ltac:(unfold is_u32; lia))). reflexivity.
  - intros i w E. exists ex_times. destruct i as [|[|i]]; cbn [nth_error] in E; [injection E as <-; split; [symmetry; apply (ex_work_ok 0); unfold is_u32; lia|exact ex_calls_1]|injection E as <-; split; [symmetry; apply (ex_work_ok 1); unfold is_u32; lia|exact ex_calls_2]|destruct i; discriminate E].
  - intros t T. apply (no_calls t _ T). exact ex_tids.
Qed.
Lemma in_firstn_main x : In x (firstn 7 ex_main) -> In x ex_main.
Proof. intros I. rewrite <- (firstn_skipn 7 ex_main). apply in_app_iff. auto. Qed.
Lemma in_skipn_main x : In x (skipn 7 ex_main) -> In x ex_main.
Proof. intros I. rewrite <- (firstn_skipn 7 ex_main). apply in_app_iff. auto. Qed.
Lemma ex_calls_ok : ucalls_ok ex_acts.
Proof.
  assert (M : Forall call_ok ex_main). { unfold ex_main. apply Forall_app. split; [|repeat constructor; unfold is_u64, ex_id; lia]. cbn [map]. assert (U : forall s, Forall (fun c => 0 <= c < 128) s -> call_ok (KAlloc (SStr s))) by (intros s; cbn [call_ok sstring_ok]; apply F_Utf8.utf8_ascii_list).
    do 6 (constructor; [apply U; cbv; repeat constructor; discriminate|]). constructor; [|constructor; [apply U; cbv; repeat constructor; discriminate|constructor]]. cbn [call_ok sstring_ok label_and_arg]. constructor; [cbn; unfold is_u64, ex_id; lia|]. constructor; [apply F_Utf8.utf8_ascii_list; constructor; [unfold SEPARATOR_BYTE; lia|constructor]|]. constructor; [cbn; unfold is_u64, ex_id; lia|constructor]. }
  assert (T : forall tid, is_u32 tid -> Forall call_ok (ex_thread tid)). { intros tid HT. destruct (ex_work_ok tid HT) as (_ & _ & F). apply (Forall_impl _ (P := accepted LittleEndian)); [|exact F]. intros k (A & _). exact A. }
  assert (R : forall t n x k, ~ In (UCall x k) (repeat (UTick t) n)) by (intros t n x k I; apply repeat_spec in I; discriminate I).
  assert (C : forall x t k c, In (UCall t k) (ex_call x c) -> k = c) by (intros x t k c [E|E]; [injection E as _ <-; reflexivity|exfalso; apply (R _ _ _ _ E)]).
  assert (B : forall t k p, In (UCall t k) (ex_both p) -> k = fst p \/ k = snd p).
  { intros t k p I. apply in_app_iff in I. destruct I as [[E|[E|[]]]|E]; [injection E as _ <-; auto|injection E as _ <-; auto|]. apply in_concat in E. destruct E as (y & Y & E). apply repeat_spec in Y. subst y. destruct E as [E|[E|[]]]; discriminate E. }
  rewrite Forall_forall in M. intros t k I. unfold ex_acts in I. rewrite !in_app_iff in I. destruct I as [I|[I|I]]; apply in_flat_map in I; destruct I as (x & X & I).
  - apply C in I. subst k. apply M. apply in_firstn_main in X. exact X.
  - apply B in I. destruct x as (a & b). cbn [fst snd] in I. assert (I0 : is_u32 0) by (unfold is_u32; lia). assert (I1 : is_u32 1) by (unfold is_u32; lia). pose proof (T 0 I0) as T0. pose proof (T 1 I1) as T1. rewrite Forall_forall in T0, T1. destruct I as [->| ->]; [apply T0, (in_combine_l _ _ _ _ X)|apply T1, (in_combine_r _ _ _ _ X)].
  - apply C in I. subst k. apply M. apply in_skipn_main in X. exact X.
Qed.
Lemma ex_idle : all_idle (uc ex_final).
Proof.
  intros tid. destruct (Z.eq_dec tid 0) as [->|N0]; [vm_compute; reflexivity|]. destruct (Z.eq_dec tid 1) as [->|N1]; [vm_compute; reflexivity|]. destruct (Z.eq_dec tid 2) as [->|N2]; [vm_compute; reflexivity|].
  unfold ex_final. apply u_idle_others.
  - assert (B : forall x k l, In (UCall x k) (flat_map (ex_call 0) l) -> x = 0). { intros x k l I. apply in_flat_map in I. destruct I as (c & _ & [E|E]); [injection E as <-; reflexivity|apply repeat_spec in E; discriminate E]. }
    intros x k I. unfold ex_acts in I. rewrite !in_app_iff in I. destruct I as [I|[I|I]]; [apply B in I; congruence| |apply B in I; congruence]. apply in_flat_map in I. destruct I as (c & _ & I). apply in_app_iff in I.
    destruct I as [[E|[E|[]]]|E]; [injection E as <-; congruence|injection E as <-; congruence|]. apply in_concat in E. destruct E as (y & Y & E). apply repeat_spec in Y. subst y. destruct E as [E|[E|[]]]; discriminate E.
  - destruct ex_started as (acts & t0 & H & o2 & r2 & _ & HI & _). exact (HI tid).
Qed.
(** The case meets the hypotheses of [C86_passes]; here the check passes, fails if anything is different from what was recorded, and the counts are those of the test suite:
    twelve events per stack. *)
Example ex_C86 :
  let parse := fun _ => Ok (mkMd 1000 1 []) in
  utf8 Prop_Strings.ex_md /\ started Prop_Strings.ex_md 8 (start_conf Prop_Strings.ex_md) /\ ucalls_ok ex_acts /\ all_idle (uc ex_final) /\
  generates true 2 2 (uhist ex_final) ex_expected /\ yields_keys ex_order /\ same_order ex_order (numbers 2) /\ zlen ex_expected = 48 /\
  process_profiling_data ex_order parse 100 BigEndian ex_file ex_expected = Ok tt /\
  process_profiling_data ex_order parse 100 BigEndian ex_file (firstn 47 ex_expected) = Panic /\
  process_profiling_data ex_order parse 100 BigEndian ex_file (skipn 1 ex_expected ++ firstn 1 ex_expected) = Panic /\
  process_profiling_data ex_order parse 100 BigEndian ex_file (map (fun e => mkEv (ev_kind e) (ev_label e) (ev_args e) (match ev_payload e with Integer v => Integer (v + 1) | p => p end) (ev_thread e)) ex_expected) = Panic /\
  process_profiling_data ex_order parse 100 BigEndian ex_file (skipn 24 ex_expected ++ firstn 24 ex_expected) = Ok tt.
Proof.
  split; [apply F_Utf8.utf8_ascii_list; cbn; repeat constructor; lia|]. split; [exact ex_started|]. split; [exact ex_calls_ok|]. split; [exact ex_idle|]. split; [exact ex_generates|]. split; [apply ex_yields|]. split; [apply ex_yields|]. split; [exact ex_zlen|].
  split; [vm_compute; reflexivity|]. split; [vm_compute; reflexivity|]. split; [vm_compute; reflexivity|]. split; [vm_compute; reflexivity|]. vm_compute. reflexivity.
Qed.
