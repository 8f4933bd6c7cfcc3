(** C88: reading back what mmview prints.  Model M_Tools.v, specification S_Tools.v (what is printed) and S_View.v. *)
From Coq Require Import String ZArith List Lia Bool.
From Verif Require Import M_Utf8 S_Utf8 Prop_Needed Prop_EventId M_Base F_Base M_Raw M_V8 M_Map M_Crox S_Crox M_Tools S_Tools Prop_Tools M_Folded S_Folded Prop_Folded M_StrTable M_EventId S_EventId F_EventId M_Session S_View.
Import ListNotations.
Open Scope Z_scope.
Open Scope list_scope.

Lemma numeral_no c d n : numeral d n -> ~ 48 <= c <= 57 -> ~ In c d.
Proof. intros (F & _) Hc Hin. rewrite Forall_forall in F. apply Hc, F, Hin. Qed.
Lemma numeral_value d n n' : numeral d n -> numeral d n' -> n = n'.
Proof. intros (_ & E & _) (_ & E' & _). congruence. Qed.
Lemma numeral_some d n : numeral d n -> 0 <= n -> d <> [].
Proof. intros (_ & _ & A & B) Hn. destruct (Z.eq_dec n 0) as [->|Hz]; [rewrite A by reflexivity; discriminate|]. destruct B as (c & t & -> & _); [lia|discriminate]. Qed.

Lemma payload_no_lf t0 p txt : shown_payload t0 p txt -> ~ In 10 txt.
Proof.
  intros H Hin. assert (A : forall x, ~ In 10 x -> ~ In 10 (x ++ str " μs")) by (intros x Hx H'; apply in_app_or in H'; destruct H' as [H'|H']; [auto|cbv in H'; intuition discriminate]).
  destruct p as [[s e|t]|i]; cbn [shown_payload] in H.
  - destruct H as (ds & de & N1 & N2 & ->). rewrite !app_assoc in Hin. revert Hin. apply A. intros Hin. apply in_app_or in Hin.
    destruct Hin as [Hin|Hin]; [|eapply numeral_no; [exact N2| |exact Hin]; lia]. apply in_app_or in Hin. destruct Hin as [Hin|Hin]; [eapply numeral_no; [exact N1| |exact Hin]; lia|cbv in Hin; intuition discriminate].
  - destruct H as (d & N & ->). revert Hin. apply A. eapply numeral_no; [exact N|lia].
  - eapply numeral_no; [exact H| |exact Hin]. lia.
Qed.

Lemma payload_read t0 t0' e e' txt : shown_payload t0 (ev_payload e) txt -> shown_payload t0' (ev_payload e') txt ->
  match ev_payload e, ev_payload e' with
  | Timestamp (Instant t), Timestamp (Instant t') => (t - t0) / 1000 = (t' - t0') / 1000
  | Timestamp (Interval a b), Timestamp (Interval a' b') => (a - t0) / 1000 = (a' - t0') / 1000 /\ Z.max 0 (b - t0) / 1000 = Z.max 0 (b' - t0') / 1000
  | Integer i, Integer i' => i = i'
  | _, _ => False
  end.
Proof.
  assert (N32 : forall d n, numeral d n -> ~ In 32 d) by (intros d n Hd; eapply numeral_no; [exact Hd|lia]).
  assert (E1 : forall d, d ++ str " μs" = d ++ 32 :: str "μs") by reflexivity.
  assert (E2 : forall d x, d ++ str " μs - " ++ x ++ str " μs" = d ++ 32 :: (str "μs - " ++ x ++ 32 :: str "μs")) by reflexivity.
  assert (NI : forall d n x, numeral d n -> d = x ++ str " μs" -> False).
  { intros d n x Hd E. apply (N32 _ _ Hd). rewrite E. apply in_or_app. right. cbv. auto. }
  assert (D : forall x : bytes, str "μs" = str "μs - " ++ x -> False) by (intros x E; cbv in E; discriminate E).
  intros H H'. destruct (ev_payload e) as [[s f|t]|i], (ev_payload e') as [[s' f'|t']|i']; cbn [shown_payload] in H, H'.
  - destruct H as (ds & de & N1 & N2 & ->), H' as (ds' & de' & N1' & N2' & E). rewrite !E2 in E. apply split_unique in E; eauto.
    destruct E as (<- & E). apply app_inv_head in E. apply split_unique in E; eauto. destruct E as (<- & _). split; eapply numeral_value; eauto.
  - destruct H as (ds & de & N1 & N2 & ->), H' as (d & N & E). rewrite E1, E2 in E. apply split_unique in E; eauto. destruct E as (_ & E). symmetry in E. eapply D; eauto.
  - destruct H as (ds & de & N1 & N2 & ->). exfalso. eapply (NI _ _ (ds ++ str " μs - " ++ de) H'). rewrite <- !app_assoc. reflexivity.
  - destruct H as (d & N & ->), H' as (ds & de & N1 & N2 & E). rewrite E1, E2 in E. apply split_unique in E; eauto. destruct E as (_ & E). eapply D; eauto.
  - destruct H as (d & N & ->), H' as (d' & N' & E). apply app_inv_tail in E. subst d'. eapply numeral_value; eauto.
  - destruct H as (d & N & ->). exfalso. exact (NI _ _ d H' eq_refl).
  - destruct H' as (ds & de & N1 & N2 & E). exfalso. eapply (NI _ _ (ds ++ str " μs - " ++ de) H). rewrite <- !app_assoc. exact E.
  - destruct H' as (d & N & E). exfalso. exact (NI _ _ d H E).
  - eapply numeral_value; eauto.
Qed.

Lemma comma_no c l txt : comma_separated l txt -> Forall (fun a => ~ In c a) l -> c <> 44 -> ~ In c txt.
Proof.
  revert txt. induction l as [|x l IH]; intros txt H F Hc; [cbn in H; subst; auto|]. inversion F as [|? ? Hx F']; subst. destruct l as [|y l]; [cbn in H; subst; exact Hx|].
  destruct H as (t & Ht & ->). change (str "," ++ t) with (44 :: t). intros Hin. apply in_app_or in Hin. destruct Hin as [Hin|[Hin|Hin]]; [auto|destruct (Hc (eq_sym Hin))|]. eapply IH; eauto.
Qed.
Lemma comma_fun l a b : comma_separated l a -> comma_separated l b -> a = b.
Proof.
  revert a b. induction l as [|x l IH]; intros a b Ha Hb; [cbn in *; congruence|]. destruct l as [|y l]; [cbn in *; congruence|].
  destruct Ha as (t & Ha & ->), Hb as (t' & Hb & ->). rewrite (IH _ _ Ha Hb). reflexivity.
Qed.
Lemma comma_cons x l txt : comma_separated (x :: l) txt -> l = [] /\ txt = x \/ exists t, l <> [] /\ comma_separated l t /\ txt = x ++ 44 :: t.
Proof. destruct l as [|y l]; [left; auto|]. intros (t & Ht & ->). right. exists t. split; [discriminate|]. split; [exact Ht|reflexivity]. Qed.
Lemma comma_read l : forall l' txt, comma_separated l txt -> comma_separated l' txt -> Forall (fun a => a <> [] /\ ~ In 44 a) l -> Forall (fun a => a <> [] /\ ~ In 44 a) l' -> l = l'.
Proof.
  assert (NE : forall x k, comma_separated (x :: k) [] -> x = []) by (intros x k H; apply comma_cons in H; destruct H as [(_ & H)|(t & _ & _ & H)]; [congruence|destruct x; discriminate H]).
  induction l as [|x l IH]; intros l' txt H H' F F'.
  - destruct l' as [|y l']; [reflexivity|]. cbn in H. subst txt. inversion F' as [|? ? (Hy & _) _]; subst. apply NE in H'. congruence.
  - inversion F as [|? ? (Hx & Hx') F1]; subst. destruct l' as [|y l']; [cbn in H'; subst txt; apply NE in H; congruence|]. inversion F' as [|? ? (Hy & Hy') F1']; subst.
    apply comma_cons in H, H'. destruct H as [(-> & ->)|(t & Hl & Ht & ->)], H' as [(-> & E)|(t' & Hl' & Ht' & E)].
    + subst. reflexivity.
    + exfalso. apply Hx'. rewrite E. apply in_or_app. right. left. reflexivity.
    + exfalso. apply Hy'. rewrite <- E. apply in_or_app. right. left. reflexivity.
    + apply split_unique in E; auto. destruct E as (<- & <-). f_equal. eapply IH; eauto.
Qed.

(** The lines of the text of one event. *)
Lemma shown_lines t0 e txt : shown t0 e txt -> one_line e ->
  exists ls, txt = lines ls /\ Forall (fun l => ~ In 10 l) ls /\ List.length ls = 7%nat /\ shown t0 e (lines ls).
Proof.
  intros Hs (Hk & Hl & Ha). pose proof Hs as (args & pay & thr & C & P & T & ->).
  eexists. split; [reflexivity|]. split; [|split; [reflexivity|exact Hs]].
  assert (A : forall a b, ~ In 10 a -> ~ In 10 b -> ~ In 10 (a ++ b)) by (intros a b X Y Z; apply in_app_or in Z; tauto).
  assert (L : forall s, forallb (fun c => negb (c =? 10)) (str s) = true -> ~ In 10 (str s)).
  { intros s E Hin. rewrite forallb_forall in E. specialize (E _ Hin). discriminate E. }
  pose proof (payload_no_lf _ _ _ P). assert (~ In 10 args) by (eapply comma_no; eauto; lia). assert (~ In 10 thr) by (eapply numeral_no; [exact T|lia]).
  repeat (apply Forall_cons || apply Forall_nil); repeat apply A; try assumption; apply L; reflexivity.
Qed.

Lemma shown_read t0 t0' e e' txt : shown t0 e txt -> shown t0' e' txt -> one_line e -> one_line e' ->
  looks_alike t0 t0' e e' /\ (forall x, comma_separated (ev_args e) x <-> comma_separated (ev_args e') x) /\ (plain_args e -> plain_args e' -> ev_args e = ev_args e').
Proof.
  intros H H' O O'. destruct H as (args & pay & thr & C & P & T & E), H' as (args' & pay' & thr' & C' & P' & T' & E').
  destruct O as (Ok & Ol & Oa), O' as (Ok' & Ol' & Oa').
  assert (A : forall a b, ~ In 10 a -> ~ In 10 b -> ~ In 10 (a ++ b)) by (intros a b X Y Z; apply in_app_or in Z; tauto).
  assert (L : forall s, forallb (fun c => negb (c =? 10)) (str s) = true -> ~ In 10 (str s)).
  { intros s Es Hin. rewrite forallb_forall in Es. specialize (Es _ Hin). discriminate Es. }
  pose proof (payload_no_lf _ _ _ P). pose proof (payload_no_lf _ _ _ P').
  assert (~ In 10 args) by (eapply comma_no; eauto; lia). assert (~ In 10 args') by (eapply comma_no; eauto; lia).
  assert (~ In 10 thr) by (eapply numeral_no; [exact T|lia]). assert (~ In 10 thr') by (eapply numeral_no; [exact T'|lia]).
  rewrite E' in E. apply lines_unique in E.
  2-3: repeat (apply Forall_cons || apply Forall_nil); repeat apply A; try assumption; apply L; reflexivity.
  injection E as Ek El Ea Ep Et. apply app_inv_tail in Ek, El, Ea, Ep, Et. subst args' pay' thr'.
  split; [|split].
  - split; [congruence|]. split; [congruence|]. split; [eapply numeral_value; eauto|]. eapply payload_read; eauto.
  - intros x. split; intros Hx; [rewrite (comma_fun _ _ _ Hx C); exact C'|rewrite (comma_fun _ _ _ Hx C'); exact C].
  - intros F F'. eapply comma_read; eauto.
Qed.

Lemma texts_read t0 t0' : forall es txts, Forall2 (shown t0) es txts -> forall es' txts', Forall2 (shown t0') es' txts' ->
  Forall one_line es -> Forall one_line es' -> concat txts = concat txts' ->
  Forall2 (fun e e' => looks_alike t0 t0' e e' /\ (forall x, comma_separated (ev_args e) x <-> comma_separated (ev_args e') x) /\ (plain_args e -> plain_args e' -> ev_args e = ev_args e')) es es'.
Proof.
  assert (NE : forall t e txt, shown t e txt -> txt <> []) by (intros t e txt (a & p & th & _ & _ & _ & ->); discriminate).
  assert (LL : forall ls more, lines ls ++ lines more = lines (ls ++ more)) by (intros; unfold lines; rewrite map_app, concat_app; reflexivity).
  assert (AL : forall t es txts, Forall2 (shown t) es txts -> Forall one_line es -> exists ls, concat txts = lines ls /\ Forall (fun l => ~ In 10 l) ls).
  { intros t es txts H. induction H as [|e txt es txts H _ IH]; intros F; [exists []; split; [reflexivity|constructor]|]. inversion F as [|? ? Fe F']; subst.
    destruct (shown_lines _ _ _ H Fe) as (ls & -> & Hn & _). destruct (IH F') as (ls' & E & Hn'). exists (ls ++ ls'). cbn [concat]. rewrite E, LL. split; [reflexivity|apply Forall_app; auto]. }
  intros es txts H. induction H as [|e txt es txts H HF IH]; intros es' txts' H' F F' E.
  - destruct H' as [|e' txt' es' txts' H' _]; [constructor|]. cbn [concat] in E. symmetry in E. apply app_eq_nil in E. destruct E as [E _]. destruct (NE _ _ _ H' E).
  - destruct H' as [|e' txt' es' txts' H' HF']; [cbn [concat] in E; apply app_eq_nil in E; destruct E as [E _]; destruct (NE _ _ _ H E)|].
    inversion F as [|? ? Fe F1]; inversion F' as [|? ? Fe' F1']; subst.
    destruct (shown_lines _ _ _ H Fe) as (ls & -> & Hn & Hl & _). destruct (shown_lines _ _ _ H' Fe') as (ls' & -> & Hn' & Hl' & _).
    destruct (AL _ _ _ HF F1) as (m & Em & Hm). destruct (AL _ _ _ HF' F1') as (m' & Em' & Hm').
    assert (EE : ls ++ m = ls' ++ m').
    { cbn [concat] in E. rewrite Em, Em', !LL in E. apply lines_unique in E; [exact E|apply Forall_app; auto|apply Forall_app; auto]. }
    assert (G : ls = ls' /\ m = m').
    { clear - EE Hl Hl'. rewrite <- Hl' in Hl. clear Hl'. revert ls' Hl EE. induction ls as [|x ls IH]; intros [|x' ls'] Hl EE; try discriminate; [auto|].
      cbn [app] in EE. injection EE as -> EE. cbn [List.length] in Hl. destruct (IH ls') as (-> & ->); [lia|exact EE|auto]. }
    destruct G as (<- & <-). constructor; [eapply shown_read; eauto|]. apply IH with (txts' := txts'); auto. congruence.
Qed.

(** If no text contains a line feed, what mmview prints determines for every event that is shown its
    kind, label and thread, the sort of its payload and the numbers in it, and the line of its
    arguments; and the arguments themselves if none contains a comma. *)
Theorem C88_read_back : forall thread_id thread_id' evs evs' t0 t0' text, earliest_start evs t0 -> earliest_start evs' t0' ->
  Forall event_sane evs -> Forall event_sane evs' -> Forall one_line evs -> Forall one_line evs' ->
  mmview_main thread_id evs = Printed text -> mmview_main thread_id' evs' = Printed text ->
  Forall2 (fun e e' => looks_alike t0 t0' e e' /\ (forall x, comma_separated (ev_args e) x <-> comma_separated (ev_args e') x) /\
      (plain_args e -> plain_args e' -> ev_args e = ev_args e'))
    (filter (wanted thread_id) evs) (filter (wanted thread_id') evs').
Proof.
  intros th th' evs evs' t0 t0' text HE HE' Hs Hs' Ho Ho' H H'.
  destruct (C38_prints th evs t0 HE Hs) as (txts & P & F). destruct (C38_prints th' evs' t0' HE' Hs') as (txts' & P' & F').
  assert (E : concat txts = concat txts') by congruence.
  assert (Ff : forall t l, Forall one_line l -> Forall one_line (filter (wanted t) l)).
  { intros t l Hl. rewrite Forall_forall in *. intros x Hx. apply filter_In in Hx. apply Hl, Hx. }
  eapply texts_read; eauto.
Qed.
Print Assumptions C88_read_back.

(** Every event read from a file has a label and arguments in the sense of the event id grammar: none
    is empty, and the only control characters in them are white space -- which includes line feeds. *)
Theorem C88_recorded_args : forall fuel en d i e, bytes_ok (string_data (stringtable d)) -> decode_full_event fuel en d i = Ok e ->
  good_text (ev_label e) /\ Forall good_text (ev_args e).
Proof.
  intros fuel en d i e B H. unfold decode_full_event in H. destruct (raw_at en d i) as [r| | |]; cbn [bind] in H; try discriminate.
  destruct (payload_from_raw_event r _) as [py| | |]; cbn [bind] in H; try discriminate.
  destruct (to_string _ _ (event_id r)) as [id| | |] eqn:E1; cbn [bind] in H; try discriminate. apply (to_string_utf8 _ B) in E1.
  destruct (parse_event_id id) as [(l, a)| | |] eqn:E2; cbn [bind] in H; try discriminate.
  destruct (to_string _ _ (event_kind r)) as [k| | |] eqn:E3; cbn [bind] in H; try discriminate. injection H as <-. cbn [ev_label ev_args fst snd].
  destruct (C20_total id E1) as (l' & a' & E & t0 & ts & _ & _ & _ & C). rewrite E2 in E. injection E as <- <-.
  destruct C as [(_ & -> & ->)|(G & -> & F & _)]; [|auto]. split; [|constructor]. split; [discriminate|].
  intros b Hb. vm_compute in Hb. unfold control, rust_space. intuition lia.
Qed.
Print Assumptions C88_recorded_args.

(** The arguments "a,b" and the two arguments "a" and "b" are printed alike. *)
Theorem C88_comma_refuted : exists e e', Forall good_text (ev_args e) /\ Forall good_text (ev_args e') /\ one_line e /\ one_line e' /\
  ev_args e <> ev_args e' /\ exists text, mmview_main None [e] = Printed text /\ mmview_main None [e'] = Printed text.
Proof.
  exists (mkEv (str "k") (str "l") [str "a,b"] (Timestamp (Instant 5)) 0), (mkEv (str "k") (str "l") [str "a"; str "b"] (Timestamp (Instant 5)) 0).
  assert (N : forall s c, forallb (fun x => negb (x =? c)) (str s) = true -> ~ In c (str s)).
  { intros s c E Hin. rewrite forallb_forall in E. specialize (E _ Hin). apply negb_true_iff, Z.eqb_neq in E. congruence. }
  assert (G : forall s, str s <> [] -> forallb (fun x => (31 <? x) && (x <? 127)) (str s) = true -> good_text (str s)).
  { intros s Hn E. split; [exact Hn|]. intros b Hb C. rewrite forallb_forall in E. specialize (E _ Hb). unfold control in C. lia. }
  cbn [ev_args]. split; [constructor; [apply G; [discriminate|reflexivity]|constructor]|]. split; [repeat (constructor; [apply G; [discriminate|reflexivity]|]); constructor|].
  split; [split; [apply N; reflexivity|split; [apply N; reflexivity|repeat (constructor; [apply N; reflexivity|]); constructor]]|].
  split; [split; [apply N; reflexivity|split; [apply N; reflexivity|repeat (constructor; [apply N; reflexivity|]); constructor]]|].
  split; [discriminate|]. eexists. split; vm_compute; reflexivity.
Qed.
Print Assumptions C88_comma_refuted.

(** A label with line feeds, which the grammar allows, makes one event print as two. *)
Theorem C88_lines_refuted : exists e e1 e2, good_text (ev_label e) /\ good_text (ev_label e1) /\ good_text (ev_label e2) /\ utf8_valid (ev_label e) = true /\
  ev_args e = [] /\ ev_args e1 = [] /\ ev_args e2 = [] /\ exists text, mmview_main None [e] = Printed text /\ mmview_main None [e1; e2] = Printed text.
Proof.
  set (forged := str "a," ++ [10] ++ str "    additional_data: []," ++ [10] ++ str "    payload: 0 μs," ++ [10] ++ str "    thread_id: 7," ++ [10] ++ str "}" ++ [10] ++
                 str "{" ++ [10] ++ str "    kind: k," ++ [10] ++ str "    label: b").
  exists (mkEv (str "k") forged [] (Timestamp (Instant 5)) 7), (mkEv (str "k") (str "a") [] (Timestamp (Instant 5)) 7), (mkEv (str "k") (str "b") [] (Timestamp (Instant 5)) 7).
  cbn [ev_label ev_args].
  assert (G : forall s : bytes, s <> [] -> forallb (fun x => (31 <? x) && negb (x =? 127) || (x =? 10)) s = true -> good_text s).
  { intros s Hn E. split; [exact Hn|]. intros b Hb C. rewrite forallb_forall in E. specialize (E _ Hb). unfold control, rust_space in *. lia. }
  split; [apply G; [discriminate|reflexivity]|]. split; [apply G; [discriminate|reflexivity]|]. split; [apply G; [discriminate|reflexivity]|]. split; [vm_compute; reflexivity|].
  split; [reflexivity|]. split; [reflexivity|]. split; [reflexivity|]. eexists. split; vm_compute; reflexivity.
Qed.
Print Assumptions C88_lines_refuted.

(** The hypotheses of [C88_read_back] for a profile with three kinds of payload. *)
Example ex_C88 : let evs := [mkEv (str "k") (str "l") [str "a"; str "b"] (Timestamp (Interval 3000 8000)) 0;
    mkEv (str "k2") (str "m") [] (Timestamp (Instant 5500)) 1; mkEv (str "k") (str "n") [str "c"] (Integer 77) 1] in
  earliest_start evs 3000 /\ Forall event_sane evs /\ Forall one_line evs /\ Forall plain_args evs /\ exists text, mmview_main (Some 1) evs = Printed text.
Proof.
  cbv zeta. assert (N : forall s c, forallb (fun x => negb (x =? c)) (str s) = true -> ~ In c (str s)).
  { intros s c E Hin. rewrite forallb_forall in E. specialize (E _ Hin). apply negb_true_iff, Z.eqb_neq in E. congruence. }
  split; [|split; [|split; [|split]]].
  - split; [eexists; split; [left; reflexivity|cbn; eauto]|]. intros e t [<-|[<-|[<-|[]]]] H; cbn in H; try (destruct H as (? & H)); try injection H as <-; try lia; contradiction.
  - repeat (constructor; [split; cbn; lia || exact I|]); constructor.
  - repeat (constructor; [split; [apply N; reflexivity|split; [apply N; reflexivity|cbn [ev_args]; repeat (constructor; [apply N; reflexivity|]); constructor]]|]); constructor.
  - repeat (constructor; [cbn [ev_args]; unfold plain_args; cbn [ev_args]; repeat (constructor; [split; [discriminate|apply N; reflexivity]|]); constructor|]); constructor.
  - eexists. vm_compute. reflexivity.
Qed.
