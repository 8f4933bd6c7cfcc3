(** Lemmas about sample points. *)
From Coq Require Import ZArith List Lia Bool Sorted.
From Verif Require Import M_Base F_Base M_Raw M_V8 M_Map S_Guard M_Analysis S_Analysis F_Analysis M_Diff M_Aggregate S_Aggregate.
Import ListNotations.
Open Scope Z_scope.

Lemma drains_det {S A} (next : S -> res (option (A * S))) s r : drains next s r -> forall r', drains next s r' -> r = r'.
Proof.
  induction 1 as [s H|s a s' l H HD IH|s a s' H HD IH|s H]; intros r' D; inversion D; subst; try congruence;
    match goal with H1 : next s = Ok (Some (_, ?x)), H2 : next s = Ok (Some (_, ?y)) |- _ => rewrite H1 in H2; injection H2 as <- <- end;
    match goal with D' : drains next _ ?q |- _ => specialize (IH _ D') end; congruence.
Qed.

(** ** The walk *)
Inductive unwind : list event -> list point -> Prop :=
| uw_nil l : walk None l -> unwind [] l
| uw_cons s stk w l : walk (Some s) w -> unwind stk l -> unwind (s :: stk) (w ++ SStart (mkW s (hd_error stk)) :: l).
Lemma unwind_instant stk e l : p_is_instant (ev_payload e) = true -> unwind stk l -> unwind stk (SInstant (mkW e (hd_error stk)) :: l).
Proof.
  intros H U. destruct U as [l W|s stk w l W U]; cbn [hd_error].
  - constructor. constructor; auto.
  - rewrite app_comm_cons. constructor; auto. constructor; auto.
Qed.
Lemma walk_app par a b : walk par a -> walk par b -> walk par (a ++ b).
Proof.
  intros A B. induction A as [|e l H A IH|e inner l H A1 IH1 A2 IH2] in b, B |- *; cbn [app]; auto.
  - constructor; auto.
  - rewrite <- app_assoc. cbn [app]. constructor; auto.
Qed.
Lemma unwind_interval stk e l : p_is_interval (ev_payload e) = true -> unwind (e :: stk) l -> unwind stk (SEnd (mkW e (hd_error stk)) :: l).
Proof.
  intros H U. inversion U as [|? ? w l' W U']; subst. destruct U' as [l' W'|s stk w' l' W' U'']; cbn [hd_error].
  - constructor. constructor; auto.
  - change (SStart (mkW e (Some s)) :: w' ++ SStart (mkW s (hd_error stk)) :: l') with ((SStart (mkW e (Some s)) :: w') ++ SStart (mkW s (hd_error stk)) :: l').
    rewrite app_assoc, app_comm_cons. constructor; auto. constructor; auto.
Qed.
Lemma met_app a b : met (a ++ b) = met a ++ met b.
Proof. induction a as [|[w|w|w] a IH]; cbn [app met]; rewrite ?IH; auto. Qed.

Definition good (t : Z) (e : event) : Prop := p_is_integer (ev_payload e) = false /\ ev_thread e = t.
Definition inside_top (stk : list event) (e : event) : Prop :=
  match stk with [] => True | s :: _ => contains (ev_payload s) (ev_payload e) = true end.
Lemma sp_next_cases t e r stk : good t e ->
  (exists s stk', stk = s :: stk' /\ contains (ev_payload s) (ev_payload e) = false /\
     sp_next (mkSP t (e :: r) stk) = Ok (Some (SStart (mkW s (hd_error stk')), mkSP t (e :: r) stk'))) \/
  (inside_top stk e /\ p_is_interval (ev_payload e) = true /\
     sp_next (mkSP t (e :: r) stk) = Ok (Some (SEnd (mkW e (hd_error stk)), mkSP t r (e :: stk)))) \/
  (inside_top stk e /\ p_is_instant (ev_payload e) = true /\
     sp_next (mkSP t (e :: r) stk) = Ok (Some (SInstant (mkW e (hd_error stk)), mkSP t r stk))).
Proof.
  intros (G1 & G2). unfold sp_next. cbn [rev_events sp_stack expected_thread]. rewrite G1, G2, Z.eqb_refl. cbn [negb].
  destruct stk as [|s stk].
  - right. unfold inside_top. destruct (ev_payload e) as [[a b|i]|v]; [left|right|discriminate]; auto.
  - unfold inside_top. destruct (contains (ev_payload s) (ev_payload e)) eqn:C; cbn [negb].
    + right. destruct (ev_payload e) as [[a b|i]|v]; [left|right|discriminate]; auto.
    + left. exists s, stk. auto.
Qed.
Lemma sp_next_nil t s stk : sp_next (mkSP t [] (s :: stk)) = Ok (Some (SStart (mkW s (hd_error stk)), mkSP t [] stk)).
Proof. reflexivity. Qed.
Lemma points_exist n : forall t r stk, (2 * length r + length stk <= n)%nat -> Forall (good t) r ->
  exists pts, drains sp_next (mkSP t r stk) (Ok pts) /\ unwind stk pts /\ met pts = r.
Proof.
  induction n as [|n IH]; intros t r stk Hn HG.
  - destruct r, stk; cbn [length] in Hn; try lia. exists []. split; [constructor; reflexivity|]. split; [constructor; constructor|reflexivity].
  - destruct r as [|e r].
    + destruct stk as [|s stk]. { exists []. split; [constructor; reflexivity|]. split; [constructor; constructor|reflexivity]. }
      destruct (IH t [] stk) as (pts & D & U & M); [cbn [length] in *; lia|auto|].
      exists (SStart (mkW s (hd_error stk)) :: pts). split; [eapply dr_step; [reflexivity|exact D]|]. split; auto.
      apply (uw_cons s stk [] pts); auto. constructor.
    + inversion HG as [|? ? G HG']; subst. cbn [length] in Hn.
      destruct (sp_next_cases t e r stk G) as [(s & stk' & -> & C & E)|[(T & I & E)|(T & I & E)]].
      * destruct (IH t (e :: r) stk') as (pts & D & U & M); [cbn [length] in *; lia|auto|].
        eexists. split; [eapply dr_step; [exact E|exact D]|]. split; auto. apply (uw_cons s stk' [] pts); auto. constructor.
      * destruct (IH t r (e :: stk)) as (pts & D & U & M); [cbn [length] in *; lia|auto|].
        eexists. split; [eapply dr_step; [exact E|exact D]|]. split; [apply unwind_interval; auto|]. cbn [met w_this]. rewrite M. reflexivity.
      * destruct (IH t r stk) as (pts & D & U & M); [cbn [length] in *; lia|auto|].
        eexists. split; [eapply dr_step; [exact E|exact D]|]. split; [apply unwind_instant; auto|]. cbn [met w_this]. rewrite M. reflexivity.
Qed.

(** Another thread's event somewhere makes the walk fail. *)
Lemma points_panic n : forall t r stk, (2 * length r + length stk <= n)%nat -> Forall (fun e => p_is_integer (ev_payload e) = false) r ->
  (exists e, In e r /\ ev_thread e <> t) -> drains sp_next (mkSP t r stk) Panic.
Proof.
  induction n as [|n IH]; intros t r stk Hn HG (x & Hx & Nx).
  - destruct r; [destruct Hx|cbn [length] in Hn; lia].
  - destruct r as [|e r]; [destruct Hx|]. inversion HG as [|? ? G HG']; subst. cbn [length] in Hn.
    destruct (Z.eq_dec (ev_thread e) t) as [ET|NT].
    + assert (Hx' : In x r). { destruct Hx as [<-|Hx]; [congruence|auto]. }
      destruct (sp_next_cases t e r stk (conj G ET)) as [(s & stk' & -> & C & E)|[(T & I & E)|(T & I & E)]];
        (eapply dr_step_panic; [exact E|]); apply IH; cbn [length] in *; try lia; eauto.
    + apply dr_panic. unfold sp_next. cbn [rev_events expected_thread]. rewrite G. destruct (Z.eqb_spec (ev_thread e) t); [congruence|reflexivity].
Qed.

(** ** Neighbouring points *)
Definition neighbours (later earlier : point) : Prop :=
  match earlier, later with
  | SStart s, SEnd e => s = e
  | SStart outer, SStart inner | SStart outer, SInstant inner => w_parent inner = Some (w_this outer)
  | SEnd inner, SEnd outer | SInstant inner, SEnd outer => w_parent inner = Some (w_this outer)
  | SEnd a, SStart b | SInstant a, SStart b | SEnd a, SInstant b | SInstant a, SInstant b => w_parent a = w_parent b
  end.
(** points after which (going back in time) a walk below [par] may come; and that may follow it *)
Definition enters (par : option event) (x : point) : Prop :=
  match x with SEnd w => par = Some (w_this w) | SStart w | SInstant w => w_parent w = par end.
Definition leaves (par : option event) (x : point) : Prop :=
  match x with SStart w => par = Some (w_this w) | SEnd w | SInstant w => w_parent w = par end.
Lemma Sorted_join {A} (R : A -> A -> Prop) p b : forall a, Sorted R (a ++ [p]) -> Sorted R (p :: b) -> Sorted R (a ++ p :: b).
Proof.
  induction a as [|x a IH]; cbn [app]; intros H1 H2; auto. inversion H1 as [|? ? S1 R1]; subst. constructor; auto.
  destruct a as [|y a]; cbn [app] in *; inversion R1; subst; constructor; auto.
Qed.
Lemma walk_neighbours par l : walk par l -> forall x y, enters par x -> leaves par y -> (l = [] -> neighbours x y) -> Sorted neighbours (x :: l ++ [y]).
Proof.
  induction 1 as [par|par e l H W IH|par e inner l H W1 IH1 W2 IH2]; intros x y Ex Ly N.
  - constructor; [repeat constructor|]. constructor. auto.
  - cbn [app]. constructor.
    + apply IH; [reflexivity|auto|]. intros _. destruct y; cbn in *; congruence.
    + constructor. destruct x; cbn in *; congruence.
  - cbn [app]. rewrite <- app_assoc. cbn [app]. constructor.
    + rewrite app_comm_cons. apply Sorted_join.
      * cbn [app]. apply IH1; cbn; auto.
      * apply IH2; [reflexivity|auto|]. intros _. destruct y; cbn in *; congruence.
    + constructor. destruct x; cbn in *; congruence.
Qed.
Lemma walk_sorted l : walk None l -> Sorted neighbours l.
Proof.
  intros W. set (x := SInstant (mkW (mkEv [] [] [] (Integer 0) 0) None) : point).
  assert (H : Sorted neighbours (x :: l ++ [x])). { apply (walk_neighbours None); auto; reflexivity. }
  inversion H as [|? ? S _]; subst. clear - S. induction l as [|a l IH]; [constructor|]. cbn [app] in S. inversion S as [|? ? S1 R1]; subst.
  constructor; auto. destruct l; [constructor|]. cbn [app] in R1. inversion R1; subst. constructor; auto.
Qed.

(** ** Times *)
Definition time_of (p : point) : Z :=
  match p with SStart w => fst (span (w_this w)) | SEnd w | SInstant w => snd (span (w_this w)) end.
Definition matches (p : point) : Prop :=
  match p with SStart w | SEnd w => p_is_interval (ev_payload (w_this w)) = true | SInstant w => p_is_instant (ev_payload (w_this w)) = true end.
Lemma matches_time p : matches p -> sp_timestamp p = Ok (time_of p).
Proof.
  unfold sp_timestamp, time_of, span, matches, p_is_interval, p_is_instant. destruct p as [w|w|w]; cbn [sp_event]; destruct (ev_payload (w_this w)) as [[a b|i]|v]; intros; try discriminate; reflexivity.
Qed.
Lemma walk_matches par l : walk par l -> Forall matches l.
Proof. induction 1; auto. constructor; auto. apply Forall_app. split; auto. Qed.

Fixpoint stack_nested (stk : list event) : Prop :=
  match stk with
  | a :: (b :: _) as stk' => fst (span b) <= fst (span a) /\ stack_nested stk'
  | _ => True
  end.
Lemma contains_span s e : p_is_interval (ev_payload s) = true -> p_is_integer (ev_payload e) = false ->
  contains (ev_payload s) (ev_payload e) = true <-> fst (span s) <= fst (span e) /\ snd (span e) <= snd (span s).
Proof.
  unfold p_is_interval, p_is_integer, contains, span. destruct (ev_payload s) as [[a b|i]|v]; intros H1 H2; try discriminate.
  destruct (ev_payload e) as [[c d|i]|v]; try discriminate; cbn [fst snd]; rewrite andb_true_iff, !Z.leb_le; tauto.
Qed.
Lemma points_times s pts : drains sp_next s pts -> forall now l, pts = Ok l ->
  (match rev_events s with e :: _ => snd (span e) <= now | [] => True end) ->
  (match sp_stack s with e :: _ => fst (span e) <= now | [] => True end) ->
  stack_nested (sp_stack s) -> Forall (fun x => p_is_interval (ev_payload x) = true) (sp_stack s) ->
  laminar (map span (rev (rev_events s))) ->
  (forall x y, In x (rev_events s) -> In y (sp_stack s) -> nests (span x) (span y)) ->
  Forall (good (expected_thread s)) (rev_events s) ->
  Sorted (fun a b => time_of b <= time_of a) l /\ match l with p :: _ => time_of p <= now | [] => True end.
Proof.
  induction 1 as [s H|s p s' l H HD IH|s p s' H HD IH|s H]; intros now l' E; try discriminate; injection E as <-; intros Hr Ht Hn Hi HL Hx HG.
  { split; constructor. }
  destruct s as [t r stk]. cbn [rev_events sp_stack expected_thread] in *.
  assert (FIN : forall now', time_of p <= now -> Sorted (fun a b => time_of b <= time_of a) l /\ match l with q :: _ => time_of q <= now' | [] => True end -> now' <= time_of p ->
     Sorted (fun a b => time_of b <= time_of a) (p :: l) /\ time_of p <= now).
  { intros now' K1 (K2 & K3) K4. split; auto. constructor; auto. destruct l; constructor. lia. }
  destruct r as [|e r].
  - destruct stk as [|x stk]; [discriminate|]. rewrite sp_next_nil in H. injection H as <- <-. cbn [rev_events sp_stack expected_thread] in *.
    cbn [time_of w_this] in FIN |- *. apply (FIN (fst (span x))); [auto| |lia]. inversion Hi; subst.
    apply IH; auto; [destruct stk; auto; apply Hn|destruct stk; [exact I|apply Hn]|intros ? ? []].
  - inversion HG as [|? ? G HG']; subst. cbn [rev] in HL. rewrite map_app in HL. cbn [map] in HL.
    assert (LAM : fst (span e) <= snd (span e) /\ laminar (map span (rev r)) /\ forall x, In x r -> nests (span x) (span e)).
    { destruct (laminar_app_inv _ _ HL) as (L1 & L2). split; [apply L2|]. split; auto.
      intros x Hin. clear - HL Hin. apply in_rev in Hin. induction (rev r) as [|y q IHq]; [destruct Hin|]. cbn [map app laminar] in HL. destruct HL as (_ & F & HL).
      destruct Hin as [<-|Hin]; auto. rewrite Forall_forall in F. apply F. apply in_or_app. right. left. auto. }
    destruct LAM as (Le & LAM & LN).
    destruct (sp_next_cases t e r stk G) as [(x & stk' & -> & C & E)|[(T & I & E)|(T & I & E)]]; rewrite E in H; injection H as <- <-; cbn [rev_events sp_stack expected_thread] in *;
      cbn [time_of w_this] in FIN |- *.
    + (* leave the top *) inversion Hi; subst. apply (FIN (fst (span x))); [auto| |lia]. apply IH; auto.
      * destruct (Hx e x (or_introl eq_refl) (or_introl eq_refl)) as [N|N]; auto.
        apply (contains_span x e) in N; [congruence|auto|apply G].
      * destruct stk'; auto. apply Hn.
      * destruct stk'; [exact I|apply Hn].
      * cbn [rev]. rewrite map_app. exact HL.
      * intros u v Hu Hv. apply Hx; auto. right; auto.
    + (* enter an interval *) apply (FIN (snd (span e))); [auto| |lia]. apply IH; auto.
      * destruct r as [|u r]; auto. destruct (LN u (or_introl eq_refl)); lia.
      * destruct stk as [|x stk]; auto. split; auto. inversion Hi; subst. apply (contains_span x e) in T; [|auto|apply G]. lia.
      * intros u v Hu [<-|Hv]; auto. apply Hx; auto. right; auto.
    + (* an instant *) apply (FIN (snd (span e))); [auto| |lia].
      assert (Q : fst (span e) = snd (span e)). { revert I. unfold p_is_instant, span. destruct (ev_payload e) as [[a b|i]|v]; intros; try discriminate; reflexivity. }
      apply IH; auto.
      * destruct r as [|u r]; auto. destruct (LN u (or_introl eq_refl)); lia.
      * destruct stk as [|x stk]; auto. inversion Hi; subst. apply (contains_span x e) in T; [|auto|apply G]. lia.
      * intros u v Hu Hv. apply Hx; auto. right; auto.
Qed.
