(** C23 and the recording half of C46: timing guards.  Model M_Guard.v, vocabulary S_Guard.v. *)
From Coq Require Import ZArith List Lia Bool Sorted.
From Verif Require Import M_Base F_Base M_Sink M_Conc M_Raw M_Session M_Guard S_Guard.
Import ListNotations.
Open Scope Z_scope.

Lemma grun_app p q : forall gs, grun gs (p ++ q) = grun gs p ++ grun (gstate gs p) q.
Proof.
  induction p as [|[o t] p IH]; intros gs; cbn [app grun gstate]; auto.
  destruct (gstep gs o t) as [gs' out] eqn:E. cbn [fst]. rewrite IH, app_assoc. reflexivity.
Qed.
Lemma gstate_app p q : forall gs, gstate gs (p ++ q) = gstate (gstate gs p) q.
Proof. induction p as [|[o t] p IH]; intros gs; cbn [app gstate]; auto. Qed.

Lemma gstep_other gs o t h : ~ about o h -> fst (gstep gs o t) h = gs h.
Proof.
  intros H. destruct o; cbn [gstep about] in *; cbn [fst]; auto;
  try (destruct (gs h0)); cbn [fst]; auto; destruct (Z.eqb_spec h h0); auto; congruence.
Qed.
Lemma gstate_other p h : (forall x, In x p -> ~ about (fst x) h) -> forall gs, gstate gs p h = gs h.
Proof.
  induction p as [|[o t] p IH]; intros H gs; cbn [gstate]; auto. rewrite IH by (intros; apply H; right; auto).
  apply gstep_other. apply (H (o, t)). left; auto.
Qed.
Lemma gstep_start gs o h kind id tid t : starts o h kind id tid ->
  snd (gstep gs o t) = [] /\ fst (gstep gs o t) h = Some (mkGuard kind id tid t).
Proof. intros [->| ->]; cbn [gstep fst snd]; rewrite Z.eqb_refl; auto. Qed.
Lemma gstep_finish gs o h kind id id' tid t0 t1 : gs h = Some (mkGuard kind id tid t0) -> finishes o h id id' ->
  snd (gstep gs o t1) = [KInterval kind id' tid t0 t1] /\ fst (gstep gs o t1) h = None.
Proof.
  intros Hg [[-> ->]|[[-> ->]| ->]]; cbn [gstep]; rewrite Hg; cbn [fst snd]; rewrite Z.eqb_refl; auto.
Qed.

(** ** C23 *)
(** Whatever the program does before, between and after: starting records nothing, and finishing
    records exactly one interval, from the counter value at the start to the one at the end, with
    the kind, thread and id given at the start (or the overriding id). *)
Theorem C23_one_interval : forall gs p1 o p2 o' p3 h kind id id' tid t0 t1,
  starts o h kind id tid -> finishes o' h id id' -> (forall x, In x p2 -> ~ about (fst x) h) ->
  grun gs (p1 ++ (o, t0) :: p2 ++ (o', t1) :: p3)
  = grun gs p1
    ++ grun (gstate gs (p1 ++ [(o, t0)])) p2
    ++ [KInterval kind id' tid t0 t1]
    ++ grun (gstate gs (p1 ++ (o, t0) :: p2 ++ [(o', t1)])) p3.
Proof.
  intros gs p1 o p2 o' p3 h kind id id' tid t0 t1 Hs Hf Hn. rewrite grun_app. f_equal.
  rewrite !gstate_app. cbn [grun gstate]. set (gs1 := gstate gs p1).
  destruct (gstep_start gs1 o h kind id tid t0 Hs) as [S1 S2]. destruct (gstep gs1 o t0) as [gs2 out] eqn:E. cbn [fst snd] in *. subst out.
  cbn [app]. rewrite grun_app. f_equal. rewrite gstate_app. cbn [gstate grun].
  assert (Hg : gstate gs2 p2 h = Some (mkGuard kind id tid t0)) by (rewrite gstate_other; auto).
  destruct (gstep_finish (gstate gs2 p2) o' h kind id id' tid t0 t1 Hg Hf) as [F1 F2].
  destruct (gstep (gstate gs2 p2) o' t1) as [gs3 out] eqn:E3. cbn [fst snd] in *. subst out. reflexivity.
Qed.
Print Assumptions C23_one_interval.

(** The other operations around it record the same calls as if the guard did not exist, so nothing
    else is recorded on its behalf. *)
Theorem C23_nothing_else : forall gs p1 o p2 o' p3 h kind id id' tid t0 t1,
  starts o h kind id tid -> finishes o' h id id' -> (forall x, In x (p1 ++ p2 ++ p3) -> ~ about (fst x) h) ->
  exists out1 out2,
    grun gs (p1 ++ p2 ++ p3) = out1 ++ out2 /\
    grun gs (p1 ++ (o, t0) :: p2 ++ (o', t1) :: p3) = out1 ++ [KInterval kind id' tid t0 t1] ++ out2.
Proof.
  intros gs p1 o p2 o' p3 h kind id id' tid t0 t1 Hs Hf Hn.
  assert (Hext : forall p a b, (forall x, In x p -> ~ about (fst x) h) -> (forall x, x <> h -> a x = b x) ->
    grun a p = grun b p /\ forall x, x <> h -> gstate a p x = gstate b p x).
  { clear. induction p as [|[o t] p IH]; intros a b Hn Hab; cbn [grun gstate]; auto.
    assert (Ho : ~ about o h) by (apply (Hn (o, t)); left; auto).
    assert (E : snd (gstep a o t) = snd (gstep b o t) /\ forall x, x <> h -> fst (gstep a o t) x = fst (gstep b o t) x).
    { destruct o; cbn [gstep about] in *; cbn [fst snd]; auto.
      - split; auto. intros x Hx. destruct (x =? h0); auto.
      - split; auto. intros x Hx. destruct (x =? h0); auto.
      - rewrite (Hab h0) by auto. destruct (b h0); cbn [fst snd]; auto. split; auto. intros x Hx. destruct (x =? h0); auto.
      - rewrite (Hab h0) by auto. destruct (b h0); cbn [fst snd]; auto. split; auto. intros x Hx. destruct (x =? h0); auto.
      - rewrite (Hab h0) by auto. destruct (b h0); cbn [fst snd]; auto. split; auto. intros x Hx. destruct (x =? h0); auto. }
    destruct E as [E1 E2]. destruct (IH (fst (gstep a o t)) (fst (gstep b o t))) as [I1 I2]; auto.
    { intros; apply Hn; right; auto. }
    destruct (gstep a o t) as [a' oa], (gstep b o t) as [b' ob]. cbn [fst snd] in *. subst. split; auto. f_equal. auto. }
  exists (grun gs (p1 ++ p2)), (grun (gstate gs (p1 ++ p2)) p3). split; [rewrite app_assoc; apply grun_app|].
  rewrite (C23_one_interval gs p1 o p2 o' p3 h kind id id' tid t0 t1) by (auto; intros; apply Hn, in_or_app; right; apply in_or_app; auto).
  rewrite grun_app, <- app_assoc. f_equal.
  destruct (Hext p2 (gstate gs (p1 ++ [(o, t0)])) (gstate gs p1)) as [E1 E2].
  { intros; apply Hn, in_or_app; right; apply in_or_app; auto. }
  { intros x Hx. rewrite gstate_app. cbn [gstate]. apply gstep_other. destruct Hs as [->| ->]; cbn [about]; congruence. }
  rewrite E1. f_equal. f_equal.
  apply Hext; [intros; apply Hn, in_or_app; right; apply in_or_app; auto|].
  intros x Hx. rewrite !gstate_app. cbn [gstate]. rewrite gstate_app. cbn [gstate].
  rewrite gstep_other by (destruct Hf as [[-> _]|[[-> _]| ->]]; cbn [about]; congruence).
  rewrite gstate_app in E2. cbn [gstate] in E2. apply E2; auto.
Qed.
Print Assumptions C23_nothing_else.

(** A detached timing gives the same event as a guard. *)
Theorem C23_detached_same : forall gs p1 p2 p3 h kind id tid t0 t1,
  (forall x, In x p2 -> ~ about (fst x) h) ->
  grun gs (p1 ++ (GStartDetached h kind id tid, t0) :: p2 ++ (GFinishDetached h, t1) :: p3)
  = grun gs (p1 ++ (GStart h kind id tid, t0) :: p2 ++ (GDrop h, t1) :: p3).
Proof.
  intros gs p1 p2 p3 h kind id tid t0 t1 Hn.
  rewrite !(C23_one_interval gs p1 _ p2 _ p3 h kind id id tid t0 t1); auto; unfold starts, finishes; auto.
  rewrite !gstate_app. cbn [gstate gstep]. rewrite !gstate_app. cbn [gstate gstep fst].
  rewrite !(gstate_other p2 h Hn), Z.eqb_refl. reflexivity.
Qed.
Print Assumptions C23_detached_same.

(** ** C46, recordings *)
Definition within (lo hi : Z) (a : Z * Z) : Prop := lo <= fst a /\ fst a <= snd a /\ snd a <= hi.

Lemma spans_app a b : spans (a ++ b) = spans a ++ spans b.
Proof. induction a as [|[] a IH]; cbn; auto. f_equal; auto. Qed.

Lemma laminar_app a b : laminar a -> laminar b -> Forall (fun x => Forall (nests x) b) a -> laminar (a ++ b).
Proof.
  induction a as [|x a IH]; cbn [app laminar]; auto. intros (H1 & H2 & H3) Hb HF. inversion HF; subst.
  split; auto. split; auto. apply Forall_app; auto.
Qed.

Lemma nested_run p : nested p -> forall gs lo hi, StronglySorted Z.le (map snd p) ->
  Forall (fun x => lo <= snd x <= hi) p ->
  laminar (spans (grun gs p)) /\ Forall (within lo hi) (spans (grun gs p)).
Proof.
  induction 1 as [|k t p Hk _ IH|o o' h kind id id' tid t0 t1 p q Hs Hf Hn _ IHp _ IHq]; intros gs lo hi HS HB.
  - cbn. auto.
  - cbn [grun gstep app]. inversion HS; subst. inversion HB; subst. destruct (IH gs lo hi) as [I1 I2]; auto.
    destruct k; cbn [spans]; auto. exfalso. eapply Hk; reflexivity.
  - pose proof (C23_one_interval gs [] o p o' q h kind id id' tid t0 t1 Hs Hf Hn) as E. cbn [app] in E. rewrite E. clear E.
    cbn [grun app]. rewrite !spans_app. cbn [spans app].
    cbn [map snd] in HS. inversion HS as [|? ? HS1 HS2]; subst. rewrite map_app in HS1, HS2. cbn [map snd] in HS1, HS2.
    apply Forall_app in HS2. destruct HS2 as [P1 P2]. inversion P2 as [|? ? P3 P4]; subst.
    inversion HB as [|? ? B1 B2]; subst. apply Forall_app in B2. destruct B2 as [B2 B3]. inversion B3 as [|? ? B4 B5]; subst. cbn [snd] in *.
    assert (Sp : StronglySorted Z.le (map snd p) /\ StronglySorted Z.le (t1 :: map snd q) /\ Forall (fun x => x <= t1) (map snd p)).
    { clear -HS1. induction (map snd p) as [|x l IH]; cbn [app] in *; [repeat split; auto; constructor|].
      inversion HS1 as [|? ? A B]; subst. destruct (IH A) as (I1 & I2 & I3). apply Forall_app in B. destruct B as [B1 B2].
      split; [constructor; auto|]. split; auto. constructor; auto. inversion B2; auto. }
    destruct Sp as (Sp & Sq & Sl). inversion Sq as [|? ? Sq1 Sq2]; subst.
    destruct (IHp (gstate gs [(o, t0)]) t0 t1) as [I1 I2]; auto.
    { rewrite Forall_map in P1, Sl. rewrite Forall_forall in *. intros x Hx. split; auto. }
    destruct (IHq (gstate gs ((o, t0) :: p ++ [(o', t1)])) t1 hi) as [J1 J2]; auto.
    { rewrite Forall_map in Sq2. rewrite Forall_forall in *. intros x Hx. split; auto. apply B5; auto. }
    split.
    + apply laminar_app; auto.
      * cbn [laminar fst snd]. split; [lia|]. split; auto. eapply Forall_impl; [|exact J2]. unfold within, nests. cbn [fst snd]. intros; lia.
      * eapply Forall_impl; [|exact I2]. intros a (A1 & A2 & A3). constructor.
        -- unfold nests. cbn [fst snd]. lia.
        -- eapply Forall_impl; [|exact J2]. unfold within, nests. cbn [fst snd]. intros; lia.
    + apply Forall_app. split; [eapply Forall_impl; [|exact I2]; unfold within; intros; lia|]. constructor.
      * unfold within. cbn [fst snd]. lia.
      * eapply Forall_impl; [|exact J2]. unfold within. intros; lia.
Qed.

(** Recordings made with properly nested guards and a monotone counter satisfy the nesting condition
    the analyses need (on each thread, in recording order). *)
Theorem C46_recordings_nest : forall gs p, nested p -> monotone p -> laminar (spans (grun gs p)).
Proof.
  intros gs p Hn Hm. unfold monotone in Hm. apply Sorted_StronglySorted in Hm; [|intros a b c; lia].
  assert (HB : exists lo hi, Forall (fun x : gop * Z => lo <= snd x <= hi) p).
  { clear. induction p as [|[o t] p (lo & hi & IH)]; [exists 0, 0; constructor|].
    exists (Z.min lo t), (Z.max hi t). constructor; cbn [snd]; [lia|]. eapply Forall_impl; [|exact IH]. cbn. intros; lia. }
  destruct HB as (lo & hi & HB). apply (nested_run p Hn gs lo hi Hm HB).
Qed.
Print Assumptions C46_recordings_nest.

Definition ex_prog : list (gop * Z) :=
  [(GStart 1 10 11 7, 5); (GStartDetached 2 10 12 7, 6); (GCall (KInstant 1 1 7 6), 6); (GFinishDetached 2, 8);
   (GStart 2 10 13 7, 8); (GOverride 2 99, 9); (GDrop 1, 20)].
Example ex_C46 : nested ex_prog /\ monotone ex_prog /\
  grun (fun _ => None) ex_prog = [KInstant 1 1 7 6; KInterval 10 12 7 6 8; KInterval 10 99 7 8 9; KInterval 10 11 7 5 20].
Proof.
  split; [|split; [|reflexivity]].
  - apply (ne_scope (GStart 1 10 11 7) (GDrop 1) 1 10 11 11 7 5 20
      [(GStartDetached 2 10 12 7, 6); (GCall (KInstant 1 1 7 6), 6); (GFinishDetached 2, 8); (GStart 2 10 13 7, 8); (GOverride 2 99, 9)] []);
      unfold starts, finishes; auto; [|..|constructor].
    + intros x Hx. cbn in Hx. repeat (destruct Hx as [<-|Hx]; [cbn; lia|]). destruct Hx.
    + apply (ne_scope (GStartDetached 2 10 12 7) (GFinishDetached 2) 2 10 12 12 7 6 8 [(GCall (KInstant 1 1 7 6), 6)]
        [(GStart 2 10 13 7, 8); (GOverride 2 99, 9)]); unfold starts, finishes; auto.
      * intros x [<-|[]]; cbn; auto.
      * constructor; [discriminate|constructor].
      * apply (ne_scope (GStart 2 10 13 7) (GOverride 2 99) 2 10 13 99 7 8 9 [] []); unfold starts, finishes; auto; constructor.
  - unfold monotone, ex_prog. cbn. repeat constructor; lia.
Qed.

(** Without the discipline the recording API happily produces overlapping intervals. *)
Example ex_overlap : spans (grun (fun _ => None) [(GStart 1 1 1 7, 0); (GStart 2 1 2 7, 5); (GDrop 1, 10); (GDrop 2, 15)])
  = [(0, 10); (5, 15)] /\ ~ laminar [(0, 10); (5, 15)].
Proof. split; [reflexivity|]. cbn. intros (_ & H & _). inversion H as [|? ? N]; subst. unfold nests in N. cbn in N. lia. Qed.
