(** C36: collapsing threads.  Model M_Crox.v, specification S_Crox.v. *)
From Coq Require Import String ZArith List Lia Bool Sorted Permutation.
From Verif Require Import M_Base F_Base M_Raw M_V8 M_Map M_Analysis S_Analysis F_Analysis M_Diff M_Crox S_Crox.
Import ListNotations.
Open Scope Z_scope.

Section Mapping.
  Variable spans : list (Z * (Z * Z)).
  Hypothesis keys : NoDup (map fst spans).
  Hypothesis ordered : forall tid s e, In (tid, (s, e)) spans -> s <= e.
  Lemma spans_fun tid s e s' e' : In (tid, (s, e)) spans -> In (tid, (s', e')) spans -> s = s' /\ e = e'.
  Proof.
    clear ordered. induction spans as [|(k, v) l IH]; intros H H'; [destruct H|]. cbn [map fst] in keys. inversion keys as [|? ? N K]; subst.
    destruct H as [H|H], H' as [H'|H'].
    - rewrite H in H'. injection H' as <- <-. auto.
    - injection H as -> ->. destruct N. apply (in_map fst) in H'. exact H'.
    - injection H' as -> ->. destruct N. apply (in_map fst) in H. exact H.
    - eauto.
  Qed.
  Definition upto (n : nat) : list Z := map Z.of_nat (seq 0 n).
  (** [P] are the threads placed so far, [C] those whose id was passed on, [L] the holders of the ids. *)
  Record inv (P C L : list Z) (m : list (Z * Z)) (n : nat) : Prop := mkInv {
    i_dom : forall tid, In tid P <-> exists v, map_get Z.eqb tid m = Some v;
    i_consumed : incl C P;
    i_live : forall tid, In tid L <-> In tid P /\ ~ In tid C;
    i_ids : map (fun tid => map_get Z.eqb tid m) L = map Some (upto n);
    i_range : forall tid v, map_get Z.eqb tid m = Some v -> 0 <= v < Z.of_nat n;
    i_after : forall tid tid' v s e s' e', In tid P -> In tid' L -> tid <> tid' -> map_get Z.eqb tid m = Some v -> map_get Z.eqb tid' m = Some v ->
       In (tid, (s, e)) spans -> In (tid', (s', e')) spans -> e < s';
    i_disjoint : forall tid tid' v s e s' e', tid <> tid' -> map_get Z.eqb tid m = Some v -> map_get Z.eqb tid' m = Some v ->
       In (tid, (s, e)) spans -> In (tid', (s', e')) spans -> e < s' \/ e' < s;
    i_alive : (0 < n)%nat -> exists t A, NoDup A /\ length A = n /\ forall tid, In tid A -> exists s e, In (tid, (s, e)) spans /\ s <= t <= e }.
  Lemma live_nodup P C L m n : inv P C L m n -> NoDup L.
  Proof.
    intros I. pose proof (i_ids _ _ _ _ _ I) as E. apply (NoDup_map_inv (fun tid => map_get Z.eqb tid m)). rewrite E.
    apply FinFun.Injective_map_NoDup; [intros a b [=]; auto|]. apply FinFun.Injective_map_NoDup; [intros a b ?; lia|apply seq_NoDup].
  Qed.
  Lemma get_put_eq {V} k (v : V) m : map_get Z.eqb k (map_put Z.eqb k v m) = Some v.
  Proof. apply get_put_same. apply Z.eqb_eq. Qed.
  Lemma get_put_neq {V} k k' (v : V) m : k <> k' -> map_get Z.eqb k' (map_put Z.eqb k v m) = map_get Z.eqb k' m.
  Proof. intros H. apply get_put_other; [apply Z.eqb_eq|congruence]. Qed.
  Lemma upto_S n : upto (S n) = upto n ++ [Z.of_nat n].
  Proof. unfold upto. rewrite seq_S, map_app. reflexivity. Qed.
  Lemma map_get_ext_put (m : list (Z * Z)) t0 v L : ~ In t0 L -> map (fun tid => map_get Z.eqb tid (map_put Z.eqb t0 v m)) L = map (fun tid => map_get Z.eqb tid m) L.
  Proof. intros N. apply map_ext_in. intros a Ha. apply get_put_neq. intros ->. auto. Qed.

  (** A thread gets a fresh id: nobody that ended before it is left over. *)
  Lemma inv_fresh P C L m n t0 s0 e0 : inv P C L m n -> ~ In t0 P -> In (t0, (s0, e0)) spans ->
    (forall p s e, In p L -> In (p, (s, e)) spans -> s <= s0 <= e) -> (forall p, In p P -> In p (map fst spans)) ->
    inv (t0 :: P) C (L ++ [t0]) (map_put Z.eqb t0 (Z.of_nat n) m) (S n).
  Proof.
    intros I N0 H0 HA HK. assert (NL : ~ In t0 L) by (intros H; apply (i_live _ _ _ _ _ I) in H; tauto). assert (NC : ~ In t0 C) by (intros H; apply (i_consumed _ _ _ _ _ I) in H; tauto).
    constructor.
    - intros tid. cbn [In]. destruct (Z.eq_dec t0 tid) as [<-|NE].
      + rewrite get_put_eq. split; eauto.
      + rewrite get_put_neq by auto. rewrite <- (i_dom _ _ _ _ _ I). intuition congruence.
    - intros x Hx. right. apply (i_consumed _ _ _ _ _ I); auto.
    - intros tid. rewrite in_app_iff. rewrite (i_live _ _ _ _ _ I). cbn [In]. destruct (Z.eq_dec t0 tid) as [<-|NE]; intuition congruence.
    - rewrite map_app, map_get_ext_put by auto. rewrite (i_ids _ _ _ _ _ I). rewrite upto_S, map_app. cbn [map]. rewrite get_put_eq. reflexivity.
    - intros tid v. destruct (Z.eq_dec t0 tid) as [<-|NE].
      + rewrite get_put_eq. intros [= <-]. lia.
      + rewrite get_put_neq by auto. intros H. apply (i_range _ _ _ _ _ I) in H. lia.
    - intros tid tid' v s e s' e' HP HL NE G G' HS HS'. rewrite in_app_iff in HL. cbn [In] in HL.
      destruct (Z.eq_dec t0 tid) as [<-|N1].
      + rewrite get_put_eq in G. injection G as <-. rewrite get_put_neq in G' by auto. apply (i_range _ _ _ _ _ I) in G'. lia.
      + rewrite get_put_neq in G by auto. destruct HL as [HL|[<-|[]]].
        * rewrite get_put_neq in G' by (intros ->; auto). destruct HP as [HP|HP]; [congruence|]. eapply (i_after _ _ _ _ _ I); eauto.
        * rewrite get_put_eq in G'. injection G' as <-. apply (i_range _ _ _ _ _ I) in G. lia.
    - intros tid tid' v s e s' e' NE G G' HS HS'. destruct (Z.eq_dec t0 tid) as [<-|N1]; [|destruct (Z.eq_dec t0 tid') as [<-|N2]].
      + rewrite get_put_eq in G. injection G as <-. rewrite get_put_neq in G' by auto. apply (i_range _ _ _ _ _ I) in G'. lia.
      + rewrite get_put_eq in G'. injection G' as <-. rewrite get_put_neq in G by auto. apply (i_range _ _ _ _ _ I) in G. lia.
      + rewrite get_put_neq in G, G' by auto. eapply (i_disjoint _ _ _ _ _ I tid tid' v); eauto.
    - intros _. exists s0, (t0 :: L). split; [constructor; auto; eapply live_nodup; eauto|]. split.
      + cbn [List.length]. f_equal. pose proof (f_equal (@List.length _) (i_ids _ _ _ _ _ I)) as E. rewrite !map_length in E. unfold upto in E. rewrite map_length, seq_length in E. auto.
      + intros tid [<-|Ht]; [exists s0, e0; split; auto; pose proof (ordered _ _ _ H0); lia|].
        assert (HK' : In tid (map fst spans)) by (apply HK; apply (i_live _ _ _ _ _ I) in Ht; tauto).
        apply in_map_iff in HK'. destruct HK' as ((k, (s, e)) & E & Hs). cbn in E. subst k. exists s, e. split; eauto.
  Qed.
  (** A thread takes over the id of one that ended before it. *)
  Lemma inv_reuse P C L m n t0 s0 e0 c sc ec v : inv P C L m n -> ~ In t0 P -> In (t0, (s0, e0)) spans ->
    In c P -> ~ In c C -> In (c, (sc, ec)) spans -> ec < s0 -> map_get Z.eqb c m = Some v ->
    (forall p, In p P -> In p (map fst spans)) ->
    exists L', inv (t0 :: P) (c :: C) L' (map_put Z.eqb t0 v m) n.
  Proof.
    intros I N0 H0 HP HC Hc LT G HK. assert (NL : ~ In t0 L) by (intros H; apply (i_live _ _ _ _ _ I) in H; tauto). assert (NC : ~ In t0 C) by (intros H; apply (i_consumed _ _ _ _ _ I) in H; tauto).
    assert (HL : In c L) by (apply (i_live _ _ _ _ _ I); auto). destruct (in_split _ _ HL) as (L1 & L2 & ->).
    assert (ND : NoDup (L1 ++ c :: L2)) by (eapply live_nodup; eauto). assert (NE0 : c <> t0) by congruence.
    assert (Nc : ~ In c (L1 ++ L2)) by (apply NoDup_remove_2; auto).
    assert (LI : forall tid, In tid (L1 ++ t0 :: L2) <-> tid = t0 \/ (In tid P /\ ~ In tid C /\ tid <> c)).
    { intros tid. pose proof (i_live _ _ _ _ _ I tid) as E. rewrite in_app_iff in E, Nc |- *. cbn [In] in E |- *. destruct (Z.eq_dec tid c) as [->|NEc].
      - split; [intros [H|[H|H]]; [tauto|congruence|tauto]|intros [H|(_ & _ & H)]; congruence].
      - split; [intros [H|[H|H]]; [right; tauto|left; auto|right; tauto]|]. intros [->|(A & B & _)]; [tauto|]. destruct (proj2 E (conj A B)) as [H|[H|H]]; [tauto|congruence|tauto]. }
    assert (SAME : forall tid, In tid P -> map_get Z.eqb tid (map_put Z.eqb t0 v m) = map_get Z.eqb tid m) by (intros tid Ht; apply get_put_neq; congruence).
    exists (L1 ++ t0 :: L2). constructor.
    - intros tid. cbn [In]. destruct (Z.eq_dec t0 tid) as [<-|NE].
      + rewrite get_put_eq. split; eauto.
      + rewrite get_put_neq by auto. rewrite <- (i_dom _ _ _ _ _ I). intuition congruence.
    - intros x [<-|Hx]; right; auto. apply (i_consumed _ _ _ _ _ I); auto.
    - intros tid. rewrite LI. cbn [In]. destruct (Z.eq_dec tid t0) as [->|NE]; [|destruct (Z.eq_dec tid c) as [->|NEc]]; intuition congruence.
    - pose proof (i_ids _ _ _ _ _ I) as E. rewrite map_app in E |- *. cbn [map] in E |- *. rewrite !map_get_ext_put. { rewrite get_put_eq. rewrite G in E. exact E. }
      + intros H. apply NL. apply in_app_iff. right. right. auto.
      + intros H. apply NL. apply in_app_iff. left. auto.
    - intros tid w. destruct (Z.eq_dec t0 tid) as [<-|NE].
      + rewrite get_put_eq. intros [= <-]. eapply (i_range _ _ _ _ _ I); eauto.
      + rewrite get_put_neq by auto. intros H. eapply (i_range _ _ _ _ _ I); eauto.
    - intros tid tid' w s e s' e' Hp Hl NE G1 G2 HS HS'. apply LI in Hl. destruct (Z.eq_dec t0 tid) as [<-|N1].
      + destruct Hl as [->|(A & B & D)]; [congruence|]. rewrite get_put_eq in G1. injection G1 as <-. rewrite SAME in G2 by auto.
        exfalso. assert (EQ : tid' = c).
        { pose proof (i_ids _ _ _ _ _ I) as E. assert (K : forall x y, In x (L1 ++ c :: L2) -> In y (L1 ++ c :: L2) -> map_get Z.eqb x m = map_get Z.eqb y m -> x = y).
          { assert (NDm : NoDup (map (fun tid => map_get Z.eqb tid m) (L1 ++ c :: L2))).
            { rewrite E. apply FinFun.Injective_map_NoDup; [intros a b [=]; auto|]. apply FinFun.Injective_map_NoDup; [intros a b ?; lia|apply seq_NoDup]. }
            clear - NDm. induction (L1 ++ c :: L2) as [|z l IH]; intros x y Hx Hy Exy; [destruct Hx|]. cbn [map] in NDm. inversion NDm as [|? ? Nz Nl]; subst.
            destruct Hx as [<-|Hx], Hy as [<-|Hy]; auto.
            - destruct Nz. rewrite Exy. apply (in_map (fun tid => map_get Z.eqb tid m)), Hy.
            - destruct Nz. rewrite <- Exy. apply (in_map (fun tid => map_get Z.eqb tid m)), Hx. }
          apply K; [apply (i_live _ _ _ _ _ I); auto|apply in_app_iff; right; left; reflexivity|congruence]. }
        congruence.
      + destruct Hp as [Hp|Hp]; [congruence|]. rewrite SAME in G1 by auto. destruct Hl as [->|(A & B & D)].
        * rewrite get_put_eq in G2. injection G2 as <-. destruct (spans_fun _ _ _ _ _ HS' H0) as (-> & ->). destruct (Z.eq_dec tid c) as [->|Nc'].
          -- destruct (spans_fun _ _ _ _ _ HS Hc) as (-> & ->). auto.
          -- pose proof (i_after _ _ _ _ _ I tid c v s e sc ec Hp HL Nc' G1 G HS Hc). pose proof (ordered _ _ _ Hc). lia.
        * rewrite SAME in G2 by auto. eapply (i_after _ _ _ _ _ I tid tid' w); eauto. apply (i_live _ _ _ _ _ I). auto.
    - assert (K : forall tid s e, tid <> t0 -> map_get Z.eqb tid (map_put Z.eqb t0 v m) = Some v -> In (tid, (s, e)) spans -> e < s0).
      { intros tid s e NE G1 HS. rewrite get_put_neq in G1 by auto. assert (Hp : In tid P) by (apply (i_dom _ _ _ _ _ I); eauto).
        destruct (Z.eq_dec tid c) as [->|Nc']; [destruct (spans_fun _ _ _ _ _ HS Hc) as (-> & ->); auto|].
        pose proof (i_after _ _ _ _ _ I tid c v s e sc ec Hp HL Nc' G1 G HS Hc). pose proof (ordered _ _ _ Hc). lia. }
      intros tid tid' w s e s' e' NE G1 G2 HS HS'. destruct (Z.eq_dec t0 tid) as [<-|N1]; [|destruct (Z.eq_dec t0 tid') as [<-|N2]].
      + rewrite get_put_eq in G1. injection G1 as <-. destruct (spans_fun _ _ _ _ _ HS H0) as (-> & ->). right. apply (K tid' s' e'); auto.
      + rewrite get_put_eq in G2. injection G2 as <-. destruct (spans_fun _ _ _ _ _ HS' H0) as (-> & ->). left. apply (K tid s e); auto.
      + rewrite get_put_neq in G1, G2 by auto. eapply (i_disjoint _ _ _ _ _ I tid tid' w); eauto.
    - apply (i_alive _ _ _ _ _ I).
  Qed.
  Lemma loop oc : forall starts P C L m n next,
    inv P C L m n ->
    (forall x, In x starts -> exists e, In (snd x, (fst x, e)) spans) ->
    (forall x, In x next -> exists s, In (snd x, (s, fst x)) spans) ->
    StronglySorted (fun a b => fst a <= fst b) starts -> StronglySorted (fun a b => fst a <= fst b) next ->
    NoDup (map snd next) -> (forall tid, In tid (map fst spans) <-> In tid C \/ In tid (map snd next)) -> (forall tid, In tid C -> ~ In tid (map snd next)) ->
    NoDup (map snd starts) -> (forall tid, In tid (map fst spans) <-> In tid P \/ In tid (map snd starts)) -> (forall tid, In tid P -> ~ In tid (map snd starts)) ->
    (forall p s e x, In p P -> In (p, (s, e)) spans -> In x starts -> s <= fst x) ->
    Z.of_nat n + zlen starts < 2 ^ 32 ->
    exists s' P' C' L' n', foldM (collapse_one oc) (mkCx next m (Z.of_nat n)) starts = Ok s' /\ inv P' C' L' (mapping s') n' /\ forall tid, In tid P' <-> In tid (map fst spans).
  Proof.
    induction starts as [|(s0, t0) starts IH]; intros P C L m n next I HS HN SS SN ND1 K1 D1 ND2 K2 D2 LE B.
    - exists (mkCx next m (Z.of_nat n)), P, C, L, n. split; [reflexivity|]. split; [exact I|]. intros tid. rewrite (K2 tid). cbn. tauto.
    - destruct (HS (s0, t0) (or_introl eq_refl)) as (e0 & H0). cbn [fst snd] in H0. cbn [map snd] in ND2, K2, D2. inversion ND2 as [|? ? N0 ND2']; subst.
      inversion SS as [|? ? SS' SF]; subst. rewrite Forall_forall in SF.
      assert (NP : ~ In t0 P) by (intros H; apply (D2 _ H); left; auto).
      assert (PK : forall p, In p P -> In p (map fst spans)) by (intros p Hp; apply K2; auto).
      assert (K2' : forall tid, In tid (map fst spans) <-> In tid (t0 :: P) \/ In tid (map snd starts)) by (intros tid; rewrite (K2 tid); cbn [In]; tauto).
      assert (D2' : forall tid, In tid (t0 :: P) -> ~ In tid (map snd starts)). { intros tid [<-|H]; auto. intros Q. apply (D2 _ H). right; auto. }
      assert (LE' : forall p s e x, In p (t0 :: P) -> In (p, (s, e)) spans -> In x starts -> s <= fst x).
      { intros p s e x [<-|Hp] Hs Hx; [|eapply LE; eauto; right; auto]. destruct (spans_fun _ _ _ _ _ Hs H0) as (-> & _). apply SF in Hx. exact Hx. }
      destruct next as [|(ne, nt) rest].
      { exfalso. destruct (proj1 (K1 t0)) as [H|[]]; [apply (in_map fst) in H0; exact H0|]. apply NP, (i_consumed _ _ _ _ _ I), H. }
      cbn [foldM]. unfold collapse_one at 1. cbn [next_ends mapping current_thread_id fst snd]. destruct (HN (ne, nt) (or_introl eq_refl)) as (sn & Hn). cbn [fst snd] in Hn.
      cbn [map snd] in ND1, K1, D1. inversion ND1 as [|? ? N1 ND1']; subst. inversion SN as [|? ? SN' SNF]; subst. rewrite Forall_forall in SNF.
      assert (HNC : ~ In nt C) by (intros H; apply (D1 _ H); left; auto).
      rewrite zlen_cons in B. destruct (Z.ltb_spec ne s0) as [LT|GE].
      + assert (InP : In nt P).
        { destruct (proj1 (K2 nt)) as [H|H]; [apply (in_map fst) in Hn; exact Hn|auto|]. exfalso. pose proof (ordered _ _ _ Hn). destruct H as [<-|H].
          - destruct (spans_fun _ _ _ _ _ Hn H0) as (-> & _). lia.
          - apply in_map_iff in H. destruct H as ((sx, tx) & E & Hx). cbn in E. subst tx. destruct (HS _ (or_intror Hx)) as (ex & Hex). cbn [fst snd] in Hex.
            destruct (spans_fun _ _ _ _ _ Hn Hex) as (-> & _). apply SF in Hx. cbn in Hx. lia. }
        destruct (proj1 (i_dom _ _ _ _ _ I nt) InP) as (v & G). rewrite G. cbn [bind].
        destruct (inv_reuse P C L m n t0 s0 e0 nt sn ne v I NP H0 InP HNC Hn LT G PK) as (L' & I').
        apply (IH (t0 :: P) (nt :: C) L' _ n rest I'); auto; try lia.
        * intros x Hx. apply HS. right; auto.
        * intros x Hx. apply HN. right; auto.
        * intros tid. rewrite (K1 tid). cbn [In]. tauto.
        * intros tid [<-|H]; auto. intros Q. apply (D1 _ H). right; auto.
      + unfold u32_add. destruct (Z.ltb_spec (Z.of_nat n + 1) (2 ^ 32)); [|pose proof (zlen_nonneg starts); lia]. cbn [bind].
        replace (Z.of_nat n + 1) with (Z.of_nat (S n)) by lia. apply (IH (t0 :: P) C (L ++ [t0]) _ (S n) ((ne, nt) :: rest)); auto; try lia.
        * eapply inv_fresh; eauto. intros p s e Hp Hs. split; [eapply (LE p s e (s0, t0)); eauto; [apply (i_live _ _ _ _ _ I) in Hp; tauto|left; auto]|].
          apply (i_live _ _ _ _ _ I) in Hp. destruct Hp as (Hp & Hc). destruct (proj1 (K1 p)) as [Q|Q]; [apply PK; auto|contradiction|].
          destruct Q as [<-|Q]; [destruct (spans_fun _ _ _ _ _ Hs Hn) as (_ & ->); auto|].
          apply in_map_iff in Q. destruct Q as ((ex, tx) & E & Hx). cbn in E. subst tx. destruct (HN _ (or_intror Hx)) as (sx & Hsx). cbn [fst snd] in Hsx.
          destruct (spans_fun _ _ _ _ _ Hs Hsx) as (_ & ->). apply SNF in Hx. cbn in Hx. lia.
        * intros x Hx. apply HS. right; auto.
  Qed.
End Mapping.

(** ** First and last time of each thread *)
Lemma happens_min_max e lo hi : happens e lo hi <-> exists t, p_timestamp (ev_payload e) = Some t /\ ts_min_max t = (lo, hi).
Proof.
  unfold happens, p_timestamp. destruct (ev_payload e) as [[a b|t]|v].
  - split; [intros (-> & ->); eexists; split; [reflexivity|reflexivity]|]. intros (x & [= <-] & [= <- <-]). auto.
  - split; [intros (-> & ->); eexists; split; [reflexivity|reflexivity]|]. intros (x & [= <-] & [= <- <-]). auto.
  - split; [intros []|intros (x & H & _); discriminate].
Qed.
Lemma spans_keys evs : NoDup (map fst (thread_start_and_end evs)).
Proof.
  unfold thread_start_and_end. assert (G : forall m, NoDup (map fst m) -> NoDup (map fst (fold_left note_span evs m))); [|apply G; constructor].
  induction evs as [|e evs IH]; intros m H; cbn [fold_left]; auto. apply IH. unfold note_span. destruct (p_timestamp _); auto.
  destruct (map_get _ _ _) as [(?, ?)|]; apply put_NoDup; auto; apply Z.eqb_eq.
Qed.
Lemma get_In m tid (v : Z * Z) : NoDup (map fst m) -> (In (tid, v) m <-> map_get Z.eqb tid m = Some v).
Proof.
  induction m as [|(k, w) m IH]; intros ND; cbn [map_get In]; [split; [intros []|discriminate]|]. cbn [map fst] in ND. inversion ND as [|? ? N ND']; subst.
  destruct (Z.eqb_spec tid k) as [->|NE].
  - split; [intros [[= ->]|H]; auto; destruct N; apply (in_map fst) in H; exact H|]. intros [= ->]. auto.
  - rewrite <- IH by auto. split; [intros [[= -> ->]|H]; [congruence|auto]|auto].
Qed.
Lemma span_get evs : forall tid, match map_get Z.eqb tid (thread_start_and_end evs) with Some (s, f) => alive_span evs tid s f | None => ~ has_times evs tid end.
Proof.
  unfold thread_start_and_end. induction evs as [|e evs IH] using rev_ind; intros tid; [cbn; intros (x & _ & _ & [] & _)|].
  rewrite fold_left_app. cbn [fold_left]. set (m := fold_left note_span evs []) in *. unfold note_span.
  assert (NOTE : p_timestamp (ev_payload e) = None -> forall lo hi, ~ happens e lo hi). { intros E lo hi H. apply happens_min_max in H. destruct H as (t & H & _). congruence. }
  assert (KEEP : (ev_thread e <> tid \/ p_timestamp (ev_payload e) = None) -> match map_get Z.eqb tid m with Some (s, f) => alive_span (evs ++ [e]) tid s f | None => ~ has_times (evs ++ [e]) tid end).
  { intros H. specialize (IH tid). assert (X : forall x lo hi, In x (evs ++ [e]) -> ev_thread x = tid -> happens x lo hi -> In x evs).
    { intros x lo hi Hx Ht Hh. apply in_app_iff in Hx. destruct Hx as [Hx|[<-|[]]]; auto. destruct H as [H|H]; [congruence|]. exfalso. eapply NOTE; eauto. }
    destruct (map_get Z.eqb tid m) as [(s, f)|].
    - destruct IH as ((x & hi & X1 & X2 & X3) & (y & lo & Y1 & Y2 & Y3) & B). split; [exists x, hi; rewrite in_app_iff; auto|]. split; [exists y, lo; rewrite in_app_iff; auto|].
      intros z lo' hi' Hz Ht Hh. apply (B z); eauto.
    - intros (x & lo & hi & Hx & Ht & Hh). apply IH. exists x, lo, hi. repeat split; eauto. }
  destruct (p_timestamp (ev_payload e)) as [t|] eqn:ET; [|apply KEEP; auto]. destruct (ts_min_max t) as (lo, hi) eqn:EM. cbn [fst snd].
  assert (HE : happens e lo hi) by (apply happens_min_max; eauto).
  assert (HU : forall lo' hi', happens e lo' hi' -> lo' = lo /\ hi' = hi). { intros lo' hi' H. apply happens_min_max in H. destruct H as (t' & E1 & E2). rewrite ET in E1. injection E1 as <-. rewrite EM in E2. injection E2 as <- <-. auto. }
  destruct (Z.eq_dec (ev_thread e) tid) as [E|NE].
  2:{ destruct (map_get Z.eqb (ev_thread e) m) as [(a, b)|]; rewrite get_put_neq by auto; apply KEEP; auto. }
  specialize (IH tid). rewrite E. destruct (map_get Z.eqb tid m) as [(s, f)|]; rewrite get_put_eq.
  - destruct IH as ((x & hi' & X1 & X2 & X3) & (y & lo' & Y1 & Y2 & Y3) & B). split; [|split].
    + destruct (Z.min_spec s lo) as [(_ & ->)|(_ & ->)]; [exists x, hi'; rewrite in_app_iff; auto|exists e, hi; rewrite in_app_iff; cbn; auto].
    + destruct (Z.max_spec f hi) as [(_ & ->)|(_ & ->)]; [exists e, lo; rewrite in_app_iff; cbn; auto|exists y, lo'; rewrite in_app_iff; auto].
    + intros z l h Hz Ht Hh. apply in_app_iff in Hz. destruct Hz as [Hz|[<-|[]]]; [destruct (B z l h Hz Ht Hh); lia|]. apply HU in Hh. lia.
  - split; [exists e, hi; rewrite in_app_iff; cbn; auto|]. split; [exists e, lo; rewrite in_app_iff; cbn; auto|].
    intros z l h Hz Ht Hh. apply in_app_iff in Hz. destruct Hz as [Hz|[<-|[]]]; [exfalso; apply IH; exists z, l, h; auto|]. apply HU in Hh. lia.
Qed.
Lemma alive_span_fun evs tid s f s' f' : alive_span evs tid s f -> alive_span evs tid s' f' -> s = s' /\ f = f'.
Proof.
  intros ((x & hx & X1 & X2 & X3) & (y & ly & Y1 & Y2 & Y3) & B) ((x' & hx' & X1' & X2' & X3') & (y' & ly' & Y1' & Y2' & Y3') & B').
  pose proof (B _ _ _ X1' X2' X3'). pose proof (B _ _ _ Y1' Y2' Y3'). pose proof (B' _ _ _ X1 X2 X3). pose proof (B' _ _ _ Y1 Y2 Y3). lia.
Qed.
Lemma spans_spec evs tid s f : In (tid, (s, f)) (thread_start_and_end evs) <-> alive_span evs tid s f.
Proof.
  rewrite get_In by apply spans_keys. pose proof (span_get evs tid) as G. destruct (map_get _ _ _) as [(a, b)|].
  - split; [intros [= -> ->]; auto|]. intros H. destruct (alive_span_fun _ _ _ _ _ _ H G) as (-> & ->). reflexivity.
  - split; [discriminate|]. intros ((x & hi & X1 & X2 & X3) & _). destruct G. exists x, s, hi. auto.
Qed.
Lemma happens_ordered e lo hi : happens e lo hi -> lo <= hi.
Proof. unfold happens. destruct (ev_payload e) as [[a b|t]|v]; [lia|lia|intros []]. Qed.
Lemma spans_ordered evs tid s f : In (tid, (s, f)) (thread_start_and_end evs) -> s <= f.
Proof. rewrite spans_spec. intros ((x & hi & X1 & X2 & X3) & _ & B). pose proof (B _ _ _ X1 X2 X3). apply happens_ordered in X3. lia. Qed.
Lemma spans_threads evs tid : In tid (map fst (thread_start_and_end evs)) <-> has_times evs tid.
Proof.
  pose proof (span_get evs tid) as G. split.
  - intros H. apply in_map_iff in H. destruct H as ((k, (s, f)) & E & H). cbn in E. subst k. apply spans_spec in H. destruct H as ((x & hi & X) & _). exists x, s, hi. auto.
  - intros H. destruct (map_get Z.eqb tid (thread_start_and_end evs)) as [(s, f)|] eqn:E; [|contradiction]. apply (get_In _ _ _ (spans_keys evs)) in E. apply (in_map fst) in E. exact E.
Qed.

(** ** The mapping *)
Definition few_threads (evs : list event) : Prop := zlen (nodup Z.eq_dec (map ev_thread evs)) < 2 ^ 32.
Lemma mapping_inv oc evs r : few_threads evs -> thread_mapping oc true evs r ->
  exists m P C L n, r = Ok m /\ inv (thread_start_and_end evs) P C L m n /\ forall tid, In tid P <-> has_times evs tid.
Proof.
  intros FT H. inversion H as [|ends starts _ (PE & SE) (PS & SS)]; subst; [discriminate|]. set (spans := thread_start_and_end evs) in *.
  assert (ME : map snd (map (fun x : Z * (Z * Z) => (snd (snd x), fst x)) spans) = map fst spans) by (rewrite map_map; reflexivity).
  assert (MS : map snd (map (fun x : Z * (Z * Z) => (fst (snd x), fst x)) spans) = map fst spans) by (rewrite map_map; reflexivity).
  assert (KE : forall tid, In tid (map fst spans) <-> In tid (map snd ends)). { intros tid. rewrite <- ME. split; apply Permutation_in; [|apply Permutation_sym]; apply Permutation_map, PE. }
  assert (KS : forall tid, In tid (map fst spans) <-> In tid (map snd starts)). { intros tid. rewrite <- MS. split; apply Permutation_in; [|apply Permutation_sym]; apply Permutation_map, PS. }
  destruct (loop spans (spans_keys evs) (spans_ordered evs) oc starts [] [] [] [] 0%nat ends) as (s' & P & C & L & n & E & I & D).
  - constructor.
    + intros tid. split; [intros []|intros (v & Q); discriminate].
    + intros x [].
    + cbn. tauto.
    + reflexivity.
    + discriminate.
    + intros ? ? ? ? ? ? ? [].
    + discriminate.
    + lia.
  - intros x Hx. apply (Permutation_in _ (Permutation_sym PS)) in Hx. apply in_map_iff in Hx. destruct Hx as ((t, (s, e)) & <- & Hx). exists e. exact Hx.
  - intros x Hx. apply (Permutation_in _ (Permutation_sym PE)) in Hx. apply in_map_iff in Hx. destruct Hx as ((t, (s, e)) & <- & Hx). exists s. exact Hx.
  - exact SS.
  - exact SE.
  - eapply Permutation_NoDup; [apply Permutation_map, PE|]. rewrite ME. apply spans_keys.
  - intros tid. rewrite KE. cbn. tauto.
  - intros tid [].
  - eapply Permutation_NoDup; [apply Permutation_map, PS|]. rewrite MS. apply spans_keys.
  - intros tid. rewrite KS. cbn. tauto.
  - intros tid [].
  - intros p s e x [].
  - change (Z.of_nat 0) with 0. unfold zlen. rewrite <- (Permutation_length PS), map_length. unfold few_threads in FT.
    assert (LE : (List.length spans <= List.length (nodup Z.eq_dec (map ev_thread evs)))%nat).
    { rewrite <- (map_length fst spans). apply NoDup_incl_length; [apply spans_keys|]. intros tid Ht. apply spans_threads in Ht. destruct Ht as (e & lo & hi & He & <- & _). apply nodup_In, in_map, He. }
    unfold zlen in FT. lia.
  - change (Z.of_nat 0) with 0 in E. rewrite E. cbn [bind]. exists (mapping s'), P, C, L, n. split; auto. split; auto. intros tid. rewrite D. apply spans_threads.
Qed.
(** Collapsing never panics, whatever the hash order and the sort do (fewer than 2^32 threads). *)
Theorem C36_total : forall oc evs r, few_threads evs -> thread_mapping oc true evs r -> exists m, r = Ok m.
Proof. intros oc evs r FT H. destruct (mapping_inv _ _ _ FT H) as (m & P & C & L & n & E & _). eauto. Qed.
(** Every thread with a timed event gets an id; nothing else does. *)
Theorem C36_every_thread : forall oc evs m tid, few_threads evs -> thread_mapping oc true evs (Ok m) ->
  (has_times evs tid <-> exists id, map_get Z.eqb tid m = Some id).
Proof. intros oc evs m tid FT H. destruct (mapping_inv _ _ _ FT H) as (m' & P & C & L & n & [= <-] & I & D). rewrite <- D. apply (i_dom _ _ _ _ _ _ I). Qed.
(** Two threads with the same id are never alive at the same time. *)
Theorem C36_no_overlap : forall oc evs m tid tid' id s f s' f', few_threads evs -> thread_mapping oc true evs (Ok m) ->
  tid <> tid' -> map_get Z.eqb tid m = Some id -> map_get Z.eqb tid' m = Some id ->
  alive_span evs tid s f -> alive_span evs tid' s' f' -> f < s' \/ f' < s.
Proof.
  intros oc evs m tid tid' id s f s' f' FT H NE G G' A A'. destruct (mapping_inv _ _ _ FT H) as (m' & P & C & L & n & [= <-] & I & D).
  apply spans_spec in A, A'. eapply (i_disjoint _ _ _ _ _ _ I tid tid' id); eauto.
Qed.
(** The ids are 0, 1, ..., n-1, and n is the largest number of threads alive at the same time. *)
Theorem C36_minimal : forall oc evs m, few_threads evs -> thread_mapping oc true evs (Ok m) ->
  exists n, max_alive evs n /\ forall id, 0 <= id < n <-> exists tid, map_get Z.eqb tid m = Some id.
Proof.
  intros oc evs m FT H. destruct (mapping_inv _ _ _ FT H) as (m' & P & C & L & n & [= <-] & I & D). exists (Z.of_nat n). split; [split|].
  - destruct n as [|n].
    + exists 0, []. split; [constructor|]. split; [reflexivity|constructor].
    + destruct (i_alive _ _ _ _ _ _ I ltac:(lia)) as (t & A & A1 & A2 & A3). exists t, A. split; auto. split; [unfold zlen; lia|]. apply Forall_forall. intros tid Ht. destruct (A3 _ Ht) as (s & e & Hs & B). exists s, e. rewrite <- spans_spec. auto.
  - intros t tids ND F. rewrite Forall_forall in F.
    assert (K : exists ids, map (fun tid => map_get Z.eqb tid m) tids = map Some ids /\ NoDup ids /\ incl ids (upto n)).
    { assert (G : forall tid, In tid tids -> exists v, map_get Z.eqb tid m = Some v /\ In v (upto n)).
      { intros tid Ht. destruct (F _ Ht) as (s & f & A & _). assert (HT : has_times evs tid). { destruct A as ((x & hi & X) & _). exists x, s, hi. auto. }
        apply D in HT. apply (i_dom _ _ _ _ _ _ I) in HT. destruct HT as (v & G). exists v. split; auto. apply (i_range _ _ _ _ _ _ I) in G. unfold upto. apply in_map_iff. exists (Z.to_nat v). split; [lia|]. apply in_seq. lia. }
      assert (INJ : forall a b v, In a tids -> In b tids -> map_get Z.eqb a m = Some v -> map_get Z.eqb b m = Some v -> a = b).
      { intros a b v Ha Hb Ga Gb. destruct (Z.eq_dec a b); auto. exfalso. destruct (F _ Ha) as (s & f & A & B). destruct (F _ Hb) as (s' & f' & A' & B').
        pose proof (C36_no_overlap oc evs m a b v s f s' f' FT H n0 Ga Gb A A'). lia. }
      clear F. induction tids as [|a tids IH]; [exists []; split; [reflexivity|split; [constructor|intros x []]]|]. inversion ND as [|? ? Na ND']; subst.
      destruct IH as (ids & E & NDi & Hi); auto. { intros tid Ht. apply G. right; auto. } { intros x y v Hx Hy. apply INJ; right; auto. }
      destruct (G a (or_introl eq_refl)) as (v & Gv & Hv). exists (v :: ids). cbn [map]. split; [congruence|]. split; [constructor; auto|intros x [<-|Hx]; auto].
      intros Hin. assert (Q : In (Some v) (map Some ids)) by (apply in_map; auto). rewrite <- E in Q. apply in_map_iff in Q. destruct Q as (b & Gb & Hb).
      apply Na. rewrite (INJ a b v); auto; [left; auto|right; auto]. }
    destruct K as (ids & E & NDi & Hi). pose proof (NoDup_incl_length NDi Hi) as LE. pose proof (f_equal (@List.length _) E) as LL. rewrite !map_length in LL. unfold upto in LE. rewrite map_length, seq_length in LE. unfold zlen. lia.
  - intros id. split.
    + intros B. pose proof (i_ids _ _ _ _ _ _ I) as E. assert (Q : In (Some id) (map Some (upto n))). { apply in_map. unfold upto. apply in_map_iff. exists (Z.to_nat id). split; [lia|]. apply in_seq. lia. }
      rewrite <- E in Q. apply in_map_iff in Q. destruct Q as (tid & G & _). eauto.
    + intros (tid & G). apply (i_range _ _ _ _ _ _ I) in G. lia.
Qed.
(** A result exists: sorting is possible. *)
Fixpoint insert_key (x : Z * Z) (l : list (Z * Z)) : list (Z * Z) :=
  match l with [] => [x] | y :: l' => if fst x <=? fst y then x :: l else y :: insert_key x l' end.
Lemma insert_key_sorted x l : Permutation (x :: l) (insert_key x l) /\ (StronglySorted (fun a b => fst a <= fst b) l -> StronglySorted (fun a b => fst a <= fst b) (insert_key x l)).
Proof.
  induction l as [|y l (IH1 & IH2)]; cbn [insert_key]; [split; auto; repeat constructor|]. destruct (Z.leb_spec (fst x) (fst y)) as [LE|LT].
  - split; auto. intros S. constructor; auto. inversion S as [|? ? S' F]; subst. constructor; auto. rewrite Forall_forall in F |- *. intros z Hz. specialize (F _ Hz). lia.
  - split; [rewrite <- IH1; apply perm_swap|]. intros S. inversion S as [|? ? S' F]; subst. constructor; auto. rewrite Forall_forall in F |- *. intros z Hz.
    apply (Permutation_in _ (Permutation_sym IH1)) in Hz. destruct Hz as [<-|Hz]; [lia|auto].
Qed.
Lemma sortable l : exists r, sorted_by_key l r.
Proof.
  unfold sorted_by_key. induction l as [|x l (r & P & S)]; [exists []; split; constructor|]. exists (insert_key x r). destruct (insert_key_sorted x r) as (A & B). split; auto. rewrite P. exact A.
Qed.
Theorem C36_exists : forall oc evs, exists r, thread_mapping oc true evs r.
Proof. intros oc evs. destruct (sortable (map (fun x => (snd (snd x), fst x)) (thread_start_and_end evs))) as (ends & E). destruct (sortable (map (fun x => (fst (snd x), fst x)) (thread_start_and_end evs))) as (starts & S). eexists. eapply tm_on; eauto. Qed.
Example C36_example : exists m, thread_mapping true true
  [mkEv [] [] [] (Timestamp (Interval 0 10)) 7; mkEv [] [] [] (Timestamp (Interval 5 20)) 8; mkEv [] [] [] (Timestamp (Instant 15)) 9; mkEv [] [] [] (Integer 3) 11; mkEv [] [] [] (Timestamp (Interval 21 30)) 12] (Ok m) /\
  map_get Z.eqb 7 m = Some 0 /\ map_get Z.eqb 8 m = Some 1 /\ map_get Z.eqb 9 m = Some 0 /\ map_get Z.eqb 12 m = Some 0 /\ map_get Z.eqb 11 m = None.
Proof.
  eexists. split.
  - eapply (eq_rect (do s <- foldM (collapse_one true) (mkCx [(10, 7); (15, 9); (20, 8); (30, 12)] [] 0) [(0, 7); (5, 8); (15, 9); (21, 12)]; Ok (mapping s))); [apply tm_on; auto|reflexivity].
    + split; [|repeat constructor; cbn; lia]. change (map _ _) with [(10, 7); (20, 8); (15, 9); (30, 12)]. apply perm_skip, perm_swap.
    + split; [|repeat constructor; cbn; lia]. reflexivity.
  - repeat split.
Qed.
Print Assumptions C36_minimal.
