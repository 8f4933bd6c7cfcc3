(** C33: the tables of extreme values.  Model M_Aggregate.v, specification S_Extrema.v. *)
From Coq Require Import ZArith List Lia Bool Permutation Sorted.
From Verif Require Import M_Base F_Base M_Map M_Analysis F_Analysis M_Diff M_Aggregate S_Extrema.
Import ListNotations.
Open Scope Z_scope.

Section Extrema.
  Context {S : Type}.
  Notation tbl := (list (Z * sources S)).
  Definition keys (m : tbl) : list Z := map fst m.
  Definition sorted (m : tbl) : Prop := StronglySorted Z.lt (keys m).

  Lemma sorted_app_inv (a b : tbl) : sorted (a ++ b) -> sorted a /\ sorted b /\ forall x y, In x (keys a) -> In y (keys b) -> x < y.
  Proof.
    unfold sorted, keys. rewrite map_app. induction a as [|(k, x) a IH]; cbn [map app fst]; intros H.
    - split; [constructor|]. split; auto. intros x y [].
    - inversion H as [|? ? H1 H2]; subst. destruct (IH H1) as (I1 & I2 & I3). apply Forall_app in H2. destruct H2 as (H2 & H3).
      split; [constructor; auto|]. split; auto. intros u v [<-|Hu] Hv; auto. rewrite Forall_forall in H3. auto.
  Qed.
  Lemma sorted_app (a b : tbl) : sorted a -> sorted b -> (forall x y, In x (keys a) -> In y (keys b) -> x < y) -> sorted (a ++ b).
  Proof.
    unfold sorted, keys. rewrite map_app. induction a as [|(k, x) a IH]; cbn [map app fst]; intros Ha Hb H; auto.
    inversion Ha as [|? ? H1 H2]; subst. constructor.
    - apply IH; auto. intros; apply H; auto. right; auto.
    - apply Forall_app. split; auto. apply Forall_forall. intros y Hy. apply H; auto. left; auto.
  Qed.

  (** ** Insertion *)
  Lemma bt_add_new v s (a b : tbl) : (forall x, In x (keys a) -> x < v) -> (forall y, In y (keys b) -> v < y) ->
    bt_add v s (a ++ b) = a ++ (v, SOne s) :: b.
  Proof.
    intros Ha Hb. induction a as [|(k, x) a IH]; cbn [app bt_add].
    - destruct b as [|(k, x) b]; cbn [bt_add src_add]; auto. destruct (Z.ltb_spec v k); auto. specialize (Hb k (or_introl eq_refl)). lia.
    - assert (k < v) by (apply Ha; left; auto). destruct (Z.ltb_spec v k); [lia|]. destruct (Z.eqb_spec v k); [lia|].
      rewrite IH; auto. intros; apply Ha; right; auto.
  Qed.
  Lemma bt_add_old v s x (a b : tbl) : (forall x, In x (keys a) -> x < v) -> bt_add v s (a ++ (v, x) :: b) = a ++ (v, src_add x s) :: b.
  Proof.
    intros Ha. induction a as [|(k, y) a IH]; cbn [app bt_add].
    - rewrite Z.ltb_irrefl, Z.eqb_refl. reflexivity.
    - assert (k < v) by (apply Ha; left; auto). destruct (Z.ltb_spec v k); [lia|]. destruct (Z.eqb_spec v k); [lia|].
      rewrite IH; auto. intros; apply Ha; right; auto.
  Qed.
  Lemma split_at v (m : tbl) : sorted m ->
    (exists a b, m = a ++ b /\ (forall x, In x (keys a) -> x < v) /\ (forall y, In y (keys b) -> v < y)) \/
    (exists a x b, m = a ++ (v, x) :: b /\ (forall x, In x (keys a) -> x < v) /\ (forall y, In y (keys b) -> v < y)).
  Proof.
    unfold sorted, keys. induction m as [|(k, x) m IH]; cbn [map fst]; intros H.
    - left. exists [], []. repeat split; intros ? [].
    - inversion H as [|? ? H1 H2]; subst. rewrite Forall_forall in H2. destruct (Z.lt_trichotomy v k) as [L|[E|L]].
      + left. exists [], ((k, x) :: m). split; auto. split; [intros ? []|]. intros y [<-|Hy]; auto. specialize (H2 _ Hy). lia.
      + right. exists [], x, m. subst k. split; auto. split; [intros ? []|auto].
      + destruct (IH H1) as [(a & b & -> & A & B)|(a & y & b & -> & A & B)].
        * left. exists ((k, x) :: a), b. split; auto. split; auto. intros u [<-|Hu]; auto.
        * right. exists ((k, x) :: a), y, b. split; auto. split; auto. intros u [<-|Hu]; auto.
  Qed.
  Lemma bt_add_sorted v s (m : tbl) : sorted m -> sorted (bt_add v s m).
  Proof.
    intros H. destruct (split_at v m H) as [(a & b & -> & A & B)|(a & x & b & -> & A & B)].
    - rewrite bt_add_new by auto. apply sorted_app_inv in H. destruct H as (H1 & H2 & H3). apply sorted_app; auto.
      + constructor; auto. apply Forall_forall. auto.
      + intros p q Hp [<-|Hq]; auto.
    - rewrite bt_add_old by auto. unfold sorted, keys in *. rewrite map_app in *. exact H.
  Qed.
  Lemma bt_add_get v s k (m : tbl) : sorted m -> map_get Z.eqb k (bt_add v s m) =
    if k =? v then Some (src_add (match map_get Z.eqb v m with Some x => x | None => SEmpty end) s) else map_get Z.eqb k m.
  Proof.
    assert (G : forall q (a c : tbl), ~ In q (keys a) -> map_get Z.eqb q (a ++ c) = map_get Z.eqb q c).
    { intros q a c. induction a as [|(k', x) a IH]; cbn [app map_get keys map fst]; auto. intros H. destruct (Z.eqb_spec q k') as [E|E].
      - destruct H. left; auto. - apply IH. intros H'. apply H. right. auto. }
    assert (G2 : forall q (a c c' : tbl), (forall x, In x (keys a) -> x < v) -> (q = v \/ map_get Z.eqb q c = map_get Z.eqb q c') -> q <> v -> map_get Z.eqb q (a ++ c) = map_get Z.eqb q (a ++ c')).
    { intros q a c c' Ha [E|E] N; [congruence|]. induction a as [|(k', x) a IH]; cbn [app map_get]; auto. destruct (q =? k'); auto.
      apply IH. intros; apply Ha; right; auto. }
    intros H. destruct (split_at v m H) as [(a & b & -> & A & B)|(a & x & b & -> & A & B)].
    - rewrite bt_add_new by auto. destruct (Z.eqb_spec k v) as [->|N].
      + rewrite G. 2:{ intros Hv. apply A in Hv. lia. } cbn [map_get]. rewrite Z.eqb_refl. f_equal.
        rewrite G. 2:{ intros Hv. apply A in Hv. lia. }
        destruct (map_get Z.eqb v b) as [y|] eqn:E; [|reflexivity]. apply (get_In Z.eqb zeqb_eq) in E. apply (in_map fst) in E. apply B in E. cbn in E. lia.
      + apply G2; auto. right. cbn [map_get]. destruct (Z.eqb_spec k v); [congruence|auto].
    - rewrite bt_add_old by auto. destruct (Z.eqb_spec k v) as [->|N].
      + rewrite !G. 2,3: intros Hv; apply A in Hv; lia. cbn [map_get]. rewrite Z.eqb_refl. reflexivity.
      + apply G2; auto. right. cbn [map_get]. destruct (Z.eqb_spec k v); [congruence|auto].
  Qed.
  Lemma bt_add_length v s (m : tbl) : sorted m -> length (bt_add v s m) = length m \/ length (bt_add v s m) = Datatypes.S (length m) /\ ~ In v (keys m).
  Proof.
    intros H. destruct (split_at v m H) as [(a & b & -> & A & B)|(a & x & b & -> & A & B)].
    - right. rewrite bt_add_new by auto. rewrite !app_length. cbn [length]. split; [lia|]. unfold keys. rewrite map_app, in_app_iff.
      intros [Hv|Hv]; [apply A in Hv|apply B in Hv]; lia.
    - left. rewrite bt_add_old by auto. rewrite !app_length. reflexivity.
  Qed.

  (** ** The unlimited table *)
  Definition full (hist : list (Z * S)) : tbl := fold_left (fun m x => bt_add (fst x) (snd x) m) hist [].
  Lemma full_snoc (hist : list (Z * S)) v s : full (hist ++ [(v, s)]) = bt_add v s (full hist).
  Proof. unfold full. rewrite fold_left_app. reflexivity. Qed.
  Lemma full_sorted (hist : list (Z * S)) : sorted (full hist).
  Proof. induction hist as [|(v, s) hist IH] using rev_ind; [constructor|]. rewrite full_snoc. apply bt_add_sorted; auto. Qed.
  Lemma occ_snoc_same (hist : list (Z * S)) v s : occurrences (hist ++ [(v, s)]) v = src_add (occurrences hist v) s.
  Proof.
    unfold occurrences. rewrite filter_app. cbn [filter fst]. rewrite Z.eqb_refl.
    destruct (filter (fun x : Z * S => fst x =? v) hist) as [|x [|y l]]; cbn [app src_add src_count snd]; auto.
    f_equal. rewrite !zlen_cons, zlen_app. change (zlen [(v, s)]) with 1. lia.
  Qed.
  Lemma occ_snoc_other (hist : list (Z * S)) v s k : k <> v -> occurrences (hist ++ [(v, s)]) k = occurrences hist k.
  Proof. intros H. unfold occurrences. rewrite filter_app. cbn [filter fst]. destruct (Z.eqb_spec v k); [congruence|]. rewrite app_nil_r. reflexivity. Qed.
  Lemma full_get (hist : list (Z * S)) : forall k, (In k (map fst hist) -> map_get Z.eqb k (full hist) = Some (occurrences hist k)) /\ (~ In k (map fst hist) -> map_get Z.eqb k (full hist) = None).
  Proof.
    induction hist as [|(v, s) hist IH] using rev_ind; intros k.
    - split; [intros []|reflexivity].
    - rewrite full_snoc, bt_add_get by apply full_sorted. rewrite map_app, in_app_iff. cbn [map fst In].
      destruct (Z.eqb_spec k v) as [->|N].
      + split; [intros _|tauto]. rewrite occ_snoc_same. f_equal. f_equal.
        destruct (in_dec Z.eq_dec v (map fst hist)) as [D|D].
        * rewrite (proj1 (IH v) D). reflexivity.
        * rewrite (proj2 (IH v) D). unfold occurrences. destruct (filter (fun x : Z * S => fst x =? v) hist) as [|x l] eqn:E; auto.
          exfalso. apply D. assert (In x (filter (fun x : Z * S => fst x =? v) hist)) by (rewrite E; left; auto).
          apply filter_In in H. destruct H as (H1 & H2). apply Z.eqb_eq in H2. subst v. apply in_map; auto.
      + rewrite occ_snoc_other by auto. split.
        * intros [H|[H|[]]]; [apply IH; auto|congruence].
        * intros H. apply IH. tauto.
  Qed.
  Lemma sorted_NoDup (m : tbl) : sorted m -> NoDup (keys m).
  Proof.
    unfold sorted. induction (keys m) as [|k l IH]; intros H; [constructor|]. inversion H as [|? ? H1 H2]; subst. constructor; auto.
    intros Hin. rewrite Forall_forall in H2. specialize (H2 _ Hin). lia.
  Qed.
  Lemma full_In (hist : list (Z * S)) v x : In (v, x) (full hist) <-> In v (map fst hist) /\ x = occurrences hist v.
  Proof.
    pose proof (sorted_NoDup _ (full_sorted hist)) as N. split.
    - intros H. pose proof (In_get Z.eqb zeqb_eq _ _ _ N H) as G.
      destruct (in_dec Z.eq_dec v (map fst hist)) as [D|D]; [rewrite (proj1 (full_get hist v) D) in G|rewrite (proj2 (full_get hist v) D) in G; discriminate].
      injection G as <-. auto.
    - intros (D & ->). apply (get_In Z.eqb zeqb_eq). apply full_get; auto.
  Qed.
  Lemma full_keys (hist : list (Z * S)) v : In v (keys (full hist)) <-> In v (map fst hist).
  Proof.
    unfold keys. split.
    - intros H. apply in_map_iff in H. destruct H as ((k, x) & <- & H). apply full_In in H. tauto.
    - intros H. apply (in_map fst (full hist) (v, occurrences hist v)). apply full_In. auto.
  Qed.
  Lemma firstn_In L : forall (m : tbl) v x, sorted m -> (In (v, x) (firstn L m) <-> In (v, x) m /\ (length (filter (fun k => (k <? v)%Z) (keys m)) < L)%nat).
  Proof.
    induction L as [|L IH]; intros m v x H; cbn [firstn].
    - split; [intros []|lia].
    - destruct m as [|(k, y) m]; cbn [In keys map fst filter].
      + split; [intros []|tauto].
      + unfold sorted in H. cbn [keys map fst] in H. inversion H as [|? ? H1 H2]; subst. rewrite Forall_forall in H2.
        assert (Z0 : forall l, (forall q, In q l -> v < q \/ v = q) -> length (filter (fun k => k <? v) l) = 0%nat).
        { induction l as [|q l IHl]; intros Hl; auto. cbn [filter]. destruct (Z.ltb_spec q v). { destruct (Hl q (or_introl eq_refl)); lia. }
          apply IHl. intros; apply Hl; right; auto. }
        destruct (Z.ltb_spec k v) as [Lt|Ge].
        * rewrite IH by auto. cbn [length]. split.
          -- intros [E|(A & B)]; [injection E as -> ->; lia|]. split; auto. unfold keys in B. lia.
          -- intros ([E|A] & B); [injection E as -> ->; lia|]. right. split; auto. unfold keys. lia.
        * assert (E0 : forall q, In q (keys m) -> v < q \/ v = q). { intros q Hq. left. specialize (H2 _ Hq). lia. }
          specialize (Z0 _ E0). unfold keys in Z0. rewrite Z0. split.
          -- intros [E|A]; [split; [left; auto|lia]|]. split; [|lia]. right. rewrite <- (firstn_skipn L m), in_app_iff. auto.
          -- intros ([E|A] & B); [left; auto|]. exfalso. apply (in_map fst) in A. apply H2 in A. cbn in A. lia.
  Qed.
  Lemma nodup_count (l l' : list Z) : NoDup l -> (forall x, In x l <-> In x l') -> forall p, length (filter p l) = length (nodup Z.eq_dec (filter p l')).
  Proof.
    intros N H p. apply Permutation_length. apply NoDup_Permutation; [apply NoDup_filter; auto|apply NoDup_nodup|].
    intros x. rewrite nodup_In, !filter_In, H. tauto.
  Qed.
  Lemma table_of_full L (hist : list (Z * S)) : smallest_table (Z.of_nat L) hist (firstn L (full hist)).
  Proof.
    split.
    - pose proof (full_sorted hist) as H. rewrite <- (firstn_skipn L (full hist)) in H. apply sorted_app_inv in H. apply H.
    - intros v x. rewrite firstn_In by apply full_sorted. rewrite full_In.
      rewrite (nodup_count _ (map fst hist) (sorted_NoDup _ (full_sorted hist)) (full_keys hist)). unfold smaller_seen, zlen. rewrite Nat2Z.inj_lt. tauto.
  Qed.

  (** ** One step *)
  Lemma firstn_bt_add v s : forall L (m : tbl), firstn L (bt_add v s m) = firstn L (bt_add v s (firstn L m)).
  Proof.
    assert (F : forall L (y : Z * sources S) m, firstn L (y :: firstn L m) = firstn L (y :: m)).
    { intros [|L] y m; auto. rewrite !firstn_cons, firstn_firstn. f_equal. f_equal. lia. }
    induction L as [|L IH]; intros m; auto. destruct m as [|(k, x) m]; auto. rewrite firstn_cons. cbn [bt_add].
    destruct (v <? k); [rewrite !firstn_cons; f_equal; symmetry; apply F|].
    destruct (v =? k); rewrite !firstn_cons; f_equal; auto. rewrite firstn_firstn. f_equal. lia.
  Qed.
  Lemma bt_remove_last (a : tbl) k x : sorted (a ++ [(k, x)]) -> bt_remove k (a ++ [(k, x)]) = a.
  Proof.
    intros H. apply sorted_app_inv in H. destruct H as (_ & _ & H). unfold bt_remove. rewrite filter_app. cbn [filter fst]. rewrite Z.eqb_refl. cbn [negb].
    rewrite app_nil_r. induction a as [|(q, y) a IH]; auto. cbn [filter fst]. assert (q < k) by (apply H; left; auto).
    destruct (Z.eqb_spec q k); [lia|]. cbn [negb]. f_equal. apply IH. intros; apply H; auto. right; auto.
  Qed.
  Lemma smallest_step L v s (m : tbl) : (1 <= L)%nat -> sorted m ->
    ex_add_smallest (Z.of_nat L) v s (firstn L m) = Ok (firstn L (bt_add v s m)).
  Proof.
    intros HL HS. rewrite firstn_bt_add. set (t := firstn L m).
    assert (Ht : sorted t). { pose proof HS as H. rewrite <- (firstn_skipn L m) in H. apply sorted_app_inv in H. apply H. }
    assert (Hlen : (length t <= L)%nat) by apply firstn_le_length. clearbody t. clear HS m.
    unfold ex_add_smallest. pose proof (bt_add_length v s t Ht) as HB. destruct (Z.ltb_spec (zlen t) (Z.of_nat L)) as [Lt|Ge].
    - rewrite firstn_all2; auto. unfold zlen in Lt. lia.
    - assert (EL : length t = L) by (unfold zlen in Ge; lia). destruct t as [|p t _] using rev_ind; [cbn in EL; lia|]. destruct p as (k, x).
      unfold keys in *. rewrite map_app, rev_app_distr. cbn [map fst rev app hd_error unwrap bind].
      pose proof (sorted_app_inv _ _ Ht) as (T1 & T2 & T3).
      destruct (Z.ltb_spec k v) as [Gt|Le]; cbn [negb].
      + rewrite <- (app_nil_r (t ++ [(k, x)])), bt_add_new.
        * rewrite !app_nil_r. rewrite firstn_app, EL, Nat.sub_diag, firstn_O, app_nil_r, firstn_all2 by lia. reflexivity.
        * unfold keys. rewrite map_app. intros q Hq. apply in_app_or in Hq. cbn [map fst In] in Hq. destruct Hq as [Hq|[<-|[]]]; auto.
          assert (q < k) by (apply T3; [auto|left; auto]). lia.
        * intros y [].
      + destruct (Z.eq_dec v k) as [->|N].
        * rewrite bt_add_old. 2:{ intros q Hq. apply T3; auto. left; auto. }
          rewrite !app_length in *. cbn [length] in *.
          destruct (Z.ltb_spec (Z.of_nat L) (zlen (t ++ [(k, src_add x s)]))) as [Q|Q]; [unfold zlen in Q; rewrite app_length in Q; cbn [length] in Q; lia|].
          destruct (Z.eqb_spec (zlen (t ++ [(k, src_add x s)])) (Z.of_nat L)) as [Q'|Q']; [|unfold zlen in Q'; rewrite app_length in Q'; cbn [length] in Q'; lia].
          rewrite firstn_all2; auto. rewrite app_length. cbn [length]. lia.
        * assert (E : bt_add v s (t ++ [(k, x)]) = bt_add v s t ++ [(k, x)]).
          { destruct (split_at v t T1) as [(a & b & -> & A & B)|(a & y & b & -> & A & B)].
            - rewrite <- app_assoc, !bt_add_new; auto; [rewrite <- app_assoc; reflexivity|].
              unfold keys. rewrite map_app. intros y Hy. apply in_app_or in Hy. destruct Hy as [Hy|[<-|[]]]; auto. cbn. lia.
            - rewrite <- app_assoc. cbn [app]. rewrite !bt_add_old by auto. rewrite <- app_assoc. reflexivity. }
          pose proof (bt_add_sorted v s _ Ht) as HS'. rewrite E in *. rewrite (app_length t) in HB, EL. rewrite app_length in HB. cbn [length] in HB, EL.
          destruct HB as [HB|(HB & NI)].
          -- destruct (Z.ltb_spec (Z.of_nat L) (zlen (bt_add v s t ++ [(k, x)]))) as [Q|Q]; [unfold zlen in Q; rewrite app_length in Q; cbn [length] in Q; lia|].
             destruct (Z.eqb_spec (zlen (bt_add v s t ++ [(k, x)])) (Z.of_nat L)) as [Q'|Q']; [|unfold zlen in Q'; rewrite app_length in Q'; cbn [length] in Q'; lia].
             rewrite firstn_all2; auto. rewrite app_length. cbn [length]. lia.
          -- destruct (Z.ltb_spec (Z.of_nat L) (zlen (bt_add v s t ++ [(k, x)]))) as [Q|Q]; [|unfold zlen in Q; rewrite app_length in Q; cbn [length] in Q; lia].
             rewrite bt_remove_last by auto.
             destruct (Z.eqb_spec (zlen (bt_add v s t)) (Z.of_nat L)) as [Q'|Q']; [|unfold zlen in Q'; lia].
             rewrite firstn_app. replace (L - length (bt_add v s t))%nat with 0%nat by lia. rewrite firstn_O, app_nil_r, firstn_all2 by lia. reflexivity.
  Qed.

  (** ** The other end, by symmetry *)
  Definition flip (m : tbl) : tbl := rev (map (fun x => (- fst x, snd x)) m).
  Lemma flip_flip (m : tbl) : flip (flip m) = m.
  Proof.
    unfold flip. rewrite map_rev, rev_involutive, map_map. rewrite <- (map_id m) at 2. apply map_ext. intros (k, x). cbn. rewrite Z.opp_involutive. reflexivity.
  Qed.
  Lemma flip_app (a b : tbl) : flip (a ++ b) = flip b ++ flip a.
  Proof. unfold flip. rewrite map_app, rev_app_distr. reflexivity. Qed.
  Lemma flip_keys (m : tbl) k : In k (keys (flip m)) <-> In (- k) (keys m).
  Proof.
    unfold flip, keys. rewrite map_rev, <- in_rev, map_map, !in_map_iff. cbn [fst]. split; intros (x & E & H); exists x; split; auto; lia.
  Qed.
  Lemma flip_sorted (m : tbl) : sorted m -> sorted (flip m).
  Proof.
    induction m as [|(k, x) m IH]; intros H; [constructor|]. change ((k, x) :: m) with ([(k, x)] ++ m) in *. apply sorted_app_inv in H. destruct H as (H1 & H2 & H3).
    rewrite flip_app. apply sorted_app; auto. { repeat constructor. }
    intros p q Hp Hq. apply flip_keys in Hp, Hq. specialize (H3 (- q) (- p) Hq Hp). lia.
  Qed.
  Lemma bt_add_flip v s (m : tbl) : sorted m -> bt_add v s m = flip (bt_add (- v) s (flip m)).
  Proof.
    intros H. destruct (split_at v m H) as [(a & b & -> & A & B)|(a & x & b & -> & A & B)].
    - rewrite bt_add_new by auto. rewrite flip_app, bt_add_new.
      + rewrite flip_app. change ((- v, SOne s) :: flip a) with ([(- v, SOne s)] ++ flip a). rewrite flip_app, !flip_flip. cbn. rewrite Z.opp_involutive, <- app_assoc. reflexivity.
      + intros q Hq. apply flip_keys, B in Hq. lia.
      + intros q Hq. apply flip_keys, A in Hq. lia.
    - rewrite bt_add_old by auto. rewrite flip_app. change ((v, x) :: b) with ([(v, x)] ++ b). rewrite flip_app. cbn [flip map rev app fst snd]. rewrite <- app_assoc. cbn [app].
      rewrite bt_add_old. 2:{ intros q Hq. apply flip_keys, B in Hq. lia. }
      rewrite flip_app. change ((- v, src_add x s) :: flip a) with ([(- v, src_add x s)] ++ flip a). rewrite flip_app, !flip_flip. cbn. rewrite Z.opp_involutive, <- app_assoc. reflexivity.
  Qed.
  Lemma flip_zlen (m : tbl) : zlen (flip m) = zlen m.
  Proof. unfold zlen, flip. rewrite rev_length, map_length. reflexivity. Qed.
  Lemma bt_remove_flip k (m : tbl) : bt_remove k (flip m) = flip (bt_remove (- k) m).
  Proof.
    unfold bt_remove, flip. induction m as [|(q, x) m IH]; auto. cbn [map rev filter fst snd]. rewrite filter_app, IH. cbn [filter fst].
    destruct (Z.eqb_spec (- q) k), (Z.eqb_spec q (- k)); try lia; cbn [negb map rev fst snd]; auto. apply app_nil_r.
  Qed.
  Lemma largest_smallest limit v s (m : tbl) : sorted m -> ex_add_largest limit v s m = do t <- ex_add_smallest limit (- v) s (flip m); Ok (flip t).
  Proof.
    intros H. unfold ex_add_largest, ex_add_smallest. rewrite flip_zlen. destruct (zlen m <? limit) eqn:E0.
    { cbn [bind]. rewrite bt_add_flip by auto. reflexivity. }
    replace (rev (map fst (flip m))) with (map Z.opp (map fst m)). 2:{ unfold flip. rewrite map_rev, rev_involutive, !map_map. reflexivity. }
    destruct m as [|(k, x) m]; [reflexivity|]. cbn [map fst hd_error unwrap bind].
    replace (- k <? - v) with (v <? k). 2:{ destruct (Z.ltb_spec v k), (Z.ltb_spec (- k) (- v)); lia. }
    destruct (v <? k); cbn [negb bind].
    { rewrite flip_flip. reflexivity. }
    rewrite (bt_add_flip v s _ H). rewrite flip_zlen. set (t := bt_add (- v) s (flip ((k, x) :: m))).
    rewrite bt_remove_flip. destruct (limit <? zlen t).
    - rewrite flip_zlen. destruct (zlen (bt_remove (- k) t) =? limit); reflexivity.
    - rewrite flip_zlen. destruct (zlen t =? limit); reflexivity.
  Qed.
End Extrema.

Definition neg_hist {S} (hist : list (Z * S)) : list (Z * S) := map (fun x => (- fst x, snd x)) hist.
Lemma occ_neg {S} (hist : list (Z * S)) v : occurrences (neg_hist hist) v = occurrences hist (- v).
Proof.
  unfold occurrences, neg_hist.
  replace (filter (fun x => fst x =? v) (map (fun x => (- fst x, snd x)) hist)) with (map (fun x : Z * S => (- fst x, snd x)) (filter (fun x => fst x =? - v) hist)).
  - destruct (filter (fun x : Z * S => fst x =? - v) hist) as [|x [|y l]]; auto. cbn [map]. f_equal. unfold zlen. cbn [length]. rewrite map_length. reflexivity.
  - induction hist as [|(k, s) hist IH]; auto. cbn [map filter fst snd]. destruct (Z.eqb_spec k (- v)), (Z.eqb_spec (- k) v); try lia; cbn [map fst snd]; rewrite IH; auto.
Qed.
Lemma seen_neg {S} (hist : list (Z * S)) v : smaller_seen (neg_hist hist) v = larger_seen hist (- v).
Proof.
  unfold smaller_seen, larger_seen, neg_hist. rewrite map_map. cbn [fst].
  replace (filter (fun x => x <? v) (map (fun x : Z * S => - fst x) hist)) with (map Z.opp (filter (fun x => - v <? x) (map fst hist))).
  - set (l := filter _ _). clearbody l. unfold zlen. f_equal. rewrite <- (map_length Z.opp (nodup Z.eq_dec l)). apply Permutation_length.
    apply NoDup_Permutation; [apply NoDup_nodup| |].
    + apply FinFun.Injective_map_NoDup; [intros a b; lia|apply NoDup_nodup].
    + intros x. rewrite nodup_In, !in_map_iff. split; intros (y & E & H); exists y; rewrite nodup_In in *; auto.
  - induction hist as [|(k, s) hist IH]; auto. cbn [map filter fst snd]. destruct (Z.ltb_spec (- v) k), (Z.ltb_spec (- k) v); try lia; cbn [map]; rewrite <- IH; auto.
Qed.

Lemma flip_table {S} limit (hist : list (Z * S)) t : smallest_table limit (neg_hist hist) t -> largest_table limit hist (flip t).
Proof.
  intros (H1 & H2). split; [apply flip_sorted in H1; exact H1|]. intros v x.
  assert (E : In (v, x) (flip t) <-> In (- v, x) t).
  { unfold flip. rewrite <- in_rev, in_map_iff. split.
    - intros ((k, y) & [= <- <-] & H). cbn [fst snd]. rewrite Z.opp_involutive. auto.
    - intros H. exists (- v, x). cbn [fst snd]. rewrite Z.opp_involutive. auto. }
  rewrite E, H2, seen_neg, occ_neg, Z.opp_involutive.
  assert (K : In (- v) (map fst (neg_hist hist)) <-> In v (map fst hist)).
  { unfold neg_hist. rewrite map_map. cbn [fst]. rewrite !in_map_iff. split; intros (y & Ey & Hy); exists y; split; auto; lia. }
  rewrite K. tauto.
Qed.

(** Inserting a history of ranges: the table of the smallest gets the lower ends, the table of the
    largest the upper ends. *)
Definition insert_all {S} (x : extrema S) (h : list (Z * Z * S)) : res (extrema S) :=
  foldM (fun x r => ex_add_range x (fst (fst r)) (snd (fst r)) (snd r)) x h.
Definition lows {S} (h : list (Z * Z * S)) : list (Z * S) := map (fun r => (fst (fst r), snd r)) h.
Definition highs {S} (h : list (Z * Z * S)) : list (Z * S) := map (fun r => (snd (fst r), snd r)) h.

(** After any history no insertion has panicked and both tables are exact. *)
Theorem C33_exact : forall (S : Type) limit (h : list (Z * Z * S)), 1 <= limit ->
  exists x, insert_all (ex_new limit) h = Ok x /\ smallest_table limit (lows h) (ex_smallest x) /\ largest_table limit (highs h) (ex_largest x).
Proof.
  intros S limit h HL. set (L := Z.to_nat limit). assert (EL : limit = Z.of_nat L) by (unfold L; lia).
  assert (G : insert_all (ex_new limit) h = Ok (mkEx limit (firstn L (full (lows h))) (flip (firstn L (full (neg_hist (highs h))))))).
  { induction h as [|((lo, hi), s) h IH] using rev_ind; [unfold full; cbn; rewrite firstn_nil; reflexivity|].
    unfold insert_all in *. rewrite foldM_app, IH. cbn [bind foldM fst snd]. unfold ex_add_range. cbn [ex_limit ex_smallest ex_largest].
    rewrite EL, smallest_step by (try lia; apply full_sorted). cbn [bind].
    assert (HS : sorted (flip (firstn L (full (neg_hist (highs h)))))).
    { apply flip_sorted. pose proof (full_sorted (neg_hist (highs h))) as H. rewrite <- (firstn_skipn L (full _)) in H. apply sorted_app_inv in H. apply H. }
    rewrite largest_smallest, flip_flip by auto. rewrite smallest_step by (try lia; apply full_sorted). cbn [bind].
    unfold lows, highs, neg_hist. rewrite !map_app. cbn [map fst snd]. rewrite !full_snoc. reflexivity. }
  eexists. split; [exact G|]. cbn [ex_smallest ex_largest]. rewrite EL. split; [apply table_of_full|]. apply flip_table, table_of_full.
Qed.
(** The table is determined by the specification, so the order of the history does not matter
    beyond what [occurrences] says. *)
Lemma sorted_same (S : Type) (t : list (Z * sources S)) : forall t', StronglySorted Z.lt (map fst t) -> StronglySorted Z.lt (map fst t') ->
  (forall x, In x t <-> In x t') -> t = t'.
Proof.
  intros t' H1 K1 E.
  revert t' K1 E. induction t as [|(k, x) t IH]; intros t' K1 E.
  - destruct t' as [|y t']; auto. destruct (proj2 (E y) (or_introl eq_refl)).
  - destruct t' as [|(k', x') t']. { destruct (proj1 (E (k, x)) (or_introl eq_refl)). }
    cbn [map fst] in H1, K1. inversion H1 as [|? ? A1 A2]; subst. inversion K1 as [|? ? B1 B2]; subst. rewrite Forall_forall in A2, B2.
    assert (EQ : (k, x) = (k', x')).
    { destruct (proj1 (E (k, x)) (or_introl eq_refl)) as [Q|Q]; auto. destruct (proj2 (E (k', x')) (or_introl eq_refl)) as [Q'|Q']; auto.
      apply (in_map fst) in Q. apply B2 in Q. apply (in_map fst) in Q'. apply A2 in Q'. cbn in *. lia. }
    injection EQ as <- <-. f_equal. apply IH; auto. intros (v, y). split; intros Hy.
    + destruct (proj1 (E (v, y)) (or_intror Hy)) as [Q|Q]; auto. injection Q as <- <-. apply (in_map fst) in Hy. apply A2 in Hy. cbn in Hy. lia.
    + destruct (proj2 (E (v, y)) (or_intror Hy)) as [Q|Q]; auto. injection Q as <- <-. apply (in_map fst) in Hy. apply B2 in Hy. cbn in Hy. lia.
Qed.
Theorem C33_unique : forall (S : Type) limit (hist : list (Z * S)) t t',
  (smallest_table limit hist t -> smallest_table limit hist t' -> t = t') /\
  (largest_table limit hist t -> largest_table limit hist t' -> t = t').
Proof.
  intros S limit hist t t'. split; intros (H1 & H2) (K1 & K2); apply sorted_same; auto; intros (v, x); rewrite H2, K2; tauto.
Qed.
(** The number of sources is the number of insertions, in every case. *)
Theorem C33_count : forall (S : Type) (hist : list (Z * S)) v, src_count (occurrences hist v) = zlen (filter (fun x => fst x =? v) hist).
Proof. intros S hist v. unfold occurrences. destruct (filter (fun x : Z * S => fst x =? v) hist) as [|x [|y l]]; reflexivity. Qed.
(** The size is the limit or the number of distinct values, whichever is smaller. *)
Theorem C33_size : forall (S : Type) limit (h : list (Z * Z * S)) x, 1 <= limit -> insert_all (ex_new limit) h = Ok x ->
  zlen (ex_smallest x) = Z.min limit (zlen (nodup Z.eq_dec (map fst (lows h)))) /\
  zlen (ex_largest x) = Z.min limit (zlen (nodup Z.eq_dec (map fst (highs h)))).
Proof.
  intros S limit h x HL H. destruct (C33_exact S limit h HL) as (x' & E & T & TL). rewrite H in E. injection E as <-.
  assert (G : forall hist : list (Z * S), zlen (firstn (Z.to_nat limit) (full hist)) = Z.min limit (zlen (nodup Z.eq_dec (map fst hist)))).
  { intros hist. unfold zlen. rewrite firstn_length.
    replace (length (full hist)) with (length (nodup Z.eq_dec (map fst hist))); [lia|].
    rewrite <- (map_length fst (full hist)). apply Permutation_length. apply NoDup_Permutation; [apply NoDup_nodup|apply sorted_NoDup, full_sorted|].
    intros v. rewrite nodup_In. symmetry. apply full_keys. }
  split.
  - pose proof (table_of_full (Z.to_nat limit) (lows h)) as T'. rewrite Z2Nat.id in T' by lia.
    rewrite (proj1 (C33_unique _ _ _ _ _) T T'). apply G.
  - pose proof (flip_table _ _ _ (table_of_full (Z.to_nat limit) (neg_hist (highs h)))) as T'. rewrite Z2Nat.id in T' by lia.
    rewrite (proj2 (C33_unique _ _ _ _ _) TL T'). unfold flip, zlen. rewrite rev_length, map_length. fold (zlen (firstn (Z.to_nat limit) (full (neg_hist (highs h))))).
    rewrite G. f_equal. unfold zlen. f_equal. rewrite <- (map_length Z.opp (nodup Z.eq_dec (map fst (highs h)))). apply Permutation_length.
    apply NoDup_Permutation; [apply NoDup_nodup| |].
    + apply FinFun.Injective_map_NoDup; [intros a b; lia|apply NoDup_nodup].
    + intros v. rewrite nodup_In, !in_map_iff. unfold neg_hist. split.
      * intros (y & <- & Hy). apply in_map_iff in Hy. destruct Hy as (z & <- & Hz). exists (fst z). split; [reflexivity|]. apply nodup_In. apply in_map. exact Hz.
      * intros (k & <- & Hk). apply nodup_In, in_map_iff in Hk. destruct Hk as (z & <- & Hz). exists (- fst z, snd z). split; [reflexivity|]. apply in_map_iff. eauto.
Qed.
(** With a limit of zero (no caller in this code base passes it) the first insertion panics. *)
Theorem C33_limit_zero : forall (S : Type) lo hi (s : S), ex_add_range (ex_new 0) lo hi s = Panic.
Proof. reflexivity. Qed.
Example C33_example : exists x, insert_all (ex_new 2) [(5, 5, 1); (3, 9, 2); (5, 4, 3); (1, 9, 4); (3, 3, 5); (7, 7, 6)] = Ok x /\ ex_smallest x = [(1, SOne 4); (3, SCount 2)] /\ ex_largest x = [(7, SOne 6); (9, SCount 2)].
Proof. eexists. split; [reflexivity|]. split; reflexivity. Qed.
Print Assumptions C33_exact.
