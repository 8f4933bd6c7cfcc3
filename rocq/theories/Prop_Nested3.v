(** C89, several threads: whatever callbacks do, the streams are those of ordinary calls.  Model
    M_Nested.v, specification S_Nested.v.  A call with callbacks is simulated by ordinary calls of
    additional threads: while a callback runs, the thread that called it is in the middle of its
    write, and the calls of the callback are made by other threads. *)
From Coq Require Import ZArith List Lia Bool Permutation.
From Verif Require Import M_Base F_Base M_Sink S_Sink F_Sink F_SinkSeq M_Conc S_Conc F_Conc F_Conc2 Prop_Sink M_Nested S_Nested Prop_Nested Prop_Nested2.
Import ListNotations.
Open Scope Z_scope.

Inductive peq : prog -> prog -> Prop :=
| pq_done r : peq (Done r) (Done r)
| pq_fail : peq Fail Fail
| pq_lock t f g : (forall s, peq (f s) (g s)) -> peq (LockSink t f) (LockSink t g)
| pq_unlock t s p q : peq p q -> peq (UnlockSink t s p) (UnlockSink t s q)
| pq_shared p q : peq p q -> peq (LockShared p) (LockShared q)
| pq_write bs p q : peq p q -> peq (WriteAll bs p) (WriteAll bs q)
| pq_unshared p q : peq p q -> peq (UnlockShared p) (UnlockShared q).
Lemma peq_refl p : peq p p.
Proof. induction p; constructor; auto. Qed.
Lemma peq_assoc p k k' : peq (pbind p (fun r => pbind (k r) k')) (pbind (pbind p k) k').
Proof. induction p; cbn [pbind]; try constructor; auto. apply peq_refl. Qed.
Lemma peq_done p : peq (pbind p Done) p.
Proof. induction p; cbn [pbind]; constructor; auto. Qed.

(** [p] is what is left of a call whose own data [o0] writes; [qs] are the ordinary calls in progress
    that stand for it, the innermost first, and [rem] those that are still to be made. *)
Inductive sim (o0 : op) : prog -> list (op * prog) -> list op -> Prop :=
| sim_done r : sim o0 (Done r) [(o0, Done r)] []
| sim_ret p o a qs rem : sim o0 p qs rem -> sim o0 p ((o, Done a) :: qs) rem
| sim_inv p o qs rem : op_ok o -> sim o0 p ((o, op_prog o) :: qs) rem -> sim o0 p qs (o :: rem)
| sim_fail o qs rem : sim o0 Fail ((o, Fail) :: qs) rem
| sim_lock t f g o qs rem : (forall s, sim o0 (f s) ((o, g s) :: qs) rem) -> sim o0 (LockSink t f) ((o, LockSink t g) :: qs) rem
| sim_unlock t s p q o qs rem : sim o0 p ((o, q) :: qs) rem -> sim o0 (UnlockSink t s p) ((o, UnlockSink t s q) :: qs) rem
| sim_shared p q o qs rem : sim o0 p ((o, q) :: qs) rem -> sim o0 (LockShared p) ((o, LockShared q) :: qs) rem
| sim_write bs p q o qs rem : sim o0 p ((o, q) :: qs) rem -> sim o0 (WriteAll bs p) ((o, WriteAll bs q) :: qs) rem
| sim_unshared p q o qs rem : sim o0 p ((o, q) :: qs) rem -> sim o0 (UnlockShared p) ((o, UnlockShared q) :: qs) rem.

Lemma sim_peq o0 p qs rem : sim o0 p qs rem -> forall p', peq p p' -> sim o0 p' qs rem.
Proof.
  induction 1 as [r|p o a qs rem _ IH|p o qs rem Ho _ IH|o qs rem|t f g o qs rem _ IH|t s p q o qs rem _ IH|p q o qs rem _ IH|bs p q o qs rem _ IH|p q o qs rem _ IH]; intros p' E;
    try (inversion E; subst; constructor; auto; fail).
Qed.
Lemma sim_prog o0 o k qs rem : forall q, (forall r, sim o0 (k r) ((o, Done r) :: qs) rem) -> sim o0 (pbind q k) ((o, q) :: qs) rem.
Proof. intros q H. induction q; cbn [pbind]; try (constructor; auto; fail). apply H. Qed.
Lemma sim_page o0 o t b k k1 k2 qs rem : sim o0 (pbind k1 k) ((o, k2) :: qs) rem -> sim o0 (pbind (write_page t b k1) k) ((o, write_page t b k2) :: qs) rem.
Proof. intros H. unfold write_page. destruct (_ <? _); [|exact H]. destruct (_ <=? _); cbn [pbind]; repeat constructor. exact H. Qed.

Definition sim_call (c : nop) : Prop := nop_ok c -> forall o0 k qs rem, (forall r, sim o0 (k r) ((own c, Done r) :: qs) rem) -> sim o0 (pbind (call c) k) qs (amounts_to c ++ rem).
Lemma sim_list l : Forall sim_call l -> list_ok l -> forall o0 k' k qs rem, sim o0 (pbind k' k) qs rem -> sim o0 (pbind (calls l k') k) qs (flat_map amounts_to l ++ rem).
Proof.
  induction 1 as [|c l Hc _ IH]; intros O o0 k' k qs rem H; [exact H|]. destruct O as (Oc & Ol). cbn [flat_map]. rewrite <- app_assoc.
  change (calls (c :: l) k') with (pbind (call c) (fun _ => calls l k')). eapply sim_peq; [|apply peq_assoc]. apply Hc; [exact Oc|]. intros r. apply sim_ret. apply IH; auto.
Qed.
Lemma sim_calls c : sim_call c.
Proof.
  induction c as [o|t n inner bs IH] using nop_ind'; intros O o0 k qs rem H.
  - cbn [nop_ok call amounts_to app own] in *. apply sim_inv; [exact O|]. apply sim_prog. exact H.
  - pose proof O as O2. assert (Ook : op_ok (own (Within t n inner bs))) by (cbn [nop_ok] in O; destruct O as (Hb & _); pose proof (zlen_nonneg bs); split; [lia|]; split; [exact Hb|reflexivity]).
    destruct O2 as (On & Oi). fold (list_ok inner) in Oi. cbn [own] in *. cbn [call amounts_to]. cbv zeta.
    assert (E : op_prog (OWriteAtomic t n (fun _ => (bs, false))) = write_atomic t n (fun _ => (bs, false)) Done) by reflexivity. unfold write_atomic in E. cbv beta zeta iota in E.
    destruct (Z.ltb_spec MAX_PAGE_SIZE n) as [Hn|Hn]; unfold MAX_PAGE_SIZE in Hn; destruct (Z.leb_spec n (256 * 1024)); try lia.
    + fold (calls inner (write_bytes_large t bs Done)). rewrite <- app_assoc. apply sim_list; [exact IH|exact Oi|]. apply sim_inv; [exact Ook|]. rewrite E. apply sim_prog. exact H.
    + cbn [pbind app]. apply sim_inv; [exact Ook|]. rewrite E. apply sim_lock. intros s. fold (calls inner (UnlockSink t (mkSink (sbuf s ++ bs) (saddr s + n)) (Done (saddr s)))).
      assert (B : forall x : bytes, sim o0 (pbind (calls inner (UnlockSink t (mkSink (x ++ bs) (saddr s + n)) (Done (saddr s)))) k)
                  ((OWriteAtomic t n (fun _ => (bs, false)), UnlockSink t (mkSink (x ++ bs) (saddr s + n)) (Done (saddr s))) :: qs) (flat_map amounts_to inner ++ rem)).
      { intros x. apply sim_list; [exact IH|exact Oi|]. cbn [pbind]. apply sim_unlock. apply H. }
      destruct (_ <? _); [unfold flush; apply sim_page, B|apply B].
Qed.
Lemma sim_start c : nop_ok c -> sim (own c) (call c) [] (amounts_to c).
Proof. intros O. rewrite <- (app_nil_r (amounts_to c)). eapply sim_peq; [|apply peq_done]. apply sim_calls; [exact O|]. intros r. constructor. Qed.

(** ** The simulation *)
Fixpoint hinvs (h : list hev) : list (Z * op) :=
  match h with [] => [] | HInv v o :: h' => (v, o) :: hinvs h' | _ :: h' => hinvs h' end.
Lemma hinvs_app a b : hinvs (a ++ b) = hinvs a ++ hinvs b.
Proof. induction a as [|[] a IH]; cbn; congruence. Qed.
Lemma hinvs_in h v o : In (v, o) (hinvs h) <-> In (HInv v o) h.
Proof.
  induction h as [|[x p|x r|x] h IH]; cbn [hinvs In]; [tauto| | |]; rewrite IH.
  - split; (intros [H|H]; [left; congruence|right; exact H]).
  - split; [auto|intros [H|H]; [discriminate|exact H]].
  - split; [auto|intros [H|H]; [discriminate|exact H]].
Qed.
Lemma made_app a b : made (a ++ b) = made a ++ made b.
Proof. induction a as [|[] a IH]; cbn; congruence. Qed.
Lemma answered_app a b : answered (a ++ b) = answered a ++ answered b.
Proof. induction a as [|[] a IH]; cbn; congruence. Qed.

Lemma NoDup_app_snoc {A} (l : list A) a : NoDup l -> ~ In a l -> NoDup (l ++ [a]).
Proof. intros H N. apply (Permutation_NoDup (l := a :: l)); [|constructor; assumption]. change (a :: l) with ([a] ++ l). apply Permutation_app_comm. Qed.

Lemma Forall2_in_l {A B} (P : A -> B -> Prop) l l' a : Forall2 P l l' -> In a l -> exists b, P a b.
Proof. induction 1 as [|x y l l' H _ IH]; [intros []|intros [->|Q]; eauto]. Qed.
Lemma Forall2_impl {A B} (P Q : A -> B -> Prop) l l' : (forall a b, P a b -> Q a b) -> Forall2 P l l' -> Forall2 Q l l'.
Proof. intros H. induction 1; constructor; auto. Qed.

Record entry := E { etid : Z; ecall : nop; eprog : prog; estack : list (Z * (op * prog)); erem : list op }.
Definition sops (st : list (Z * (op * prog))) : list op := map (fun x => fst (snd x)) st.
Definition same_mem (m m' : mem) : Prop :=
  disk m = disk m' /\ sinks m = sinks m' /\ (forall t, tget t (slk m) = None <-> tget t (slk m') = None) /\ (shl m = None <-> shl m' = None).
Record inv (nc : nconf) (fc : conf) (T : list entry) (next : Z) : Prop := {
  i_mem : same_mem (nmem nc) (cmem fc);
  i_tids : NoDup (map etid T);
  i_thr : forall tid c p, nthr nc tid = Some (c, p) <-> exists e, In e T /\ etid e = tid /\ ecall e = c /\ eprog e = p;
  i_sim : Forall (fun e => sim (own (ecall e)) (eprog e) (map snd (estack e)) (erem e)) T;
  i_virt : NoDup (map fst (flat_map estack T));
  i_busy : forall v q, thr fc v = Some q <-> exists o, In (v, (o, q)) (flat_map estack T);
  i_ops : forall v o q, In (v, (o, q)) (flat_map estack T) -> In (HInv v o) (hist fc);
  i_once : NoDup (map fst (hinvs (hist fc)));
  i_next : forall v o, In (HInv v o) (hist fc) -> v < next;
  i_ret : forall v r, In (HRet v r) (hist fc) -> thr fc v = None /\ v < next;
  i_ans : exists vs, NoDup vs /\ Forall2 (fun v cr => In (HInv v (own (fst cr))) (hist fc) /\ In (HRet v (snd cr)) (hist fc)) vs (answered (nhist nc));
  i_all : Permutation (flat_map amounts_to (made (nhist nc))) (map snd (hinvs (hist fc)) ++ flat_map erem T);
  i_made : Permutation (made (nhist nc)) (map fst (answered (nhist nc)) ++ map ecall T);
  i_part : Forall (fun e => exists dn, Permutation (amounts_to (ecall e)) (dn ++ sops (estack e) ++ erem e)) T;
  i_back : forall v o, In (HInv v o) (hist fc) -> thr fc v <> None \/ exists r, In (HRet v r) (hist fc)
}.

Lemma perm_flat {A B} (f : A -> list B) l l' : Permutation l l' -> Permutation (flat_map f l) (flat_map f l').
Proof.
  induction 1 as [|x l l' _ IH|x y l|l l' l'' _ IH1 _ IH2]; cbn [flat_map]; [constructor|apply Permutation_app_head, IH| |exact (Permutation_trans IH1 IH2)].
  rewrite !app_assoc. apply Permutation_app_tail, Permutation_app_comm.
Qed.

Lemma inv_perm nc fc T T' next : Permutation T T' -> inv nc fc T next -> inv nc fc T' next.
Proof.
  intros P [A B C D F G H I J R K L M1 M2 M3]. pose proof (perm_flat estack _ _ P) as P1. pose proof (perm_flat erem _ _ P) as P2.
  constructor; auto.
  - eapply Permutation_NoDup; [apply Permutation_map, P|exact B].
  - intros tid c p. rewrite C. split; intros (e & He & X); exists e; (split; [|exact X]); [eapply Permutation_in; eauto|eapply Permutation_in; [apply Permutation_sym, P|exact He]].
  - eapply Permutation_Forall; eauto.
  - eapply Permutation_NoDup; [apply Permutation_map, P1|exact F].
  - intros v q. rewrite G. split; intros (o & Ho); exists o; [eapply Permutation_in; eauto|eapply Permutation_in; [apply Permutation_sym, P1|exact Ho]].
  - intros v o q Ho. apply (H v o q). eapply Permutation_in; [apply Permutation_sym, P1|exact Ho].
  - eapply Permutation_trans; [exact L|]. apply Permutation_app_head, P2.
  - eapply Permutation_trans; [exact M1|]. apply Permutation_app_head, Permutation_map, P.
  - eapply Permutation_Forall; eauto.
Qed.

Lemma inv0 : inv nconf0 conf0 [] 0.
Proof.
  constructor; cbn; auto; try (constructor; fail); try contradiction.
  - split; [reflexivity|]. split; [reflexivity|]. split; [intros t; tauto|tauto].
  - intros tid c p. split; [discriminate|intros (e & [] & _)].
  - intros v q. split; [discriminate|intros (o & [])].
  - exists []. split; constructor.
Qed.

(** A call is made. *)
Lemma inv_invoke nc fc T next tid c : inv nc fc T next -> nthr nc tid = None -> nop_ok c ->
  inv (mkNConf (nmem nc) (nset (nthr nc) tid (Some (c, call c))) (nhist nc ++ [NInv tid c])) fc (E tid c (call c) [] (amounts_to c) :: T) next.
Proof.
  intros [A B C D F G H I J R K L M1 M2 M3] N O. constructor; auto.
  - cbn [map etid]. constructor; [|exact B]. intros Q. apply in_map_iff in Q. destruct Q as (e & E1 & E2). assert (nthr nc tid = Some (ecall e, eprog e)) by (apply C; eauto). congruence.
  - intros x c' p. cbn [nthr]. unfold nset. destruct (Z.eqb_spec x tid) as [->|Ne].
    + split; [intros [= <- <-]; eexists; split; [left; reflexivity|cbn; auto]|]. intros (e & [<-|He] & X); [cbn in X; destruct X as (_ & <- & <-); reflexivity|].
      assert (nthr nc tid = Some (c', p)) by (apply C; eauto). congruence.
    + rewrite C. split; intros (e & He & X); exists e; (split; [|exact X]); [right; exact He|]. destruct He as [<-|He]; [cbn in X; destruct X; congruence|exact He].
  - constructor; [apply sim_start, O|exact D].
  - cbn [nhist]. rewrite answered_app. cbn [answered]. rewrite app_nil_r. exact K.
  - cbn [nhist flat_map erem]. rewrite made_app, flat_map_app. cbn [made flat_map]. rewrite app_nil_r.
    eapply Permutation_trans; [apply Permutation_app_comm|]. eapply Permutation_trans; [apply Permutation_app_head, L|]. rewrite !app_assoc. apply Permutation_app_tail, Permutation_app_comm.
  - cbn [nhist map ecall]. rewrite made_app, answered_app. cbn [made answered]. rewrite app_nil_r.
    eapply Permutation_trans; [apply Permutation_app_tail, M1|]. rewrite <- app_assoc. apply Permutation_app_head. apply Permutation_sym, Permutation_cons_append.
  - constructor; [exists []; apply Permutation_refl|exact M2].
Qed.

Lemma head_busy nc fc tid c p v o q st rem T next : inv nc fc (E tid c p ((v, (o, q)) :: st) rem :: T) next -> thr fc v = Some q /\ ~ In v (map fst (st ++ flat_map estack T)).
Proof.
  intros HI. split; [apply (i_busy _ _ _ _ HI); exists o; left; reflexivity|]. pose proof (i_virt _ _ _ _ HI) as V. cbn [flat_map estack app map fst] in V. inversion V; auto.
Qed.

(** An ordinary call that stands for a finished inner call returns. *)
Lemma inv_ret nc fc tid c p v o a st rem T next : inv nc fc (E tid c p ((v, (o, Done a)) :: st) rem :: T) next -> sim (own c) p (map snd st) rem ->
  inv nc (mkConf (cmem fc) (set_thr (thr fc) v None) (hist fc ++ [HRet v a])) (E tid c p st rem :: T) next.
Proof.
  intros HI HS. destruct (head_busy _ _ _ _ _ _ _ _ _ _ _ _ HI) as (Hv & Nv). destruct HI as [A B C D F G H I J R K L M1 M2 M3]. cbn [flat_map estack erem map etid] in *.
  constructor; cbn [flat_map estack erem map etid]; auto.
  - intros x c' p'. rewrite C. split; intros (e & [<-|He] & X); (eexists; split; [left; reflexivity|exact X]) || (exists e; split; [right; exact He|exact X]).
  - inversion D; subst. constructor; [exact HS|assumption].
  - inversion F; assumption.
  - intros x q. cbn [thr]. unfold set_thr. destruct (Z.eqb_spec x v) as [->|Ne].
    + split; [discriminate|]. intros (o' & Ho). destruct Nv. apply in_map_iff. exists (v, (o', q)). auto.
    + rewrite G. split; intros (o' & Ho); exists o'; [destruct Ho as [Ho|Ho]; [congruence|exact Ho]|right; exact Ho].
  - intros x o' q Ho. cbn [hist]. apply in_or_app. left. apply (H x o' q). right. exact Ho.
  - cbn [hist]. rewrite hinvs_app. cbn [hinvs]. rewrite app_nil_r. exact I.
  - intros x o' Ho. cbn [hist] in Ho. apply in_app_or in Ho. destruct Ho as [Ho|[Ho|[]]]; [eauto|discriminate].
  - intros x r. cbn [hist thr]. unfold set_thr. intros Q. apply in_app_or in Q. destruct (Z.eqb_spec x v) as [->|Ne]; [split; [reflexivity|]; apply (J v o), (H v o (Done a)); left; reflexivity|]. destruct Q as [Q|[Q|[]]]; [eauto|congruence].
  - destruct K as (vs & K1 & K2). exists vs. split; [exact K1|]. cbn [hist]. eapply Forall2_impl; [|exact K2]. intros x cr (X1 & X2). split; apply in_or_app; auto.
  - cbn [hist]. rewrite hinvs_app. cbn [hinvs]. rewrite app_nil_r. exact L.
  - inversion M2 as [|? ? (dn & P) M2']; subst. constructor; [|exact M2']. exists (dn ++ [o]). rewrite <- app_assoc. exact P.
  - intros x o' Q. cbn [hist thr] in *. unfold set_thr. apply in_app_or in Q. destruct Q as [Q|[Q|[]]]; [|discriminate]. destruct (Z.eqb_spec x v) as [->|Ne]; [right; exists a; apply in_or_app; right; left; reflexivity|].
    destruct (M3 x o' Q) as [X|(r & X)]; [left; exact X|right; exists r; apply in_or_app; left; exact X].
Qed.

(** A new ordinary call is made by a fresh thread. *)
Lemma inv_inv nc fc tid c p o st rem T next : inv nc fc (E tid c p st (o :: rem) :: T) next -> sim (own c) p ((o, op_prog o) :: map snd st) rem ->
  thr fc next = None /\
  inv nc (mkConf (cmem fc) (set_thr (thr fc) next (Some (op_prog o))) (hist fc ++ [HInv next o])) (E tid c p ((next, (o, op_prog o)) :: st) rem :: T) (next + 1).
Proof.
  intros HI HS. destruct HI as [A B C D F G H I J R K L M1 M2 M3]. cbn [flat_map estack erem map etid] in *.
  assert (Nn : forall o' q, ~ In (next, (o', q)) (st ++ flat_map estack T)) by (intros o' q Q; apply H, J in Q; lia).
  assert (Nt : thr fc next = None) by (destruct (thr fc next) as [q|] eqn:E; [|reflexivity]; apply G in E; destruct E as (o' & Q); destruct (Nn _ _ Q)).
  split; [exact Nt|]. constructor; cbn [flat_map estack erem map etid]; auto.
  - intros x c' p'. rewrite C. split; intros (e & [<-|He] & X); (eexists; split; [left; reflexivity|exact X]) || (exists e; split; [right; exact He|exact X]).
  - inversion D; subst. constructor; [exact HS|assumption].
  - cbn [app map fst]. constructor; [|exact F]. intros Q. apply in_map_iff in Q. destruct Q as ((x & o' & q) & X & Q). cbn in X. subst x. destruct (Nn _ _ Q).
  - intros x q. cbn [thr]. unfold set_thr. destruct (Z.eqb_spec x next) as [->|Ne].
    + split; [intros [= <-]; exists o; left; reflexivity|]. intros (o' & [Q|Q]); [injection Q as _ <-; reflexivity|destruct (Nn _ _ Q)].
    + rewrite G. split; intros (o' & Q); exists o'; [right; exact Q|destruct Q as [Q|Q]; [congruence|exact Q]].
  - intros x o' q [Q|Q]; cbn [hist]; apply in_or_app; [right; left; congruence|left; eauto].
  - cbn [hist]. rewrite hinvs_app, map_app. cbn [hinvs map fst]. apply NoDup_app_snoc; [exact I|]. intros Q. apply in_map_iff in Q. destruct Q as ((x & o') & X & Q). cbn in X. subst x. apply hinvs_in, J in Q. lia.
  - intros x o' Q. cbn [hist] in Q. apply in_app_or in Q. destruct Q as [Q|[Q|[]]]; [apply J in Q; lia|injection Q as <- _; lia].
  - intros x r. cbn [hist thr]. unfold set_thr. intros Q. apply in_app_or in Q. destruct Q as [Q|[Q|[]]]; [|discriminate]. apply R in Q. destruct (Z.eqb_spec x next) as [->|Ne]; [lia|]. destruct Q; split; [assumption|lia].
  - destruct K as (vs & K1 & K2). exists vs. split; [exact K1|]. cbn [hist]. eapply Forall2_impl; [|exact K2]. intros x cr (X1 & X2). split; apply in_or_app; auto.
  - cbn [hist]. rewrite hinvs_app, map_app. cbn [hinvs map snd]. rewrite <- app_assoc. exact L.
  - inversion M2 as [|? ? (dn & P) M2']; subst. constructor; [|exact M2']. exists dn. eapply Permutation_trans; [exact P|]. apply Permutation_app_head. apply Permutation_sym, Permutation_middle.
  - intros x o' Q. cbn [hist thr] in *. unfold set_thr. destruct (Z.eqb_spec x next) as [->|Ne]; [left; discriminate|]. apply in_app_or in Q. destruct Q as [Q|[Q|[]]]; [|congruence].
    destruct (M3 x o' Q) as [X|(r & X)]; [left; exact X|right; exists r; apply in_or_app; left; exact X].
Qed.

(** The call returns. *)
Lemma inv_done nc fc tid c r v T next : inv nc fc (E tid c (Done r) [(v, (own c, Done r))] [] :: T) next ->
  inv (mkNConf (nmem nc) (nset (nthr nc) tid None) (nhist nc ++ [NRet tid c r])) (mkConf (cmem fc) (set_thr (thr fc) v None) (hist fc ++ [HRet v r])) T next.
Proof.
  intros HI. destruct (head_busy _ _ _ _ _ _ _ _ _ _ _ _ HI) as (Hv & Nv). destruct HI as [A B C D F G H I J R K L M1 M2 M3]. cbn [flat_map estack erem map etid app] in *.
  inversion B as [|? ? B1 B2]; subst. constructor; auto.
  - intros x c' p'. cbn [nthr]. unfold nset. destruct (Z.eqb_spec x tid) as [->|Ne].
    + split; [discriminate|]. intros (e & He & X & _). destruct B1. apply in_map_iff. eauto.
    + rewrite C. split; intros (e & He & X); exists e; (split; [|exact X]); [destruct He as [<-|He]; [cbn in X; destruct X; congruence|exact He]|right; exact He].
  - inversion D; assumption.
  - inversion F; assumption.
  - intros x q. cbn [thr]. unfold set_thr. destruct (Z.eqb_spec x v) as [->|Ne].
    + split; [discriminate|]. intros (o' & Ho). destruct Nv. apply in_map_iff. exists (v, (o', q)). auto.
    + rewrite G. split; intros (o' & Ho); exists o'; [destruct Ho as [Ho|Ho]; [congruence|exact Ho]|right; exact Ho].
  - intros x o' q Ho. cbn [hist]. apply in_or_app. left. apply (H x o' q). right. exact Ho.
  - cbn [hist]. rewrite hinvs_app. cbn [hinvs]. rewrite app_nil_r. exact I.
  - intros x o' Ho. cbn [hist] in Ho. apply in_app_or in Ho. destruct Ho as [Ho|[Ho|[]]]; [eauto|discriminate].
  - intros x r'. cbn [hist thr]. unfold set_thr. intros Q. apply in_app_or in Q. destruct (Z.eqb_spec x v) as [->|Ne]; [split; [reflexivity|]; apply (J v (own c)), (H v (own c) (Done r)); left; reflexivity|]. destruct Q as [Q|[Q|[]]]; [eauto|congruence].
  - destruct K as (vs & K1 & K2). exists (vs ++ [v]). split.
    + apply NoDup_app_snoc; [exact K1|]. intros Q. destruct (Forall2_in_l _ _ _ _ K2 Q) as (cr & _ & X). apply R in X. destruct X. congruence.
    + cbn [nhist hist]. rewrite answered_app. apply Forall2_app.
      * eapply Forall2_impl; [|exact K2]. intros x cr (X1 & X2). split; apply in_or_app; auto.
      * repeat constructor; cbn [fst snd]; apply in_or_app; [left; apply (H v (own c) (Done r)); left; reflexivity|right; left; reflexivity].
  - cbn [hist nhist]. rewrite hinvs_app, made_app. cbn [hinvs made]. rewrite !app_nil_r. exact L.
  - cbn [nhist]. rewrite made_app, answered_app, map_app, <- app_assoc. cbn [made answered map fst app]. rewrite app_nil_r. exact M1.
  - inversion M2; assumption.
  - intros x o' Q. cbn [hist thr] in *. unfold set_thr. apply in_app_or in Q. destruct Q as [Q|[Q|[]]]; [|discriminate]. destruct (Z.eqb_spec x v) as [->|Ne]; [right; exists r; apply in_or_app; right; left; reflexivity|].
    destruct (M3 x o' Q) as [X|(r' & X)]; [left; exact X|right; exists r'; apply in_or_app; left; exact X].
Qed.

(** Both go on. *)
Lemma inv_step nc fc tid c p v o q st rem T next m m' p' q' : inv nc fc (E tid c p ((v, (o, q)) :: st) rem :: T) next -> same_mem m m' -> sim (own c) p' ((o, q') :: map snd st) rem ->
  inv (mkNConf m (nset (nthr nc) tid (Some (c, p'))) (nhist nc)) (mkConf m' (set_thr (thr fc) v (Some q')) (hist fc)) (E tid c p' ((v, (o, q')) :: st) rem :: T) next.
Proof.
  intros HI HM HS. destruct (head_busy _ _ _ _ _ _ _ _ _ _ _ _ HI) as (Hv & Nv). destruct HI as [A B C D F G H I J R K L M1 M2 M3]. cbn [flat_map estack erem map etid app] in *.
  inversion B as [|? ? B1 B2]; subst. constructor; cbn [flat_map estack erem map etid app]; auto.
  - intros x c' p1. cbn [nthr]. unfold nset. destruct (Z.eqb_spec x tid) as [->|Ne].
    + split; [intros [= <- <-]; eexists; split; [left; reflexivity|cbn; auto]|]. intros (e & [<-|He] & X); [cbn in X; destruct X as (_ & <- & <-); reflexivity|].
      destruct B1. apply in_map_iff. exists e. tauto.
    + rewrite C. split; intros (e & [<-|He] & X); try (cbn in X; destruct X; congruence); exists e; (split; [right; exact He|exact X]).
  - inversion D; subst. constructor; [exact HS|assumption].
  - intros x q1. cbn [thr]. unfold set_thr. destruct (Z.eqb_spec x v) as [->|Ne].
    + split; [intros [= <-]; exists o; left; reflexivity|]. intros (o' & [Q|Q]); [injection Q as _ <-; reflexivity|]. destruct Nv. apply in_map_iff. exists (v, (o', q1)). auto.
    + rewrite G. split; intros (o' & [Q|Q]); try congruence; exists o'; right; exact Q.
  - intros x o' q1 [Q|Q]; [injection Q as <- <- _; apply (H v o q); left; reflexivity|apply (H x o' q1); right; exact Q].
  - intros x r Q. cbn [thr hist] in *. unfold set_thr. apply R in Q. destruct (Z.eqb_spec x v) as [->|Ne]; [destruct Q; congruence|exact Q].
  - inversion M2 as [|? ? P M2']; subst. constructor; [exact P|exact M2'].
  - intros x o' Q. cbn [hist thr] in *. unfold set_thr. destruct (Z.eqb_spec x v) as [->|Ne]; [left; discriminate|exact (M3 x o' Q)].
Qed.

(** One step. *)
Lemma sim_tick o0 p qs rem : sim o0 p qs rem -> forall nc fc tid c st T next acts0,
  o0 = own c -> qs = map snd st -> acts_ok acts0 -> fc = exec acts0 conf0 -> inv nc fc (E tid c p st rem :: T) next ->
  exists acts T' next', acts_ok acts /\ inv (nstep nc (NTick tid)) (exec acts fc) T' next'.
Proof.
  assert (TK : forall v, acts_ok [Tick v]) by (intros v x o [Q|[]]; discriminate).
  assert (AP : forall a b, acts_ok a -> acts_ok b -> acts_ok (a ++ b)) by (intros a b Ha Hb x o Q; apply in_app_or in Q; destruct Q; eauto).
  assert (TH : forall nc fc tid c p st rem T next, inv nc fc (E tid c p st rem :: T) next -> nthr nc tid = Some (c, p)).
  { intros nc fc tid c p' st rem' T next HI. apply (i_thr _ _ _ _ HI). eexists. split; [left; reflexivity|auto]. }
  assert (SM : forall m m', same_mem m m' -> disk m = disk m' /\ forall t, tget t (sinks m) = tget t (sinks m')) by (intros m m' (X & Y & _); rewrite Y; auto).
  induction 1 as [r|p o a qs rem HS IH|p o qs rem Ho HS IH|o qs rem|t f g o qs rem HS IH|t s p q o qs rem HS IH|p q o qs rem HS IH|bs p q o qs rem HS IH|p q o qs rem HS IH];
    intros nc fc tid c st T next acts0 Eo Eq Ok Ef HI; pose proof (TH _ _ _ _ _ _ _ _ _ HI) as Hp.
  - destruct st as [|(v & o1 & q1) [|]]; try discriminate. cbn in Eq. injection Eq as <- <-. subst o0.
    destruct (head_busy _ _ _ _ _ _ _ _ _ _ _ _ HI) as (Hv & _).
    exists [Tick v], T, next. split; [apply TK|]. cbn [exec fold_left cstep nstep]. rewrite Hv, Hp. apply inv_done, HI.
  - destruct st as [|(v & o1 & q1) st]; [discriminate|]. cbn in Eq. injection Eq as <- <- ->. subst o0.
    destruct (head_busy _ _ _ _ _ _ _ _ _ _ _ _ HI) as (Hv & _).
    assert (E1 : cstep fc (Tick v) = mkConf (cmem fc) (set_thr (thr fc) v None) (hist fc ++ [HRet v a])) by (cbn [cstep]; rewrite Hv; reflexivity).
    destruct (IH nc (cstep fc (Tick v)) tid c st T next (acts0 ++ [Tick v])) as (acts & T' & next' & A1 & A2); auto.
    + rewrite exec_app, <- Ef. reflexivity.
    + rewrite E1. apply (inv_ret _ _ _ _ _ _ _ _ _ _ _ _ HI HS).
    + exists (Tick v :: acts), T', next'. split; [|exact A2]. apply (AP [Tick v]); auto.
  - subst o0 qs. destruct (inv_inv _ _ _ _ _ _ _ _ _ _ HI HS) as (Nt & HI').
    assert (E1 : cstep fc (Invoke next o) = mkConf (cmem fc) (set_thr (thr fc) next (Some (op_prog o))) (hist fc ++ [HInv next o])) by (cbn [cstep]; rewrite Nt; reflexivity).
    assert (OI : acts_ok [Invoke next o]) by (intros x o' [Q|[]]; injection Q as _ <-; exact Ho).
    destruct (IH nc (cstep fc (Invoke next o)) tid c ((next, (o, op_prog o)) :: st) T (next + 1) (acts0 ++ [Invoke next o])) as (acts & T' & next' & A1 & A2); auto.
    + rewrite exec_app, <- Ef. reflexivity.
    + rewrite E1. exact HI'.
    + exists (Invoke next o :: acts), T', next'. split; [|exact A2]. apply (AP [Invoke next o]); auto.
  - destruct st as [|(v & o1 & q1) st]; [discriminate|]. cbn in Eq. injection Eq as <- <- ->.
    destruct (head_busy _ _ _ _ _ _ _ _ _ _ _ _ HI) as (Hv & _).
    destruct (C04_linearizable (acts0 ++ [Tick v])) as (g & _ & _ & _ & HP & _); [auto|]. exfalso. apply (HP v).
    rewrite exec_app, <- Ef. cbn [exec fold_left cstep]. rewrite Hv. cbn [hist]. apply in_or_app. right. left. reflexivity.
  - destruct st as [|(v & o1 & q1) st]; [discriminate|]. cbn in Eq. injection Eq as <- <- ->. subst o0.
    destruct (head_busy _ _ _ _ _ _ _ _ _ _ _ _ HI) as (Hv & _). pose proof (i_mem _ _ _ _ HI) as HM. destruct (SM _ _ HM) as (M1 & M2). destruct HM as (_ & M3 & M4 & M5).
    destruct (tget t (slk (nmem nc))) as [w|] eqn:W.
    + assert (W' : exists w', tget t (slk (cmem fc)) = Some w') by (destruct (tget t (slk (cmem fc))) eqn:Q; [eauto|apply M4 in Q; congruence]). destruct W' as (w' & W').
      exists [], (E tid c (LockSink t f) ((v, (o, LockSink t g)) :: st) rem :: T), next. split; [intros x o' []|]. cbn [exec fold_left nstep]. rewrite Hp. cbn [prog_step]. rewrite W. exact HI.
    + assert (W' : tget t (slk (cmem fc)) = None) by (apply M4, W).
      exists [Tick v]. eexists. exists next. split; [apply TK|]. cbn [exec fold_left cstep nstep]. rewrite Hv, Hp. cbn [prog_step]. rewrite W, W'.
      eapply inv_step; [exact HI| |rewrite M2; apply HS].
      split; [exact M1|]. split; [exact M3|]. split; [|exact M5]. intros t'. cbn [slk]. destruct (tag_eq_dec t t') as [->|Nt]; [rewrite !tget_tset_same; split; discriminate|rewrite !tget_tset_other by auto; apply M4].
  - destruct st as [|(v & o1 & q1) st]; [discriminate|]. cbn in Eq. injection Eq as <- <- ->. subst o0.
    destruct (head_busy _ _ _ _ _ _ _ _ _ _ _ _ HI) as (Hv & _). pose proof (i_mem _ _ _ _ HI) as HM. destruct (SM _ _ HM) as (M1 & M2). destruct HM as (_ & M3 & M4 & M5).
    exists [Tick v]. eexists. exists next. split; [apply TK|]. cbn [exec fold_left cstep nstep]. rewrite Hv, Hp. cbn [prog_step].
    eapply inv_step; [exact HI| |apply HS].
    split; [exact M1|]. split; [cbn [sinks]; rewrite M3; reflexivity|]. split; [|exact M5]. intros t'. cbn [slk]. destruct (tag_eq_dec t t') as [->|Nt]; [rewrite !tget_tset_same; tauto|rewrite !tget_tset_other by auto; apply M4].
  - destruct st as [|(v & o1 & q1) st]; [discriminate|]. cbn in Eq. injection Eq as <- <- ->. subst o0.
    destruct (head_busy _ _ _ _ _ _ _ _ _ _ _ _ HI) as (Hv & _). pose proof (i_mem _ _ _ _ HI) as HM. destruct (SM _ _ HM) as (M1 & M2). destruct HM as (_ & M3 & M4 & M5).
    destruct (shl (nmem nc)) as [w|] eqn:W.
    + assert (W' : exists w', shl (cmem fc) = Some w') by (destruct (shl (cmem fc)) eqn:Q; [eauto|destruct M5 as (_ & M5); specialize (M5 eq_refl); congruence]). destruct W' as (w' & W').
      exists [], (E tid c (LockShared p) ((v, (o, LockShared q)) :: st) rem :: T), next. split; [intros x o' []|]. cbn [exec fold_left nstep]. rewrite Hp. cbn [prog_step]. rewrite W. exact HI.
    + assert (W' : shl (cmem fc) = None) by (apply M5; reflexivity).
      exists [Tick v]. eexists. exists next. split; [apply TK|]. cbn [exec fold_left cstep nstep]. rewrite Hv, Hp. cbn [prog_step]. rewrite W, W'.
      eapply inv_step; [exact HI| |apply HS].
      split; [exact M1|]. split; [exact M3|]. split; [exact M4|]. cbn [shl]. split; discriminate.
  - destruct st as [|(v & o1 & q1) st]; [discriminate|]. cbn in Eq. injection Eq as <- <- ->. subst o0.
    destruct (head_busy _ _ _ _ _ _ _ _ _ _ _ _ HI) as (Hv & _). pose proof (i_mem _ _ _ _ HI) as HM. destruct (SM _ _ HM) as (M1 & M2). destruct HM as (_ & M3 & M4 & M5).
    exists [Tick v]. eexists. exists next. split; [apply TK|]. cbn [exec fold_left cstep nstep]. rewrite Hv, Hp. cbn [prog_step].
    eapply inv_step; [exact HI| |apply HS].
    split; [cbn [disk]; rewrite M1; reflexivity|]. split; [exact M3|]. split; [exact M4|exact M5].
  - destruct st as [|(v & o1 & q1) st]; [discriminate|]. cbn in Eq. injection Eq as <- <- ->. subst o0.
    destruct (head_busy _ _ _ _ _ _ _ _ _ _ _ _ HI) as (Hv & _). pose proof (i_mem _ _ _ _ HI) as HM. destruct (SM _ _ HM) as (M1 & M2). destruct HM as (_ & M3 & M4 & M5).
    exists [Tick v]. eexists. exists next. split; [apply TK|]. cbn [exec fold_left cstep nstep]. rewrite Hv, Hp. cbn [prog_step].
    eapply inv_step; [exact HI| |apply HS].
    split; [exact M1|]. split; [exact M3|]. split; [exact M4|]. cbn [shl]. tauto.
Qed.

Definition calls_ok (acts : list naction) : Prop := forall tid c, In (NInvoke tid c) acts -> nop_ok c.
Lemma sim_exec acts : forall nc acts0 T next, calls_ok acts -> acts_ok acts0 -> inv nc (exec acts0 conf0) T next ->
  exists es, length es = length acts /\ acts_ok (acts0 ++ concat es) /\
    forall n, (n <= length acts)%nat -> exists T' next', inv (nexec (firstn n acts) nc) (exec (acts0 ++ concat (firstn n es)) conf0) T' next'.
Proof.
  induction acts as [|a acts IH]; intros nc acts0 T next Ok Ok0 HI.
  { exists []. cbn [concat length]. rewrite app_nil_r. split; [reflexivity|]. split; [exact Ok0|]. intros n _. exists T, next. rewrite !firstn_nil. cbn [concat]. rewrite app_nil_r. exact HI. }
  assert (Ok' : calls_ok acts) by (intros tid c H; apply (Ok tid c); right; exact H).
  assert (STEP : exists e1 T1 next1, acts_ok e1 /\ inv (nstep nc a) (exec e1 (exec acts0 conf0)) T1 next1).
  { destruct a as [tid c|tid]; cbn [nstep].
    - destruct (nthr nc tid) eqn:N; [exists [], T, next; split; [intros x o []|exact HI]|].
      exists []. do 2 eexists. split; [intros x o []|]. exact (inv_invoke _ _ _ _ _ _ HI N (Ok tid c (or_introl eq_refl))).
    - destruct (nthr nc tid) as [(c & p)|] eqn:N; [|exists [], T, next; split; [intros x o []|exact HI]].
      pose proof N as N'. apply (i_thr _ _ _ _ HI) in N'. destruct N' as (e & He & E1 & E2 & E3). destruct e as [tid' c' p' st rem]. cbn in E1, E2, E3. subst tid' c' p'.
      apply in_split in He. destruct He as (T1 & T2 & ->).
      assert (HI' : inv nc (exec acts0 conf0) (E tid c p st rem :: T1 ++ T2) next) by (eapply inv_perm; [apply Permutation_sym, Permutation_middle|exact HI]).
      pose proof (i_sim _ _ _ _ HI') as HS. inversion HS as [|? ? HS1 _]; subst. cbn in HS1.
      destruct (sim_tick _ _ _ _ HS1 nc (exec acts0 conf0) tid c st (T1 ++ T2) next acts0 eq_refl eq_refl Ok0 eq_refl HI') as (acts1 & T' & next' & A1 & A2).
      cbn [nstep] in A2. rewrite N in A2. exists acts1, T', next'. auto. }
  destruct STEP as (e1 & T1 & next1 & A1 & A2). rewrite <- exec_app in A2.
  destruct (IH (nstep nc a) (acts0 ++ e1) T1 next1 Ok') as (es & B1 & B2 & B3); [intros x o Q; apply in_app_or in Q; destruct Q; eauto|exact A2|].
  exists (e1 :: es). cbn [length concat]. rewrite app_assoc. split; [congruence|]. split; [exact B2|]. intros [|n] Hn.
  - exists T, next. cbn [firstn concat]. rewrite app_nil_r. exact HI.
  - cbn [firstn concat nexec fold_left]. rewrite app_assoc. apply B3. cbn in Hn. lia.
Qed.

(** ** From the simulating history to a sequence of calls *)
Fixpoint ginvs (g : list gev) : list (Z * op) :=
  match g with [] => [] | GInv v o :: g' => (v, o) :: ginvs g' | _ :: g' => ginvs g' end.
Fixpoint glins (g : list gev) : list (Z * (op * Z)) :=
  match g with [] => [] | GLin v o r :: g' => (v, (o, r)) :: glins g' | _ :: g' => glins g' end.
Definition plain (x : Z * (op * Z)) : Z * op := (fst x, fst (snd x)).
Lemma ginvs_erase g : hinvs (erase g) = ginvs g.
Proof. induction g as [|[] g IH]; cbn; congruence. Qed.
Lemma glins_lins g : map snd (glins g) = lins g.
Proof. induction g as [|[] g IH]; cbn; congruence. Qed.
Lemma ginvs_app a b : ginvs (a ++ b) = ginvs a ++ ginvs b.
Proof. induction a as [|[] a IH]; cbn; congruence. Qed.
Lemma glins_app a b : glins (a ++ b) = glins a ++ glins b.
Proof. induction a as [|[] a IH]; cbn; congruence. Qed.
Lemma ginvs_proj v g : ginvs (proj v g) = filter (fun x => fst x =? v) (ginvs g).
Proof. unfold proj. induction g as [|[] g IH]; cbn; [reflexivity| | |]; destruct (_ =? _); cbn; congruence. Qed.
Lemma glins_proj v g : glins (proj v g) = filter (fun x => fst x =? v) (glins g).
Proof. unfold proj. induction g as [|[] g IH]; cbn; [reflexivity| | |]; destruct (_ =? _); cbn; congruence. Qed.
Lemma ginvs_in g v o : In (GInv v o) g <-> In (v, o) (ginvs g).
Proof.
  induction g as [|[x p|x p r|x r] g IH]; cbn [ginvs In]; [tauto| | |]; rewrite <- IH.
  - split; (intros [H|H]; [left; congruence|right; exact H]).
  - split; [intros [H|H]; [discriminate|exact H]|auto].
  - split; [intros [H|H]; [discriminate|exact H]|auto].
Qed.
Lemma erase_ret g v r : In (HRet v r) (erase g) -> In (GRet v r) g.
Proof. induction g as [|[] g IH]; cbn [erase In]; auto; intros [H|H]; auto; [discriminate|left; congruence]. Qed.
Lemma protocol_calls v l s : protocol v l s -> ginvs l = map plain (glins l) ++ match s with TCalled o => [(v, o)] | _ => [] end.
Proof.
  induction 1 as [|l o _ IH|l o r _ IH|l o r _ IH]; [reflexivity| | |]; rewrite ginvs_app, glins_app, IH; cbn [ginvs glins]; rewrite ?map_app, ?app_nil_r; reflexivity.
Qed.
Lemma protocol_ret v l s : protocol v l s ->
  match s with TDone o r => In (v, (o, r)) (glins l) | _ => True end /\ forall r, In (GRet v r) l -> exists o, In (v, (o, r)) (glins l).
Proof.
  induction 1 as [|l o _ IH|l o r _ IH|l o r _ IH]; [split; [exact Logic.I|intros r []]| | |]; destruct IH as (IH1 & IH2).
  - split; [exact Logic.I|]. intros r Q. apply in_app_or in Q. destruct Q as [Q|[Q|[]]]; [|discriminate]. destruct (IH2 r Q) as (o' & Q'). exists o'. rewrite glins_app. apply in_or_app. auto.
  - rewrite glins_app. cbn [glins]. split; [apply in_or_app; right; left; reflexivity|]. intros r' Q. apply in_app_or in Q. destruct Q as [Q|[Q|[]]]; [|discriminate]. destruct (IH2 r' Q) as (o' & Q'). exists o'. apply in_or_app. auto.
  - split; [exact Logic.I|]. rewrite glins_app. cbn [glins]. rewrite app_nil_r. intros r' Q. apply in_app_or in Q. destruct Q as [Q|[Q|[]]]; [auto|]. injection Q as <-. exists o. exact IH1.
Qed.
Lemma filter_perm {A} (a : list (Z * A)) : forall b, (forall v, filter (fun x => fst x =? v) a = filter (fun x => fst x =? v) b) -> Permutation a b.
Proof.
  induction a as [|(v & x) a IH]; intros b H.
  - destruct b as [|(v & x) b]; [constructor|]. specialize (H v). cbn in H. rewrite Z.eqb_refl in H. discriminate.
  - assert (Q : In (v, x) (filter (fun y => fst y =? v) b)) by (rewrite <- H; cbn; rewrite Z.eqb_refl; left; reflexivity).
    assert (S1 : forall b, In (v, x) (filter (fun y => fst y =? v) b) -> forall rest, filter (fun y => fst y =? v) b = (v, x) :: rest -> exists b1 b2, b = b1 ++ (v, x) :: b2 /\ filter (fun y => fst y =? v) b1 = []).
    { clear. induction b as [|y b IH]; cbn [filter]; [intros []|]. destruct (Z.eqb_spec (fst y) v) as [E|N].
      - intros _ rest [= -> _]. exists [], b. auto.
      - intros Q rest E. destruct (IH Q rest E) as (b1 & b2 & -> & F). exists (y :: b1), b2. split; [reflexivity|]. cbn [filter]. destruct (Z.eqb_spec (fst y) v); [contradiction|exact F]. }
    pose proof (H v) as Hv. cbn [filter fst] in Hv. rewrite Z.eqb_refl in Hv. destruct (S1 b Q _ (eq_sym Hv)) as (b1 & b2 & -> & F).
    eapply Permutation_trans; [apply perm_skip, (IH (b1 ++ b2))|apply Permutation_middle].
    intros w. specialize (H w). rewrite filter_app in H. cbn [filter fst] in H. rewrite filter_app. destruct (Z.eqb_spec v w) as [->|N]; [|exact H].
    rewrite F in *. cbn [app] in *. congruence.
Qed.
Lemma incl_perm {A} (l : list A) : NoDup l -> forall l', incl l l' -> exists rest, Permutation l' (l ++ rest).
Proof.
  induction 1 as [|a l N _ IH]; intros l' H; [exists l'; apply Permutation_refl|]. destruct (in_split a l' (H a (or_introl eq_refl))) as (x & y & ->).
  destruct (IH (x ++ y)) as (rest & P).
  - intros b Q. assert (Q' : In b (x ++ a :: y)) by (apply H; right; exact Q). apply in_app_or in Q'. apply in_or_app. destruct Q' as [Q'|[<-|Q']]; auto. contradiction.
  - exists rest. eapply Permutation_trans; [apply Permutation_sym, Permutation_middle|]. apply perm_skip, P.
Qed.
Lemma filter_map {A B} (f : A -> B) p l : filter p (map f l) = map f (filter (fun x => p (f x)) l).
Proof. induction l as [|a l IH]; cbn; [reflexivity|]. destruct (p (f a)); cbn; congruence. Qed.

Lemma exec_hist b : forall c, exists h, hist (exec b c) = hist c ++ h.
Proof.
  induction b as [|a b IH]; intros c; [exists []; rewrite app_nil_r; reflexivity|]. destruct (IH (cstep c a)) as (h & E). cbn [exec fold_left]. unfold exec in E. rewrite E.
  assert (S1 : exists h1, hist (cstep c a) = hist c ++ h1).
  { assert (N : exists h1, hist c = hist c ++ h1) by (exists []; rewrite app_nil_r; reflexivity). destruct a as [tid o|tid]; cbn [cstep]; destruct (thr c tid) as [q|]; try exact N; [eexists; reflexivity|].
    destruct q; try (eexists; reflexivity); match goal with |- context [prog_step ?x ?y ?z] => destruct (prog_step x y z) as [(m' & p')|] end; exact N. }
  destruct S1 as (h1 & ->). exists (h1 ++ h). rewrite app_assoc. reflexivity.
Qed.
Lemma erase_split g : forall h1 h2, erase g = h1 ++ h2 -> exists g1 g2, g = g1 ++ g2 /\ erase g1 = h1 /\ erase g2 = h2.
Proof.
  induction g as [|e g IH]; intros h1 h2 H; cbn [erase] in H.
  - symmetry in H. apply app_eq_nil in H. destruct H as (-> & ->). exists [], []. auto.
  - destruct e as [v o|v o r|v r].
    + destruct h1 as [|x h1]; [exists [], (GInv v o :: g); auto|]. cbn in H. injection H as <- H. destruct (IH _ _ H) as (g1 & g2 & -> & <- & <-). exists (GInv v o :: g1), g2. auto.
    + destruct (IH _ _ H) as (g1 & g2 & -> & <- & <-). exists (GLin v o r :: g1), g2. auto.
    + destruct h1 as [|x h1]; [exists [], (GRet v r :: g); auto|]. cbn in H. injection H as <- H. destruct (IH _ _ H) as (g1 & g2 & -> & <- & <-). exists (GRet v r :: g1), g2. auto.
Qed.
Lemma protocol_prefix v b : forall l s, protocol v (l ++ b) s -> exists s', protocol v l s'.
Proof.
  induction b as [|e b IH] using rev_ind; intros l s H; [rewrite app_nil_r in H; eauto|]. rewrite app_assoc in H.
  inversion H as [H1|l' o H1 H2|l' o r H1 H2|l' o r H1 H2]; [destruct (app_cons_not_nil (l ++ b) [] e H1)| | |]; apply app_inj_tail in H2 || apply app_inj_tail in H1; intuition subst; eauto.
Qed.
Lemma erase_app a b : erase (a ++ b) = erase a ++ erase b.
Proof. induction a as [|[] a IH]; cbn; congruence. Qed.
Lemma lins_app a b : lins (a ++ b) = lins a ++ lins b.
Proof. induction a as [|[] a IH]; cbn; congruence. Qed.
Lemma once_eq {A} (l : list (Z * A)) v o o' : NoDup (map fst l) -> In (v, o) l -> In (v, o') l -> o = o'.
Proof.
  intros ON Q1 Q2. induction l as [|(x & p) l IH]; [destruct Q1|]. cbn [map fst] in ON. inversion ON as [|? ? N1 N2]; subst.
  destruct Q1 as [Q1|Q1], Q2 as [Q2|Q2]; try congruence; auto; [injection Q1 as -> _; destruct N1; apply in_map_iff; exists (v, o'); auto|injection Q2 as -> _; destruct N1; apply in_map_iff; exists (v, o); auto].
Qed.
Lemma NoDup_app_l {A} (a b : list A) : NoDup (a ++ b) -> NoDup a.
Proof. induction a as [|x a IH]; cbn; [constructor|]. intros H. inversion H as [|? ? N M]; subst. constructor; [|auto]. intros Q. apply N, in_or_app. auto. Qed.
Lemma NoDup_fst {A} (l : list (Z * A)) : NoDup (map fst l) -> NoDup l.
Proof. apply NoDup_map_inv. Qed.

Ltac rot := match goal with |- Permutation _ (?b ++ ?r) => apply (Permutation_trans (l' := r ++ b)); [|apply Permutation_app_comm] end; rewrite <- ?app_assoc.
Ltac perm := rewrite <- ?app_assoc; do 40 (try match goal with |- Permutation ?x ?x => apply Permutation_refl | |- Permutation (?a ++ _) (?a ++ _) => apply Permutation_app_head | |- _ => rot end).

(** What the calls in a part of the history contribute to the same part of the simulating history. *)
Lemma part_of nc fc T next g : inv nc fc T next -> erase g = hist fc -> (forall v, exists s, protocol v (proj v g) s) ->
  (exists rest, Permutation (lins g) (map (fun x => (own (fst x), snd x)) (answered (nhist nc)) ++ rest)) /\
  (exists rest, Permutation (lin_ops g) (flat_map amounts_to (map fst (answered (nhist nc))) ++ rest)) /\
  (exists rest, Permutation (flat_map amounts_to (made (nhist nc))) (lin_ops g ++ rest)).
Proof.
  intros HI Hg Hpr.
  pose proof (i_once _ _ _ _ HI) as ON. rewrite <- Hg, ginvs_erase in ON.
  assert (HL : forall v o r, In (v, (o, r)) (glins g) -> In (v, o) (ginvs g)).
  { intros v o r Q. destruct (Hpr v) as (s & Hs). apply protocol_calls in Hs. rewrite ginvs_proj, glins_proj in Hs.
    assert (Q1 : In (v, o) (filter (fun x => fst x =? v) (ginvs g))).
    { rewrite Hs. apply in_or_app. left. apply in_map_iff. exists (v, (o, r)). split; [reflexivity|]. apply filter_In. split; [exact Q|apply Z.eqb_refl]. }
    apply filter_In in Q1. apply Q1. }
  assert (HR : forall v o r, In (v, o) (ginvs g) -> In (HRet v r) (hist fc) -> In (v, (o, r)) (glins g)).
  { intros v o r Q1 Q2. rewrite <- Hg in Q2. apply erase_ret in Q2.
    assert (Q3 : In (GRet v r) (proj v g)) by (apply filter_In; split; [exact Q2|apply Z.eqb_refl]). destruct (Hpr v) as (s & Hs).
    destruct (proj2 (protocol_ret v _ _ Hs) r Q3) as (o' & Q4). rewrite glins_proj in Q4. apply filter_In in Q4. destruct Q4 as (Q4 & _).
    rewrite (once_eq _ v o o' ON Q1); [exact Q4|]. eapply HL. exact Q4. }
  assert (ND : NoDup (map plain (glins g))).
  { assert (X : forall v, NoDup (filter (fun x => fst x =? v) (map plain (glins g)))).
    { intros v. rewrite filter_map. cbn [plain fst]. destruct (Hpr v) as (s & Hs). apply protocol_calls in Hs. rewrite ginvs_proj, glins_proj in Hs.
      apply (NoDup_app_l _ (match s with TCalled o => [(v, o)] | _ => [] end)). cbn [plain fst] in Hs. rewrite <- Hs. apply NoDup_filter, NoDup_fst, ON. }
    revert X. generalize (map plain (glins g)). clear. induction l as [|(v & o) l IH]; intros X; [constructor|]. constructor.
    - specialize (X v). cbn [filter fst] in X. rewrite Z.eqb_refl in X. inversion X as [|? ? N _]; subst. intros Q. apply N, filter_In. split; [exact Q|apply Z.eqb_refl].
    - apply IH. intros w. specialize (X w). cbn [filter fst] in X. destruct (v =? w); [inversion X; assumption|exact X]. }
  assert (LO : lin_ops g = map snd (map plain (glins g))) by (unfold lin_ops; rewrite <- glins_lins, !map_map; reflexivity).
  split; [|split].
  - destruct (i_ans _ _ _ _ HI) as (vs & V1 & V2).
    assert (V3 : Forall2 (fun v cr => In (v, (own (fst cr), snd cr)) (glins g)) vs (answered (nhist nc))).
    { eapply Forall2_impl; [|exact V2]. intros v (call & r) (Q1 & Q2). cbn [fst snd] in *. apply HR; [|exact Q2]. rewrite <- ginvs_erase, Hg. apply hinvs_in, Q1. }
    assert (VX : exists ps, map snd ps = map (fun x => (own (fst x), snd x)) (answered (nhist nc)) /\ NoDup ps /\ incl ps (glins g)).
    { clear - V1 V3. exists (map (fun x => (fst x, (own (fst (snd x)), snd (snd x)))) (combine vs (answered (nhist nc)))).
      induction V3 as [|v cr vs ans H V3 IH]; cbn [combine map]; [split; [reflexivity|]; split; [constructor|intros x []]|].
      inversion V1 as [|? ? N1 N2]; subst. destruct (IH N2) as (I1 & I2 & I3). split; [cbn; congruence|]. split.
      - constructor; [|exact I2]. intros Q. apply in_map_iff in Q. destruct Q as ((v' & cr') & Q1 & Q2). cbn in Q1. injection Q1 as -> _ _. apply in_combine_l in Q2. contradiction.
      - intros x [<-|Q]; [exact H|apply I3, Q]. }
    destruct VX as (ps & P1 & P2 & P3). destruct (incl_perm ps P2 _ P3) as (rest & P). exists (map snd rest). rewrite <- P1, <- map_app, <- glins_lins. apply Permutation_map, P.
  - (* the calls that have returned: [R] *)
    set (busy := fun x : Z * op => match thr fc (fst x) with Some _ => true | None => false end).
    set (R := filter (fun x => negb (busy x)) (ginvs g)). set (Bz := filter busy (ginvs g)).
    assert (PB : Permutation (ginvs g) (Bz ++ R)).
    { subst Bz R. clear. induction (ginvs g) as [|x l IH]; [constructor|]. cbn [filter]. destruct (busy x); cbn [negb]; [apply perm_skip, IH|]. eapply Permutation_trans; [apply perm_skip, IH|]. apply Permutation_middle. }
    assert (PS : Permutation Bz (map (fun x => (fst x, fst (snd x))) (flat_map estack T))).
    { apply NoDup_Permutation; [apply NoDup_filter, NoDup_fst, ON| |].
      - apply NoDup_fst. rewrite map_map. exact (i_virt _ _ _ _ HI).
      - intros (v & o). subst Bz. rewrite filter_In. unfold busy. cbn [fst]. split.
        + intros (Q1 & Q2). destruct (thr fc v) as [q|] eqn:Q; [|discriminate]. apply (i_busy _ _ _ _ HI) in Q. destruct Q as (o' & Q).
          assert (o' = o) as ->. { apply (once_eq _ v o' o ON); [|exact Q1]. rewrite <- ginvs_erase, Hg. apply hinvs_in. eapply i_ops; [exact HI|exact Q]. }
          apply in_map_iff. exists (v, (o, q)). auto.
        + intros Q. apply in_map_iff in Q. destruct Q as ((v' & o' & q) & Q1 & Q2). cbn in Q1. injection Q1 as -> ->. split.
          * rewrite <- ginvs_erase, Hg. apply hinvs_in. eapply i_ops; [exact HI|exact Q2].
          * assert (thr fc v = Some q) as ->; [|reflexivity]. apply (i_busy _ _ _ _ HI). exists o. exact Q2. }
    assert (IR : incl R (map plain (glins g))).
    { intros (v & o) Q. apply filter_In in Q. destruct Q as (Q1 & Q2). unfold busy in Q2. cbn [fst] in Q2. destruct (thr fc v) eqn:Q3; [discriminate|].
      assert (Q4 : In (HInv v o) (hist fc)) by (apply hinvs_in; rewrite <- Hg, ginvs_erase; exact Q1).
      destruct (i_back _ _ _ _ HI v o Q4) as [X|(r & X)]; [congruence|]. apply in_map_iff. exists (v, (o, r)). split; [reflexivity|]. apply HR; assumption. }
    destruct (incl_perm R (NoDup_filter _ (NoDup_fst _ ON)) _ IR) as (rest & PR).
    assert (DN : exists dn, Permutation (flat_map amounts_to (map ecall T)) (dn ++ map (fun x => fst (snd x)) (flat_map estack T) ++ flat_map erem T)).
    { clear - HI. pose proof (i_part _ _ _ _ HI) as H. clear HI. induction H as [|e T (dn & P) _ (dn' & P')]; [exists []; constructor|]. cbn [map flat_map]. exists (dn ++ dn').
      eapply Permutation_trans; [apply Permutation_app; [exact P|exact P']|]. rewrite map_app. unfold sops. generalize (map (fun x : Z * (op * prog) => fst (snd x)) (estack e)), (map (fun x : Z * (op * prog) => fst (snd x)) (flat_map estack T)), (erem e), (flat_map erem T).
      intros a b c d. clear. perm. }
    destruct DN as (dn & DN). exists (dn ++ map snd rest). rewrite LO.
    eapply Permutation_trans; [apply Permutation_map, PR|]. rewrite map_app, app_assoc. apply Permutation_app_tail.
    pose proof (i_all _ _ _ _ HI) as HA. rewrite <- Hg, ginvs_erase in HA.
    pose proof (Permutation_map snd PS) as PS'. rewrite map_map in PS'. cbn [fst snd] in PS'.
    pose proof (Permutation_map snd PB) as PB'. rewrite map_app in PB'.
    set (S1 := map (fun x : Z * (op * prog) => fst (snd x)) (flat_map estack T)) in *. set (rm := flat_map erem T) in *.
    apply (Permutation_app_inv_r (S1 ++ rm)).
    assert (X1 : Permutation (flat_map amounts_to (made (nhist nc))) (S1 ++ map snd R ++ rm)).
    { eapply Permutation_trans; [exact HA|]. rewrite (app_assoc S1). apply Permutation_app_tail. eapply Permutation_trans; [exact PB'|]. apply Permutation_app_tail, PS'. }
    assert (X2 : Permutation (flat_map amounts_to (made (nhist nc))) (flat_map amounts_to (map fst (answered (nhist nc))) ++ dn ++ S1 ++ rm)).
    { eapply Permutation_trans; [apply perm_flat, (i_made _ _ _ _ HI)|]. rewrite flat_map_app. apply Permutation_app_head, DN. }
    apply (Permutation_trans (l' := S1 ++ map snd R ++ rm)); [perm|]. eapply Permutation_trans; [apply Permutation_sym, X1|]. eapply Permutation_trans; [exact X2|]. perm.
  - pose proof (i_all _ _ _ _ HI) as HA. rewrite <- Hg, ginvs_erase in HA.
    destruct (incl_perm _ ND (ginvs g)) as (rest & P).
    + intros (v & o) Q. apply in_map_iff in Q. destruct Q as ((v' & o' & r) & Q1 & Q2). injection Q1 as -> ->. apply (HL v o r Q2).
    + exists (map snd rest ++ flat_map erem T). eapply Permutation_trans; [exact HA|]. rewrite app_assoc. apply Permutation_app_tail. rewrite LO, <- map_app. apply Permutation_map, P.
Qed.

(** C89, several threads: when all calls have returned (and C89_all_return says that they do if the
    sinks are ranked), what they have written and the results they have returned are those of
    ordinary calls, one after the other in some order, which respects the order of calls that do not
    overlap: at any point the calls that have returned are in a part of it that has only calls made
    by then. *)
Theorem C89_concurrent : forall acts, (forall tid call, In (NInvoke tid call) acts -> nop_ok call) ->
  let c := nexec acts nconf0 in
  idle c ->
  exists l : list (op * Z), sequentially_correct l /\
    Permutation (map fst l) (flat_map amounts_to (made (nhist c))) /\
    (forall acts1 acts2, acts = acts1 ++ acts2 ->
       let h := nhist (nexec acts1 nconf0) in
       exists l1 l2, l = l1 ++ l2 /\
         (exists rest, Permutation l1 (map (fun x => (own (fst x), snd x)) (answered h) ++ rest)) /\
         (exists rest, Permutation (map fst l1) (flat_map amounts_to (map fst (answered h)) ++ rest)) /\
         (exists rest, Permutation (flat_map amounts_to (made h)) (map fst l1 ++ rest))) /\
    forall drops, Forall is_drop drops -> (forall t, In (ODrop t) drops) ->
      split_streams (disk (snd (run_ops drops (nmem c)))) = Ok (streams_of (fun t => written t (map fst l))).
Proof.
  intros acts Ok c Hidle. destruct (sim_exec acts nconf0 [] [] 0 Ok) as (es & E1 & E2 & E3); [intros x o []|exact inv0|]. cbn [app] in E2, E3.
  destruct (E3 (length acts) (le_n _)) as (T & next & HI). rewrite <- E1 in HI at 2. rewrite !firstn_all in HI. fold c in HI.
  assert (ET : T = []).
  { destruct T as [|e T]; [reflexivity|]. assert (Q : nthr c (etid e) = Some (ecall e, eprog e)) by (apply (i_thr _ _ _ _ HI); exists e; split; [left; reflexivity|auto]). rewrite Hidle in Q. discriminate. }
  subst T. set (fc := exec (concat es) conf0) in *.
  assert (Hi : all_idle fc) by (intros v; destruct (thr fc v) as [q|] eqn:Q; [apply (i_busy _ _ _ _ HI) in Q; destruct Q as (o & [])|reflexivity]).
  assert (Hc : cinv (fun _ => False) fc) by (apply cinv_exec; [apply acts_ok_good, E2|apply cinv0]).
  assert (HM : nmem c = cmem fc).
  { destruct (idle_seq _ _ Hc Hi) as (_ & _ & _ & _ & (pages & _ & _ & L1 & L2 & _)). destruct (i_mem _ _ _ _ HI) as (M1 & M2 & M3 & M4). rewrite L1 in M3. rewrite L2 in M4.
    destruct (nmem c) as [d1 s1 l1 h1], (cmem fc) as [d2 s2 l2 h2]. cbn [disk sinks slk shl] in *. subst d2 s2 l2 h2. f_equal; [|apply M4; reflexivity].
    apply tmap_ext. intros t. rewrite tget_tconst. apply M3. apply tget_tconst. }
  destruct (C04_linearizable (concat es) E2) as (g & Hg & _ & Hsc & _ & Hdone). fold fc in Hg, Hdone. destruct (Hdone Hi) as (Hpr & Hfin).
  exists (lins g). split; [exact Hsc|]. fold (lin_ops g). split; [|split].
  - destruct (part_of _ _ _ _ g HI Hg) as (_ & (r2 & P2) & (r3 & P3)); [eauto|].
    pose proof (i_made _ _ _ _ HI) as HA. cbn [map] in HA. rewrite app_nil_r in HA. apply perm_flat with (f := amounts_to) in HA.
    assert (r3 = []) as ->; [|rewrite app_nil_r in P3; apply Permutation_sym, P3].
    apply Permutation_length in P2, P3, HA. rewrite app_length in P2, P3. destruct r3; [reflexivity|]. cbn [length] in P3. lia.
  - intros acts1 acts2 EA h.
    assert (N1 : firstn (length acts1) acts = acts1) by (rewrite EA, firstn_app, firstn_all, Nat.sub_diag, firstn_O, app_nil_r; reflexivity).
    destruct (E3 (length acts1)) as (T1 & next1 & HI1); [rewrite EA, app_length; lia|]. rewrite N1 in HI1.
    destruct (exec_hist (concat (skipn (length acts1) es)) (exec (concat (firstn (length acts1) es)) conf0)) as (h2 & EH).
    rewrite <- exec_app, <- concat_app, firstn_skipn in EH. fold fc in EH. rewrite EH in Hg.
    destruct (erase_split _ _ _ Hg) as (g1 & g2 & -> & G1 & G2). exists (lins g1), (lins g2). split; [apply lins_app|].
    destruct (part_of _ _ _ _ g1 HI1 G1) as (P1 & P2 & P3).
    + intros v. apply (protocol_prefix v (proj v g2)) with (s := TIdle). unfold proj. rewrite <- filter_app. apply Hpr.
    + split; [exact P1|]. split; [exact P2|exact P3].
  - rewrite HM. exact Hfin.
Qed.
Print Assumptions C89_concurrent.

(** Two threads: one allocates a string whose serialization records an event, while the other records
    an event as well; both return, the second one first. *)
Definition ex3_acts : list naction :=
  [NInvoke 1 (Within TStrData 1 [Plain (OWriteBytes TEvents [7])] [1]); NTick 1;
   NInvoke 2 (Plain (OWriteBytes TEvents [8])); NTick 2; NTick 1; NTick 2; NTick 2; NTick 1; NTick 1; NTick 1; NTick 1].
Example ex_C89_concurrent : let c := nexec ex3_acts nconf0 in
  (forall tid call, In (NInvoke tid call) ex3_acts -> nop_ok call) /\ idle c /\
  answered (nhist c) = [(Plain (OWriteBytes TEvents [8]), 0); (Within TStrData 1 [Plain (OWriteBytes TEvents [7])] [1], 0)] /\
  flat_map amounts_to (made (nhist c)) = [OWriteAtomic TStrData 1 (fun _ => ([1], false)); OWriteBytes TEvents [7]; OWriteBytes TEvents [8]].
Proof.
  cbv zeta. split; [|split; [|split; reflexivity]].
  - intros tid call Q. unfold ex3_acts in Q. cbn [In] in Q. decompose [or] Q; try discriminate; try contradiction; match goal with E : _ = _ |- _ => injection E as _ <- end; cbn; auto.
  - intros tid. destruct (Z.eq_dec tid 1) as [->|N1]; [reflexivity|]. destruct (Z.eq_dec tid 2) as [->|N2]; [reflexivity|].
    apply idle_stays; [reflexivity|]. intros o Q. unfold ex3_acts in Q. cbn [In] in Q. decompose [or] Q; try discriminate; try contradiction; match goal with E : _ = _ |- _ => injection E; intros; subst; congruence end.
Qed.
