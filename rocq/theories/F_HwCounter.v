(** Numerals are unique; facts for C79. *)
From Coq Require Import String ZArith List Lia Bool.
From Verif Require Import M_Base F_Base M_Map S_Utf8 F_Utf8 M_Utf8 M_Crox S_Crox S_Tools Prop_Crox2 Prop_Tools M_Counters S_Counters Prop_Counters M_Metadata M_HwCounter S_HwCounter.
Import ListNotations.
Open Scope Z_scope.

Section Base.
Variables (B : Z) (val : Z -> Z) (ok : Z -> Prop).
Hypothesis HB : 1 < B.
Hypothesis val_range : forall c, ok c -> 0 <= val c < B.
Hypothesis val_inj : forall c d, ok c -> ok d -> val c = val d -> c = d.
Hypothesis val_zero : forall c, ok c -> val c = 0 -> c = 48.
Definition nval (ds : bytes) : Z := fold_left (fun a c => B * a + val c) ds 0.
Lemma nval_app ds c : nval (ds ++ [c]) = B * nval ds + val c.
Proof. unfold nval. rewrite fold_left_app. reflexivity. Qed.
Lemma nval_pos ds c t : Forall ok ds -> ds = c :: t -> c <> 48 -> 0 < nval ds.
Proof.
  intros F -> N. inversion F as [|? ? Hc Ft]; subst. revert Ft. induction t as [|d t IH] using rev_ind; intros Ft.
  - pose proof (val_range c Hc). unfold nval. cbn [fold_left]. destruct (Z.eq_dec (val c) 0) as [E|]; [destruct (N (val_zero c Hc E))|]. rewrite Z.mul_0_r, Z.add_0_l. lia.
  - apply Forall_app in Ft. destruct Ft as (Ft & Fd). inversion Fd as [|? ? Hd _]; subst. pose proof (val_range d Hd). specialize (IH ltac:(constructor; auto) Ft).
    change (c :: t ++ [d]) with ((c :: t) ++ [d]). rewrite nval_app. nia.
Qed.
Definition no_zero_head (ds : bytes) : Prop := ds = [] \/ exists c t, ds = c :: t /\ c <> 48.
Lemma nval_nonneg ds : Forall ok ds -> 0 <= nval ds.
Proof.
  induction ds as [|d ds IH] using rev_ind; intros F; [unfold nval; cbn; lia|]. apply Forall_app in F. destruct F as (F & Fd). inversion Fd as [|? ? Hd _]; subst. pose proof (val_range d Hd). rewrite nval_app. specialize (IH F). nia.
Qed.
Lemma nval_inj ds : forall es, Forall ok ds -> Forall ok es -> no_zero_head ds -> no_zero_head es -> nval ds = nval es -> ds = es.
Proof.
  assert (Z0 : forall xs, Forall ok xs -> no_zero_head xs -> nval xs = 0 -> xs = []).
  { intros xs F [->|(c & t & E & N)] H; [reflexivity|]. pose proof (nval_pos xs c t F E N). lia. }
  assert (HD : forall xs x, no_zero_head (xs ++ [x]) -> no_zero_head xs).
  { intros [|y ys] x; [left; reflexivity|]. intros [E|(c & t & E & N)]; [discriminate|]. injection E as -> _. right. eauto. }
  induction ds as [|d ds IH] using rev_ind; intros es F G HN HM E.
  - symmetry. apply Z0; auto.
  - destruct es as [|e es _] using rev_ind; [apply Z0; auto|]. apply Forall_app in F, G. destruct F as (F & Fd), G as (G & Ge). inversion Fd as [|? ? Hd _]; subst. inversion Ge as [|? ? He _]; subst.
    rewrite !nval_app in E. pose proof (val_range d Hd). pose proof (val_range e He).
    assert (nval ds = nval es /\ val d = val e) as (E1 & E2) by (assert (nval ds = nval es) by nia; split; [auto|lia]).
    f_equal; [apply IH; eauto|f_equal; apply val_inj; auto].
Qed.
End Base.
Lemma numeral_unique d n : numeral d n -> 0 <= n -> d = decimal n.
Proof.
  intros (F & D & Z0 & P) H. destruct (decimal_numeral n H) as (F' & D' & Z0' & P').
  destruct (Z.eq_dec n 0) as [E|E]; [rewrite Z0, Z0' by auto; reflexivity|].
  apply (nval_inj 10 (fun c => c - 48) (fun c => 48 <= c <= 57)); auto; try (intros; lia).
  - right. apply P. lia.
  - right. apply P'. lia.
  - unfold denotes in D, D'. unfold nval. rewrite D, D'. reflexivity.
Qed.
Definition hexv (c : Z) : Z := if c <? 58 then c - 48 else c - 87.
Definition hexok (c : Z) : Prop := 48 <= c <= 57 \/ 97 <= c <= 102.
Lemma hexv_range c : hexok c -> 0 <= hexv c < 16.
Proof. unfold hexok, hexv. intros H. destruct (Z.ltb_spec c 58); lia. Qed.
Lemma hexv_inj c d : hexok c -> hexok d -> hexv c = hexv d -> c = d.
Proof. unfold hexok, hexv. intros. destruct (Z.ltb_spec c 58), (Z.ltb_spec d 58); lia. Qed.
Lemma hexv_zero c : hexok c -> hexv c = 0 -> c = 48.
Proof. unfold hexok, hexv. intros. destruct (Z.ltb_spec c 58); lia. Qed.
Lemma hex_unique a b n : hex_digits a n -> hex_digits b n -> a = b.
Proof.
  intros (F & H & V) (F' & H' & V').
  assert (VE : nval 16 hexv a = nval 16 hexv b) by (unfold nval; rewrite <- V' in V; exact V).
  destruct H as [->|(c & t & E & N)], H' as [->|(c' & t' & E' & N')]; [reflexivity| | |].
  - pose proof (nval_pos 16 hexv hexok ltac:(lia) hexv_range hexv_zero b c' t' F' E' N'). change (nval 16 hexv [48]) with 0 in VE. lia.
  - pose proof (nval_pos 16 hexv hexok ltac:(lia) hexv_range hexv_zero a c t F E N). change (nval 16 hexv [48]) with 0 in VE. lia.
  - apply (nval_inj 16 hexv hexok); auto; try lia; [apply hexv_range|apply hexv_inj|apply hexv_zero|right; eauto|right; eauto].
Qed.
Lemma hex_digit_ok d : 0 <= d < 16 -> hexok (hex_digit d) /\ hexv (hex_digit d) = d.
Proof. unfold hexok, hexv, hex_digit. intros H. destruct (Z.ltb_spec d 10); [destruct (Z.ltb_spec (48 + d) 58)|destruct (Z.ltb_spec (87 + d) 58)]; lia. Qed.
Lemma hex_fuel_ok fuel : forall n, 0 <= n < 16 ^ Z.of_nat fuel -> (0 < fuel)%nat -> forall acc, exists ds, hex_fuel fuel n acc = ds ++ acc /\ hex_digits ds n.
Proof.
  induction fuel as [|fuel IH]; intros n Hn Hf acc; [lia|]. cbn [hex_fuel]. pose proof (Z.mod_pos_bound n 16 ltac:(lia)) as HM. destruct (hex_digit_ok (n mod 16) HM) as (O & V).
  destruct (Z.eqb_spec (n / 16) 0) as [E|E].
  - assert (EN : n mod 16 = n) by (rewrite (Z.div_mod n 16) at 2 by lia; lia). exists [hex_digit (n mod 16)]. split; [reflexivity|]. split; [constructor; [exact O|constructor]|]. split.
    + destruct (Z.eq_dec n 0) as [->|N0]; [left; reflexivity|]. right. exists (hex_digit (n mod 16)), []. split; [reflexivity|]. intros C. rewrite C in V. change (hexv 48) with 0 in V. lia.
    + cbn [fold_left]. fold (hexv (hex_digit (n mod 16))). rewrite V, EN. lia.
  - assert (HD : 0 <= n / 16 < 16 ^ Z.of_nat fuel). { split; [apply Z.div_pos; lia|]. apply Z.div_lt_upper_bound; [lia|]. rewrite Nat2Z.inj_succ, Z.pow_succ_r in Hn by lia. lia. }
    assert (HF : (0 < fuel)%nat). { destruct fuel; [|lia]. change (16 ^ Z.of_nat 0) with 1 in HD. lia. }
    destruct (IH (n / 16) HD HF (hex_digit (n mod 16) :: acc)) as (ds & E1 & F & H & V1). exists (ds ++ [hex_digit (n mod 16)]). split; [rewrite E1, <- app_assoc; reflexivity|]. split; [apply Forall_app; split; [exact F|constructor; [exact O|constructor]]|]. split.
    + right. destruct H as [->|(c & t & -> & N)]; [cbn [fold_left] in V1; change (48 <? 58) with true in V1; cbn iota in V1; lia|]. exists c, (t ++ [hex_digit (n mod 16)]). split; [reflexivity|exact N].
    + rewrite fold_left_app, V1. cbn [fold_left]. fold (hexv (hex_digit (n mod 16))). rewrite V. pose proof (Z.div_mod n 16). lia.
Qed.
Lemma hex8 n : 0 <= n < 2 ^ 32 -> hex_digits (hex_fuel 8 n []) n.
Proof. intros H. destruct (hex_fuel_ok 8 n ltac:(exact H) ltac:(lia) []) as (ds & E & D). rewrite app_nil_r in E. rewrite E. exact D. Qed.

(** ** Opening an event *)
Set Default Proof Using "All".
Section M.
Variables (debug_str : bytes -> bytes) (debug_io_error : Z -> bytes) (debug_cpuid : Z -> Z -> Z -> Z -> bytes) (m : machine).
Hypothesis OK : words_ok m.
Notation denied := (denied debug_io_error (fun a => - ka_fd a) m).
Lemma granted_unique need r r' : granted m need r -> granted m need r' -> r = r'.
Proof. intros (ev & p & E & _ & P & _ & _ & _ & R) (ev' & p' & E' & _ & P' & _ & _ & _ & R'). congruence. Qed.
Lemma open_cases ev :
  (exists reg, granted m (Some ev) reg /\ (forall text, ~ denied (Some ev) text) /\ with_type_and_hw_id debug_io_error m ev = Done reg) \/
  (exists text, denied (Some ev) text /\ (forall t', denied (Some ev) t' -> t' = text) /\ (forall reg, ~ granted m (Some ev) reg) /\ with_type_and_hw_id debug_io_error m ev = Failed text).
Proof.
  unfold with_type_and_hw_id, S_HwCounter.denied, granted. set (a := m_kernel m ev).
  destruct (Z.ltb_spec (ka_fd a) 0) as [L|L].
  - right. eexists. split; [left; split; [exact L|reflexivity]|]. split; [|split; [|reflexivity]].
    + intros t' [(_ & ->)|[(e & G & _)|(p & G & _)]]; [reflexivity|lia|lia].
    + intros reg (ev' & p & E & G & _). injection E as <-. fold a in G. lia.
  - destruct (ka_map a) as [e|p] eqn:EM.
    + right. eexists. split; [right; left; exists e; split; [exact L|split; reflexivity]|]. split; [|split; [|reflexivity]].
      * intros t' [(G & _)|[(e' & _ & E & ->)|(p & _ & E & _)]]; [lia|injection E as ->; reflexivity|discriminate].
      * intros reg (ev' & p & E & _ & G & _). injection E as <-. fold a in G. congruence.
    + assert (W : 0 <= pv_width p < 2 ^ 16) by (apply (proj2 OK ev); exact EM).
      assert (NG : (pv_cap_user_rdpmc p = 0 \/ pv_index p = 0 \/ pv_width p <> 48) -> forall reg, ~ granted m (Some ev) reg).
      { intros B reg (ev' & p' & E & _ & G & C & I & WW & _). injection E as <-. fold a in G. rewrite EM in G. injection G as <-. tauto. }
      destruct (Z.eqb_spec (pv_cap_user_rdpmc p) 0) as [C|C]; [|destruct (Z.eqb_spec (pv_index p) 0) as [I|I]; [|destruct (Z.eqb_spec (pv_width p) 48) as [D|D]]].
      * right. destruct (Z.eqb_spec (pv_cap_bit0_is_deprecated p) 0) as [B1|B1]; [destruct (Z.eqb_spec (pv_cap_bit0 p) 1) as [B2|B2]|]; cbn [andb]; eexists.
        -- split; [right; right; exists p; split; [exact L|]; split; [reflexivity|]; right; left; split; [exact C|]; split; [exact B1|]; split; [exact B2|reflexivity]|]. split; [|split; [exact (NG (or_introl C))|reflexivity]].
           intros t' [(G & _)|[(e & _ & E & _)|(p' & _ & E & H)]]; [lia|discriminate|]. injection E as <-. destruct H as [(_ & H & _)|[(_ & _ & _ & ->)|[(H & _)|(H & _)]]]; [destruct (H (conj B1 B2))|reflexivity|contradiction|contradiction].
        -- split; [right; right; exists p; split; [exact L|]; split; [reflexivity|]; left; split; [exact C|]; split; [intros (_ & H); contradiction|reflexivity]|]. split; [|split; [exact (NG (or_introl C))|rewrite app_nil_r; reflexivity]].
           intros t' [(G & _)|[(e & _ & E & _)|(p' & _ & E & H)]]; [lia|discriminate|]. injection E as <-. destruct H as [(_ & H & ->)|[(_ & _ & H & _)|[(H & _)|(H & _)]]]; [reflexivity|contradiction|contradiction|contradiction].
        -- split; [right; right; exists p; split; [exact L|]; split; [reflexivity|]; left; split; [exact C|]; split; [intros (H & _); contradiction|reflexivity]|]. split; [|split; [exact (NG (or_introl C))|rewrite app_nil_r; reflexivity]].
           intros t' [(G & _)|[(e & _ & E & _)|(p' & _ & E & H)]]; [lia|discriminate|]. injection E as <-. destruct H as [(_ & H & ->)|[(_ & H & _ & _)|[(H & _)|(H & _)]]]; [reflexivity|contradiction|contradiction|contradiction].
      * right. eexists. split; [right; right; exists p; split; [exact L|]; split; [reflexivity|]; right; right; left; split; [exact C|]; split; [exact I|reflexivity]|]. split; [|split; [exact (NG (or_intror (or_introl I)))|reflexivity]].
        intros t' [(G & _)|[(e & _ & E & _)|(p' & _ & E & H)]]; [lia|discriminate|]. injection E as <-. destruct H as [(H & _)|[(H & _)|[(_ & _ & ->)|(_ & H & _)]]]; [contradiction|contradiction|reflexivity|contradiction].
      * left. exists (pv_index p - 1). split; [|split; [|reflexivity]].
        -- exists ev, p. split; [reflexivity|]. split; [exact L|]. split; [exact EM|]. auto.
        -- intros text [(G & _)|[(e & _ & E & _)|(p' & _ & E & H)]]; [lia|discriminate|]. injection E as <-. destruct H as [(H & _)|[(H & _)|[(_ & H & _)|(_ & _ & H & _)]]]; contradiction.
      * right. cbn [negb]. eexists. split; [right; right; exists p; split; [exact L|]; split; [reflexivity|]; right; right; right; split; [exact C|]; split; [exact I|]; split; [exact D|]; exists (decimal (pv_width p)); split; [apply decimal_numeral; lia|reflexivity]|].
        split; [|split; [exact (NG (or_intror (or_intror D)))|reflexivity]].
        intros t' [(G & _)|[(e & _ & E & _)|(p' & _ & E & H)]]; [lia|discriminate|]. injection E as <-. destruct H as [(H & _)|[(H & _)|[(_ & H & _)|(_ & _ & _ & w & N & ->)]]]; [contradiction|contradiction|contradiction|]. rewrite (numeral_unique w _ N) by lia. reflexivity.
Qed.

(** ** Reading *)
Lemma hw_read_mod r : hw_read r = hw_read (r mod 2 ^ 48).
Proof.
  unfold hw_read. f_equal. f_equal. unfold i64_shl. f_equal. change (64 - 48) with 16. unfold as_u64.
  assert (K : forall a b, a mod 2 ^ 48 = b mod 2 ^ 48 -> (a * 2 ^ 16) mod 2 ^ 64 = (b * 2 ^ 16) mod 2 ^ 64).
  { intros a b E. change (2 ^ 64) with (2 ^ 48 * 2 ^ 16). rewrite !Z.mul_mod_distr_r by lia. rewrite E. reflexivity. }
  assert (A : forall x, (0 + as_i64 x) mod 2 ^ 48 = x mod 2 ^ 48).
  { intros x. rewrite Z.add_0_l. unfold as_i64. destruct (x <? 2 ^ 63); [reflexivity|]. replace (x - 2 ^ 64) with (x + (- 2 ^ 16) * 2 ^ 48) by lia. apply Z.mod_add. lia. }
  apply K. rewrite !A. symmetry. apply Z.mod_mod. lia.
Qed.
Lemma hw_read_eq r r' : hw_read r = hw_read r' <-> r mod 2 ^ 48 = r' mod 2 ^ 48.
Proof.
  split; [|intros E; rewrite (hw_read_mod r), (hw_read_mod r'), E; reflexivity].
  rewrite (hw_read_mod r), (hw_read_mod r'). intros E.
  assert (S : forall x, 0 <= x < 2 ^ 48 -> exists s, signed48 s /\ x = s mod 2 ^ 48 /\ (x = s \/ x = s + 2 ^ 48)).
  { intros x Hx. unfold signed48. destruct (Z.lt_ge_cases x (2 ^ 47)).
    - exists x. split; [lia|]. split; [symmetry; apply Z.mod_small; lia|auto].
    - exists (x - 2 ^ 48). split; [lia|]. split; [|right; lia]. replace (x - 2 ^ 48) with (x + (-1) * 2 ^ 48) by lia. rewrite Z.mod_add by lia. symmetry. apply Z.mod_small. lia. }
  destruct (S (r mod 2 ^ 48) (Z.mod_pos_bound r (2 ^ 48) ltac:(lia))) as (s & Hs & Es & _). destruct (S (r' mod 2 ^ 48) (Z.mod_pos_bound r' (2 ^ 48) ltac:(lia))) as (s' & Hs' & Es' & _).
  rewrite (hw_read_signed _ s Hs Es), (hw_read_signed _ s' Hs' Es') in E. rewrite Es, Es'. f_equal.
  unfold signed48 in *. clear - Hs Hs' E.
  assert (D : (s - s') mod 2 ^ 64 = 0) by (rewrite Zminus_mod, E, Z.sub_diag; reflexivity).
  apply Z.mod_divide in D; [|lia]. destruct D as (k & D). lia.
Qed.
(** ** The processor *)
Notation refused := (cpu_refused debug_str debug_cpuid m).
Notation detect := (detect_io debug_str debug_io_error debug_cpuid m).
Lemma vendor_ok a b c : bytes_ok (vendor_of a b c).
Proof. unfold vendor_of. apply Forall_app. split; [|apply Forall_app; split]; apply le_bytes_ok. Qed.
Lemma not_both : is_amd (m_ebx m) (m_edx m) (m_ecx m) -> is_intel (m_ebx m) (m_edx m) (m_ecx m) -> False.
Proof. intros (A & _) (B & _). rewrite A in B. discriminate. Qed.
Lemma model_nonneg v : 0 <= amd_model v /\ 0 <= intel_model v /\ 0 <= family v.
Proof.
  assert (0 <= ext_model v /\ 0 <= base_model v /\ 0 <= base_family v /\ 0 <= ext_family v) by (unfold ext_model, base_model, base_family, ext_family; Z.to_euclidean_division_equations; lia).
  unfold amd_model, intel_model. split; [|split].
  - destruct (15 <=? family v); lia.
  - destruct (_ || _)%bool; lia.
  - unfold family. destruct (base_family v =? 15); lia.
Qed.
Lemma amd_table_fun f n g g' : amd_table f n g -> amd_table f n g' -> g = g'.
Proof. destruct g, g'; cbn [amd_table]; intros H H'; try reflexivity; exfalso; intuition lia. Qed.
Lemma amd_table_impossible f n g : amd_table f n g -> amd_impossible f -> False.
Proof. unfold amd_impossible. destruct g; cbn [amd_table]; lia. Qed.
Lemma cpu_is_fun g g' : cpu_is m g -> cpu_is m g' -> g = g'.
Proof.
  pose proof (model_nonneg (m_version m)) as (NA & NI & NF).
  destruct g as [g|g], g' as [g'|g']; intros (V & T) (V' & T'); [| | |].
  - f_equal. eapply amd_table_fun; eauto.
  - destruct (not_both V V').
  - destruct (not_both V' V).
  - f_equal. apply (intel_match_table _ _ _ NF NI) in T, T'. congruence.
Qed.
Lemma refused_not_is text g : refused text -> cpu_is m g -> False.
Proof.
  intros R C. assert (U : utf8 (vendor_of (m_ebx m) (m_edx m) (m_ecx m))).
  { destruct g; destruct C as ((-> & -> & ->) & _); (apply utf8_valid_iff; [apply vendor_ok|reflexivity]). }
  destruct R as [(N & _)|[(A & I & _)|(_ & NA & NI & _)]].
  - exact (N U).
  - destruct g as [g|g]; destruct C as (V & T); [exact (amd_table_impossible _ _ _ T I)|exact (not_both A V)].
  - destruct g as [g|g]; destruct C as (V & T); [exact (NA V)|exact (NI V)].
Qed.
Lemma amd_utf8 : is_amd (m_ebx m) (m_edx m) (m_ecx m) -> utf8 (vendor_of (m_ebx m) (m_edx m) (m_ecx m)).
Proof. intros (-> & -> & ->). apply utf8_valid_iff; [apply vendor_ok|reflexivity]. Qed.
Lemma refused_fun a b : refused a -> refused b -> a = b.
Proof.
  pose proof (model_nonneg (m_version m)) as (NA & NI & NF).
  intros [(N & ->)|[(A & I & f & n & Hf & Hn & ->)|(U & Na & Ni & v & Hv & ->)]] [(N' & ->)|[(A' & I' & f' & n' & Hf' & Hn' & ->)|(U' & Na' & Ni' & v' & Hv' & ->)]].
  - reflexivity.
  - destruct (N (amd_utf8 A')).
  - destruct (N U').
  - destruct (N' (amd_utf8 A)).
  - rewrite (numeral_unique _ _ Hf NF), (numeral_unique _ _ Hf' NF), (numeral_unique _ _ Hn NA), (numeral_unique _ _ Hn' NA). reflexivity.
  - destruct (Na' A).
  - destruct (N' U).
  - destruct (Na A').
  - rewrite (hex_unique _ _ _ Hv Hv'). reflexivity.
Qed.
Lemma unknown_fun x y : unknown_cpu_warning m x -> unknown_cpu_warning m y -> x = y.
Proof.
  pose proof (model_nonneg (m_version m)) as (NA & NI & NF).
  intros [(C & f & n & Hf & Hn & ->)|(C & f & n & Hf & Hn & ->)] [(C' & f' & n' & Hf' & Hn' & ->)|(C' & f' & n' & Hf' & Hn' & ->)].
  - rewrite (numeral_unique _ _ Hf NF), (numeral_unique _ _ Hf' NF), (numeral_unique _ _ Hn NA), (numeral_unique _ _ Hn' NA). reflexivity.
  - discriminate (cpu_is_fun _ _ C C').
  - discriminate (cpu_is_fun _ _ C C').
  - rewrite (numeral_unique _ _ Hf NF), (numeral_unique _ _ Hf' NF), (numeral_unique _ _ Hn NI), (numeral_unique _ _ Hn' NI). reflexivity.
Qed.
Lemma zen_models_fun k a b : In (k, a) zen_models -> In (k, b) zen_models -> a = b.
Proof.
  intros A B. cbn [zen_models In] in A, B. destruct A as [A|[A|[A|[A|[A|[A|[]]]]]]], B as [B|[B|[B|[B|[B|[B|[]]]]]]]; try congruence; injection A as <- _; discriminate B.
Qed.
Lemma zen_named_fun a b : zen_named m a -> zen_named m b -> a = b.
Proof.
  intros [(C & A)|(C & ->)] [(C' & B)|(C' & ->)]; [eapply zen_models_fun; eauto| | |reflexivity]; discriminate (cpu_is_fun _ _ C C').
Qed.
Lemma speculation_fun t x y : speculation_warning m t x -> speculation_warning m t y -> x = y.
Proof. intros (_ & r & n & G & N & _ & ->) (_ & r' & n' & G' & N' & _ & ->). rewrite (zen_named_fun _ _ N N'). reflexivity. Qed.
Lemma zen_name_spec g : cpu_is m (Amd g) -> g = Zen \/ g = UnknownMaybeZenLike -> zen_named m (zen_name (family (m_version m)) (amd_model (m_version m))).
Proof.
  intros C [-> | ->]; pose proof C as (_ & T); cbn [amd_table] in T.
  - left. split; [exact C|]. destruct T as (-> & T). unfold zen_name. change (negb (23 =? 23)) with false. cbn iota. cbn [In] in T.
    destruct T as [T|[T|[T|[T|[T|[T|[]]]]]]]; rewrite <- T; cbn [Z.eqb Pos.eqb zen_models In]; auto 10.
  - right. split; [exact C|]. unfold zen_name. destruct (Z.eqb_spec (family (m_version m)) 23) as [F|F]; [|reflexivity]. cbn [negb]. destruct T as [T|(_ & T)]; [lia|]. cbn [In] in T. set (k := amd_model (m_version m)) in *.
    destruct (Z.eqb_spec k 1); [lia|]. destruct (Z.eqb_spec k 17); [lia|]. destruct (Z.eqb_spec k 24); [lia|]. destruct (Z.eqb_spec k 8); [lia|]. destruct (Z.eqb_spec k 49); [lia|]. destruct (Z.eqb_spec k 113); [lia|]. reflexivity.
Qed.
Lemma probe_spec g t : cpu_is m (Amd g) -> g = Zen \/ g = UnknownMaybeZenLike ->
  exists b t1, probe debug_io_error m (zen_name (family (m_version m)) (amd_model (m_version m))) t = (b, t1) /\ once (speculation_warning m t) b /\ (t <= t1)%nat.
Proof.
  intros C G. unfold probe. pose proof (zen_name_spec g C G) as ZN.
  assert (GG : cpu_is m (Amd Zen) \/ cpu_is m (Amd UnknownMaybeZenLike)) by (destruct G as [-> | ->]; auto).
  destruct (open_cases (4, 0x0825)) as [(reg & GR & _ & ->)|(text & _ & _ & NG & ->)].
  - eexists. exists (S (S t)). split; [reflexivity|]. split; [|lia]. unfold read. destruct (Z.eqb_spec (hw_read (m_register m t reg)) (hw_read (m_register m (S t) reg))) as [E|E].
    + left. split; [reflexivity|]. intros x (_ & reg' & n & GR' & _ & D & _). rewrite (granted_unique _ _ _ GR' GR) in D. apply hw_read_eq in E. contradiction.
    + right. assert (W : speculation_warning m t (str "[WARNING] CpuModel::detect: SpecLockMap detected, in AMD " ++ zen_name (family (m_version m)) (amd_model (m_version m)) ++ str " CPU; this may add some non-deterministic noise - for information on disabling SpecLockMap, see https://github.com/mozilla/rr/wiki/Zen")).
      { split; [exact GG|]. exists reg. eexists. split; [exact GR|]. split; [exact ZN|]. split; [intros D; apply E; apply hw_read_eq; exact D|reflexivity]. }
      eexists. split; [reflexivity|]. split; [exact W|]. intros y Y. exact (speculation_fun t _ _ Y W).
  - exists [], t. split; [reflexivity|]. split; [|lia]. left. split; [reflexivity|]. intros x (_ & reg & n & GR & _). exact (NG reg GR).
Qed.
Lemma no_speculation t g : cpu_is m g -> g <> Amd Zen -> g <> Amd UnknownMaybeZenLike -> once (speculation_warning m t) [].
Proof. intros C A B. left. split; [reflexivity|]. intros x ([D|D] & _); [exact (A (cpu_is_fun _ _ C D))|exact (B (cpu_is_fun _ _ C D))]. Qed.
Lemma no_unknown g : cpu_is m g -> g <> Amd UnknownMaybeZenLike -> g <> Intel UnknownMaybeLakeLike -> once (unknown_cpu_warning m) [].
Proof. intros C A B. left. split; [reflexivity|]. intros x [(D & _)|(D & _)]; [exact (A (cpu_is_fun _ _ C D))|exact (B (cpu_is_fun _ _ C D))]. Qed.
Lemma detect_cases t :
  (exists text, refused text /\ detect t = (Failed text, [], t)) \/
  (exists g a b t1, cpu_is m g /\ detect t = (Done g, a ++ b, t1) /\ once (unknown_cpu_warning m) a /\ once (speculation_warning m t) b /\ (t <= t1)%nat).
Proof.
  pose proof OK as ((HB & HD & HC & HV) & _). pose proof (model_nonneg (m_version m)) as (NA & NI & NF).
  pose proof (vendor_amd _ _ _ HB HD HC) as VA. pose proof (vendor_intel _ _ _ HB HD HC) as VI.
  unfold detect_io. rewrite family_of_spec, model_of_spec. set (vendor := vendor_of (m_ebx m) (m_edx m) (m_ecx m)) in *.
  assert (BO : bytes_ok vendor) by apply vendor_ok.
  destruct (utf8_valid vendor) eqn:EU; cbn [negb].
  2:{ left. eexists. split; [|reflexivity]. left. split; [|reflexivity]. intros U. apply (utf8_valid_iff _ BO) in U. fold (vendor_of (m_ebx m) (m_edx m) (m_ecx m)) in U. fold vendor in U. congruence. }
  destruct (beq vendor (str "AuthenticAMD")) eqn:EA.
  - pose proof (proj1 VA eq_refl) as A. assert (EI : beq vendor (str "GenuineIntel") = false). { destruct (beq vendor (str "GenuineIntel")) eqn:EI; [|reflexivity]. destruct (not_both A (proj1 VI eq_refl)). }
    rewrite EI. cbn [andb]. rewrite orb_false_r. fold (amd_model (m_version m)).
    destruct (amd_match_err (family (m_version m)) (amd_model (m_version m)) NF) as (ME & MP & MD). pose proof (fun g => amd_match_table (family (m_version m)) (amd_model (m_version m)) g NF) as MT.
    destruct (amd_match (family (m_version m)) (amd_model (m_version m))) as [g| | |] eqn:EM; try congruence.
    + right. assert (C : cpu_is m (Amd g)) by (split; [exact A|apply MT; reflexivity]).
      destruct g.
      * exists (Amd PreZen), [], [], t. split; [exact C|]. split; [reflexivity|]. split; [eapply no_unknown; [exact C| |]; discriminate|]. split; [eapply no_speculation; [exact C| |]; discriminate|lia].
      * destruct (probe_spec Zen t C (or_introl eq_refl)) as (b & t1 & -> & O & L). exists (Amd Zen), [], b, t1. split; [exact C|]. split; [reflexivity|]. split; [eapply no_unknown; [exact C| |]; discriminate|]. split; [exact O|exact L].
      * destruct (probe_spec UnknownMaybeZenLike t C (or_intror eq_refl)) as (b & t1 & -> & O & L). eexists (Amd UnknownMaybeZenLike), _, b, t1. split; [exact C|]. split; [reflexivity|]. split; [|split; [exact O|exact L]].
        right. eexists. split; [reflexivity|]. match goal with |- ?W ?x /\ _ => assert (U : W x) end.
        { left. split; [exact C|]. exists (decimal (family (m_version m))), (decimal (amd_model (m_version m))). split; [apply decimal_numeral; exact NF|]. split; [apply decimal_numeral; exact NA|reflexivity]. }
        split; [exact U|]. intros y Y. exact (unknown_fun _ _ Y U).
    + left. eexists. split; [|reflexivity]. right. left. split; [exact A|]. split; [apply ME; reflexivity|]. exists (decimal (family (m_version m))), (decimal (amd_model (m_version m))). split; [apply decimal_numeral; exact NF|]. split; [apply decimal_numeral; exact NA|reflexivity].
  - destruct (beq vendor (str "GenuineIntel")) eqn:EI.
    + pose proof (proj1 VI eq_refl) as I. cbn [andb]. fold (intel_model (m_version m)). right. set (g := intel_match (family (m_version m)) (intel_model (m_version m))).
      assert (C : cpu_is m (Intel g)) by (split; [exact I|apply (intel_match_table _ _ _ NF NI); reflexivity]). clearbody g. exists (Intel g).
      assert (NS : once (speculation_warning m t) []) by (eapply no_speculation; [exact C| |]; discriminate).
      destruct g; try (exists [], [], t; split; [exact C|]; split; [reflexivity|]; split; [eapply no_unknown; [exact C| |]; discriminate|]; split; [exact NS|lia]).
      eexists _, [], t. split; [exact C|]. split; [rewrite app_nil_r; reflexivity|]. split; [|split; [exact NS|lia]].
      right. eexists. split; [reflexivity|]. match goal with |- ?W ?x /\ _ => assert (U : W x) end.
      { right. split; [exact C|]. exists (decimal (family (m_version m))), (decimal (intel_model (m_version m))). split; [apply decimal_numeral; exact NF|]. split; [apply decimal_numeral; exact NI|reflexivity]. }
      split; [exact U|]. intros y Y. exact (unknown_fun _ _ Y U).
    + left. eexists. split; [|reflexivity]. right. right. split; [apply (utf8_valid_iff _ BO); exact EU|]. split; [intros A; apply VA in A; discriminate|]. split; [intros A; apply VI in A; discriminate|].
      exists (hex_fuel 8 (m_version m) []). split; [apply hex8; exact HV|reflexivity].
Qed.
End M.
