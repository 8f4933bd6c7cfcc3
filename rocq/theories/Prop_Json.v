(** C57, C58: the JSON outputs.  Model M_Json.v (with the parser of M_Metadata.v), specification S_Json.v. *)
From Coq Require Import String ZArith List Lia Bool Permutation.
From Verif Require Import M_Base F_Base M_Raw M_V8 M_Map S_Utf8 F_Utf8 M_Crox S_Crox Prop_Crox Prop_Crox2 M_Analysis M_Metadata S_Json F_Json M_Json.
Import ListNotations.
Open Scope Z_scope.

(** ** The printer *)
Definition json_induction (P : json -> Prop) (HNull : P JNull) (HBool : forall b, P (JBool b)) (HInt : forall n, P (JInt n)) (HFloat : forall t, P (JFloat t))
  (HStr : forall s, P (JStr s)) (HArr : forall l, Forall P l -> P (JArr l)) (HObj : forall l, Forall (fun m : bytes * json => P (snd m)) l -> P (JObj l)) : forall v, P v :=
  fix ind (v : json) : P v :=
    match v with
    | JNull => HNull | JBool b => HBool b | JInt n => HInt n | JFloat t => HFloat t | JStr s => HStr s
    | JArr l => HArr l ((fix go l : Forall P l := match l with [] => Forall_nil P | x :: l' => Forall_cons x (ind x) (go l') end) l)
    | JObj l => HObj l ((fix go l : Forall (fun m : bytes * json => P (snd m)) l := match l with [] => Forall_nil _ | x :: l' => Forall_cons x (ind (snd x)) (go l') end) l)
    end.
(** every string in the value satisfies [Q] *)
Fixpoint all_strings (Q : bytes -> Prop) (v : json) : Prop :=
  match v with
  | JStr s => Q s
  | JFloat t => float_text t
  | JArr l => fold_right (fun v P => all_strings Q v /\ P) True l
  | JObj l => fold_right (fun m P => (Q (fst m) /\ all_strings Q (snd m)) /\ P) True l
  | _ => True
  end.
Lemma all_strings_arr Q l : all_strings Q (JArr l) <-> Forall (all_strings Q) l.
Proof. cbn [all_strings]. induction l as [|x l IH]; cbn [fold_right]; [split; constructor|]. rewrite IH. split; [intros (A & B); constructor; auto|intros H; inversion H; auto]. Qed.
Lemma all_strings_obj Q l : all_strings Q (JObj l) <-> Forall (fun m => Q (fst m) /\ all_strings Q (snd m)) l.
Proof. cbn [all_strings]. induction l as [|x l IH]; cbn [fold_right]; [split; constructor|]. rewrite IH. split; [intros (A & B); constructor; auto|intros H; inversion H; auto]. Qed.
Lemma hex_digit_is d : 0 <= d < 16 -> hex_is (hex_digit d) d.
Proof. intros H. unfold hex_is, hex_digit. destruct (Z.ltb_spec d 10); lia. Qed.
Lemma escape_chars c b s : 0 <= c -> jchars b s -> jchars (json_escape c ++ b) (c :: s).
Proof.
  intros H J. unfold json_escape.
  destruct (Z.eqb_spec c 34) as [->|N1]; [apply C_short; [cbn; tauto|auto]|]. destruct (Z.eqb_spec c 92) as [->|N2]; [apply C_short; [cbn; tauto|auto]|].
  destruct (Z.eqb_spec c 8) as [->|N3]; [apply C_short; [cbn; tauto|auto]|]. destruct (Z.eqb_spec c 9) as [->|N4]; [apply C_short; [cbn; tauto|auto]|].
  destruct (Z.eqb_spec c 10) as [->|N5]; [apply C_short; [cbn; tauto|auto]|]. destruct (Z.eqb_spec c 12) as [->|N6]; [apply C_short; [cbn; tauto|auto]|].
  destruct (Z.eqb_spec c 13) as [->|N7]; [apply C_short; [cbn; tauto|auto]|]. destruct (Z.ltb_spec c 32) as [L|L]; [|apply C_plain; auto].
  cbn [app]. replace (c :: s) with (encode c ++ s) by (unfold encode; destruct (Z.ltb_spec c 128); [reflexivity|lia]). apply (C_u _ _ _ _ c); auto; [|lia].
  exists 0, 0, (c / 16), (c mod 16). split; [left; lia|]. split; [left; lia|]. split; [apply hex_digit_is; Z.to_euclidean_division_equations; lia|]. split; [apply hex_digit_is; Z.to_euclidean_division_equations; lia|]. Z.to_euclidean_division_equations; lia.
Qed.
Lemma string_chars s : Forall (fun c => 0 <= c) s -> jchars (flat_map json_escape s) s.
Proof. induction 1 as [|c s H F IH]; cbn [flat_map]; [constructor|]. apply escape_chars; auto. Qed.
Lemma decimal_int_part n : 0 <= n -> int_part (decimal n).
Proof.
  intros H. destruct (C37_decimal n H) as (F & _ & Z0 & P). split; auto. destruct (Z.eq_dec n 0) as [E|N]; [left; auto|]. right. apply P. lia.
Qed.
Lemma join_elems bs l : Forall2 jtext bs l -> l <> [] -> jelems (join bs) l.
Proof.
  induction 1 as [|b v bs l H F IH]; [congruence|]. intros _. destruct F as [|b' v' bs l H' F].
  - cbn [join]. pose proof (E_one [] b [] v ltac:(constructor) H ltac:(constructor)) as K. cbn [app] in K. rewrite app_nil_r in K. exact K.
  - change (join (b :: b' :: bs)) with (b ++ 44 :: join (b' :: bs)). apply (E_cons [] b [] v); auto; [constructor|constructor|]. apply IH. discriminate.
Qed.
Definition member_text (b : bytes) (m : bytes * json) : Prop := exists kb vb, b = 34 :: kb ++ 34 :: 58 :: vb /\ jchars kb (fst m) /\ jtext vb (snd m).
Lemma join_members bs l : Forall2 member_text bs l -> l <> [] -> jmembers (join bs) l.
Proof.
  induction 1 as [|b (k, v) bs l (kb & vb & -> & JK & J) F IH]; [congruence|]. intros _. cbn [fst snd] in *. destruct F as [|b' m' bs l H' F].
  - cbn [join]. pose proof (M_one [] kb k [] [] vb [] v ltac:(constructor) JK ltac:(constructor) ltac:(constructor) J ltac:(constructor)) as K. cbn [app] in K. rewrite app_nil_r in K. exact K.
  - change (join ((34 :: kb ++ 34 :: 58 :: vb) :: b' :: bs)) with ((34 :: kb ++ 34 :: 58 :: vb) ++ 44 :: join (b' :: bs)).
    pose proof (M_cons [] kb k [] [] vb [] v (join (b' :: bs)) (m' :: l) ltac:(constructor) JK ltac:(constructor) ltac:(constructor) J ltac:(constructor) (IH ltac:(discriminate))) as K.
    cbn [app] in K |- *. rewrite <- app_assoc. exact K.
Qed.
Definition nonneg (s : bytes) : Prop := Forall (fun c => 0 <= c) s.
Lemma print_ok v : all_strings nonneg v -> jtext (print v) v.
Proof.
  induction v as [|b|n|t|s|l IH|l IH] using json_induction; intros H.
  - constructor.
  - destruct b; constructor.
  - cbn [print]. destruct (Z.ltb_spec n 0) as [L|L].
    + assert (NZ : ~ (true = true /\ decimal (- n) = [48])) by (intros (_ & E0); destruct (C37_decimal (- n) ltac:(lia)) as (_ & D & _); rewrite E0 in D; cbn in D; lia). pose proof (T_int true (decimal (- n)) (decimal_int_part (- n) ltac:(lia)) NZ) as K. cbn [sign app] in K. destruct (C37_decimal (- n) ltac:(lia)) as (_ & D & _). rewrite D, Z.opp_involutive in K. exact K.
    + assert (NZ : ~ (false = true /\ decimal n = [48])) by (intros (E0 & _); discriminate). pose proof (T_int false (decimal n) (decimal_int_part n L) NZ) as K. cbn [sign app] in K. destruct (C37_decimal n L) as (_ & D & _). rewrite D in K. exact K.
  - destruct H as (neg & ds & f & e & -> & H1 & H2 & H3 & H4). cbn [print]. apply T_float; auto.
  - cbn [print]. unfold json_string. constructor. apply string_chars. exact H.
  - apply all_strings_arr in H. cbn [print]. destruct l as [|x l]; [apply (T_arr0 []); constructor|]. apply T_arr. apply join_elems; [|discriminate].
    clear - IH H. induction IH as [|y l' HP F IH2]; [constructor|]. inversion H; subst. constructor; auto.
  - apply all_strings_obj in H. cbn [print]. destruct l as [|x l]; [apply (T_obj0 []); constructor|]. apply T_obj. apply join_members; [|discriminate].
    clear - IH H. induction IH as [|y l' HP F IH2]; [constructor|]. inversion H as [|? ? (HK & HV) H2]; subst. constructor; auto. exists (flat_map json_escape (fst y)), (print (snd y)). split; [|split; [apply string_chars; auto|auto]].
    unfold json_string. cbn [app]. rewrite <- app_assoc. reflexivity.
Qed.
(** ** The output is UTF-8 *)
Lemma utf8_nonneg s : utf8 s -> nonneg s.
Proof. intros H. apply Forall_forall. intros c Hc. apply (utf8_max s c H) in Hc. lia. Qed.
Lemma all_strings_impl (Q Q' : bytes -> Prop) v : (forall s, Q s -> Q' s) -> all_strings Q v -> all_strings Q' v.
Proof.
  intros HQ. induction v as [|b|n|t|s|l IH|l IH] using json_induction; try (cbn; auto; fail).
  - rewrite !all_strings_arr. intros H. induction IH; inversion H; subst; constructor; auto.
  - rewrite !all_strings_obj. intros H. induction IH as [|x l HP F IH2]; inversion H as [|? ? (A & B) C]; subst; constructor; auto.
Qed.
Lemma escape_ascii c : 0 <= c < 128 -> Forall (fun c => 0 <= c < 128) (json_escape c).
Proof.
  intros H. unfold json_escape. repeat match goal with |- context [?a =? ?b] => destruct (Z.eqb_spec a b); [repeat constructor; lia|] end.
  assert (HD : forall d, 0 <= d < 16 -> 0 <= hex_digit d < 128) by (intros d Hd; unfold hex_digit; destruct (Z.ltb_spec d 10); lia).
  destruct (Z.ltb_spec c 32); [|repeat constructor; lia]. repeat (constructor; [first [lia|apply HD; Z.to_euclidean_division_equations; lia]|]). constructor.
Qed.
Lemma escape_high b : Forall (fun c => 128 <= c) b -> flat_map json_escape b = b.
Proof.
  induction 1 as [|c b H F IH]; [reflexivity|]. cbn [flat_map]. rewrite IH. unfold json_escape. repeat match goal with |- context [?a =? ?b] => replace (a =? b) with false by (symmetry; apply Z.eqb_neq; lia) end.
  destruct (Z.ltb_spec c 32); [lia|]. reflexivity.
Qed.
Lemma encode_high c : scalar c -> 128 <= c -> Forall (fun c => 128 <= c) (encode c).
Proof.
  intros S H. unfold encode. destruct (Z.ltb_spec c 128); [lia|]. destruct (Z.ltb_spec c 2048); [|destruct (Z.ltb_spec c 65536)].
  all: repeat (constructor; [unfold scalar in S; Z.to_euclidean_division_equations; lia|]); constructor.
Qed.
Lemma escape_utf8 s : utf8 s -> utf8 (flat_map json_escape s).
Proof.
  intros (cs & F & ->). induction F as [|c cs S F IH]; cbn [flat_map]; [apply utf8_nil|]. rewrite flat_map_app. apply utf8_app; auto.
  destruct (Z_lt_ge_dec c 128) as [L|L].
  - assert (0 <= c) by (unfold scalar in S; lia). replace (encode c) with [c] by (unfold encode; destruct (Z.ltb_spec c 128); [reflexivity|lia]). cbn [flat_map]. rewrite app_nil_r. apply utf8_ascii_list, escape_ascii. lia.
  - rewrite escape_high by (apply encode_high; auto; lia). exists [c]. split; [constructor; auto|]. cbn [flat_map]. rewrite app_nil_r. reflexivity.
Qed.
Lemma utf8_cons c b : 0 <= c < 128 -> utf8 b -> utf8 (c :: b).
Proof. intros H. apply (utf8_app [c] b), utf8_ascii, H. Qed.
Lemma decimal_utf8 n : 0 <= n -> utf8 (decimal n).
Proof. intros H. apply utf8_ascii_list. destruct (C37_decimal n H) as (F & _). eapply Forall_impl; [|exact F]. cbn. lia. Qed.
Lemma join_utf8 bs : Forall utf8 bs -> utf8 (join bs).
Proof.
  induction 1 as [|b bs H F IH]; [apply utf8_nil|]. destruct F as [|b' bs H' F]; [auto|]. change (join (b :: b' :: bs)) with (b ++ 44 :: join (b' :: bs)). apply utf8_app; auto. apply utf8_cons; [lia|auto].
Qed.
Lemma json_string_utf8 s : utf8 s -> utf8 (json_string s).
Proof. intros H. unfold json_string. apply utf8_cons; [lia|]. apply utf8_app; [apply escape_utf8, H|apply utf8_ascii; lia]. Qed.
Lemma str_utf8 s : forallb (fun c => (0 <=? c) && (c <? 128)) (str s) = true -> utf8 (str s).
Proof. intros H. apply utf8_ascii_list, Forall_forall. intros c Hc. rewrite forallb_forall in H. apply H in Hc. apply andb_true_iff in Hc. rewrite Z.leb_le, Z.ltb_lt in Hc. lia. Qed.
Lemma float_utf8 t : float_text t -> utf8 t.
Proof.
  intros (neg & ds & f & e & -> & (D & _) & F & E & _). assert (K : forall x, digits x -> Forall (fun c => 0 <= c < 128) x) by (intros x Hx; eapply Forall_impl; [|exact Hx]; cbn; lia).
  apply utf8_ascii_list. apply Forall_app. split; [destruct neg; repeat constructor; lia|]. apply Forall_app. split; [apply K, D|]. apply Forall_app. split.
  - destruct F as [->|(x & -> & _ & Hx)]; [constructor|]. constructor; [lia|apply K, Hx].
  - destruct E as [->|(m & s & x & -> & Hm & Hs & _ & Hx)]; [constructor|]. constructor; [lia|]. apply Forall_app. split; [destruct Hs as [->|[->| ->]]; repeat constructor; lia|apply K, Hx].
Qed.
Lemma print_utf8 v : all_strings utf8 v -> utf8 (print v).
Proof.
  induction v as [|b|n|t|s|l IH|l IH] using json_induction; intros H.
  - apply str_utf8. reflexivity.
  - destruct b; apply str_utf8; reflexivity.
  - cbn [print]. destruct (Z.ltb_spec n 0) as [L|L]; [apply utf8_cons; [lia|]; apply decimal_utf8; lia|apply decimal_utf8; auto].
  - apply float_utf8, H.
  - apply json_string_utf8, H.
  - apply all_strings_arr in H. cbn [print]. apply utf8_cons; [lia|]. apply utf8_app; [|apply utf8_ascii; lia]. apply join_utf8. induction IH; inversion H; subst; constructor; auto.
  - apply all_strings_obj in H. cbn [print]. apply utf8_cons; [lia|]. apply utf8_app; [|apply utf8_ascii; lia]. apply join_utf8. induction IH as [|x l HP F IH2]; inversion H as [|? ? (A & B) C]; subst; constructor; auto.
    apply utf8_app; [apply json_string_utf8, A|]. apply utf8_cons; [lia|auto].
Qed.

(** ** C57: results written and read back *)
(** The reader accepts exactly the JSON texts, with their meaning. *)
Theorem C57_reader : forall b v, from_str b = Some v <-> document b v.
Proof. exact from_str_iff. Qed.
Print Assumptions C57_reader.
Lemma document_print v : all_strings nonneg v -> document (print v) v.
Proof. intros H. exists [], (print v), []. rewrite app_nil_r. split; [reflexivity|]. split; [constructor|]. split; [constructor|]. apply print_ok, H. Qed.
Lemma as_duration_ok d : duration_ok d -> as_duration (duration_json d) = Ok d.
Proof.
  unfold duration_ok. intros H. change (as_duration (duration_json d)) with
    (do s <- as_unsigned U64 (JInt (d / 1000000000)); do n <- as_unsigned (2 ^ 32) (JInt (d mod 1000000000)); if s + n / 1000000000 <? U64 then Ok (s * 1000000000 + n) else Err).
  unfold as_unsigned, U64. pose proof (Z.div_mod d 1000000000 ltac:(lia)). pose proof (Z.mod_pos_bound d 1000000000 ltac:(lia)).
  assert (0 <= d / 1000000000) by (apply Z.div_pos; lia). assert (d / 1000000000 < 18446744073709551616) by (apply Z.div_lt_upper_bound; lia).
  rewrite (proj2 (Z.leb_le 0 (d / 1000000000))), (proj2 (Z.ltb_lt (d / 1000000000) _)) by lia. cbn [andb bind]. rewrite (proj2 (Z.leb_le 0 (d mod 1000000000))), (proj2 (Z.ltb_lt (d mod 1000000000) (2 ^ 32))) by lia. cbn [andb bind].
  rewrite (Z.div_small (d mod 1000000000)) by lia. rewrite (proj2 (Z.ltb_lt (d / 1000000000 + 0) _)) by lia. f_equal. lia.
Qed.
Lemma as_unsigned_ok n : is_u64 n -> as_unsigned U64 (JInt n) = Ok n.
Proof. unfold is_u64, as_unsigned, U64. intros H. rewrite (proj2 (Z.leb_le 0 n)), (proj2 (Z.ltb_lt n _)) by lia. reflexivity. Qed.
Lemma as_query_ok q : query_ok q -> as_query (query_json q) = Ok q.
Proof.
  intros (H1 & H2 & H3 & H4 & H5 & H6 & H7 & H8 & H9). destruct q as [a b c d e f g h i]. cbn [q_label q_time q_self_time q_misses q_hits q_count q_blocked q_load q_hashing] in *.
  apply as_duration_ok in H2, H3, H7, H8, H9. apply as_unsigned_ok in H4, H5, H6. unfold query_json. cbn [q_label q_time q_self_time q_misses q_hits q_count q_blocked q_load q_hashing].
  revert H2 H3 H4 H5 H6 H7 H8 H9. generalize (duration_json b) (duration_json c) (JInt d) (JInt e) (JInt f) (duration_json g) (duration_json h) (duration_json i). intros vb vc vd ve vf vg vh vi H2 H3 H4 H5 H6 H7 H8 H9.
  match goal with |- as_query ?v = _ => change (as_query v) with (do b <- as_duration vb; do c <- as_duration vc; do d <- as_unsigned U64 vd; do e <- as_unsigned U64 ve; do f <- as_unsigned U64 vf; do g <- as_duration vg; do h <- as_duration vh; do i <- as_duration vi; Ok (mkQ a b c d e f g h i)) end.
  rewrite H2, H3, H4, H5, H6, H7, H8, H9. reflexivity.
Qed.
Lemma as_artifact_ok a : artifact_ok a -> as_artifact (artifact_json a) = Ok a.
Proof.
  intros (H1 & H2). destruct a as [l v]. cbn [art_label art_value] in *. apply as_unsigned_ok in H2. change (as_artifact (artifact_json (mkArt l v))) with (do b <- as_unsigned U64 (JInt v); Ok (mkArt l b)). rewrite H2. reflexivity.
Qed.
Lemma read_all_ok {A} (f : json -> res A) (g : A -> json) (P : A -> Prop) l : (forall x, P x -> f (g x) = Ok x) -> Forall P l -> read_all f (map g l) = Ok l.
Proof. intros H F. induction F as [|x l HP F IH]; [reflexivity|]. cbn [map read_all]. rewrite H by auto. cbn [bind]. rewrite IH. reflexivity. Qed.
Lemma as_results_ok r : results_ok r -> as_results (results_json r) = Ok r.
Proof.
  intros (H1 & H2 & H3). destruct r as [q a t]. cbn [query_data artifact_sizes total_time] in *. unfold results_json. cbn [query_data artifact_sizes total_time].
  apply as_duration_ok in H3. apply (read_all_ok as_query query_json query_ok) in H1; [|exact as_query_ok]. apply (read_all_ok as_artifact artifact_json artifact_ok) in H2; [|exact as_artifact_ok].
  revert H1 H2 H3. generalize (map query_json q) (map artifact_json a) (duration_json t). intros vq va vt H1 H2 H3.
  match goal with |- as_results ?v = _ => change (as_results v) with (do q <- read_all as_query vq; do a <- read_all as_artifact va; do t <- as_duration vt; Ok (mkRes q a t)) end.
  rewrite H1, H2. cbn [bind]. rewrite H3. reflexivity.
Qed.
Ltac strs := repeat match goal with
  | |- _ /\ _ => split
  | |- True => exact I
  | |- utf8 (str _) => apply str_utf8; reflexivity
  | |- utf8 [] => apply utf8_nil
  end.
Lemma results_strings r : results_ok r -> all_strings utf8 (results_json r).
Proof.
  intros (H1 & H2 & H3). unfold results_json. cbn [all_strings fold_right fst snd]. unfold duration_json. cbn [all_strings fold_right fst snd]. strs.
  - change (fold_right _ True (map query_json (query_data r))) with (all_strings utf8 (JArr (map query_json (query_data r)))). apply all_strings_arr. apply Forall_map. eapply Forall_impl; [|exact H1]. intros q (HL & _). unfold query_json, duration_json. cbn [all_strings fold_right fst snd]. strs; auto.
  - change (fold_right _ True (map artifact_json (artifact_sizes r))) with (all_strings utf8 (JArr (map artifact_json (artifact_sizes r)))). apply all_strings_arr. apply Forall_map. eapply Forall_impl; [|exact H2]. intros a (HL & _). unfold artifact_json. cbn [all_strings fold_right fst snd]. strs; auto.
Qed.
(** The text is a JSON document (in UTF-8), and reading it gives back the results. *)
Theorem C57_reads_back : forall r, results_ok r ->
  utf8 (results_text r) /\ (exists v, document (results_text r) v) /\ read_results (results_text r) = Ok r.
Proof.
  intros r H. pose proof (results_strings r H) as S. assert (D : document (results_text r) (results_json r)) by (apply document_print; eapply all_strings_impl; [apply utf8_nonneg|exact S]).
  split; [apply print_utf8, S|]. split; [eauto|]. unfold read_results. apply from_str_iff in D. rewrite D. apply as_results_ok, H.
Qed.
Print Assumptions C57_reads_back.

(** Whatever the file contains, reading it gives results or an error, never a panic. *)
Definition no_panic {A} (r : res A) : Prop := (exists a, r = Ok a) \/ r = Err.
Lemma no_panic_bind {A B} (r : res A) (k : A -> res B) : no_panic r -> (forall a, no_panic (k a)) -> no_panic (do a <- r; k a).
Proof. intros [(a & ->)| ->] H; [apply H|right; reflexivity]. Qed.
Lemma no_panic_Ok {A} (a : A) : no_panic (Ok a).
Proof. left. eauto. Qed.
Lemma no_panic_object names v : no_panic (as_object names v).
Proof. unfold as_object. destruct (members_of names v); [left; eauto|right; reflexivity]. Qed.
Lemma no_panic_array v : no_panic (as_array v).
Proof. destruct v; first [right; reflexivity|left; eexists; reflexivity]. Qed.
Lemma no_panic_string v : no_panic (as_string v).
Proof. destruct v; first [right; reflexivity|left; eexists; reflexivity]. Qed.
Lemma no_panic_unsigned b v : no_panic (as_unsigned b v).
Proof. destruct v; try (right; reflexivity). cbn [as_unsigned]. destruct (_ && _); [left; eauto|right; reflexivity]. Qed.
Lemma no_panic_field k l : no_panic (field k l).
Proof. unfold field. destruct (fields k l) as [|? [|]]; [right; reflexivity|left; eauto|right; reflexivity]. Qed.
Lemma no_panic_all {A} (f : json -> res A) l : (forall v, no_panic (f v)) -> no_panic (read_all f l).
Proof.
  intros H. induction l as [|x l IH]; [apply no_panic_Ok|]. cbn [read_all]. apply no_panic_bind; [apply H|intros y]. apply no_panic_bind; [exact IH|intros ys; apply no_panic_Ok].
Qed.
Ltac readers := repeat first [apply no_panic_bind; [first [apply no_panic_object|apply no_panic_array|apply no_panic_string|apply no_panic_unsigned|apply no_panic_field]|intros ?]].
Lemma no_panic_duration v : no_panic (as_duration v).
Proof. unfold as_duration. readers. destruct (forallb _ _); [|right; reflexivity]. readers. destruct (_ <? _); [apply no_panic_Ok|right; reflexivity]. Qed.
Ltac readers2 := repeat first [apply no_panic_Ok|apply no_panic_bind; [first [apply no_panic_object|apply no_panic_array|apply no_panic_string|apply no_panic_unsigned|apply no_panic_field|apply no_panic_duration]|intros ?]].
Lemma no_panic_query v : no_panic (as_query v).
Proof. unfold as_query. readers2. Qed.
Lemma no_panic_artifact v : no_panic (as_artifact v).
Proof. unfold as_artifact. readers2. Qed.
Theorem C57_total : forall text, (exists r, read_results text = Ok r) \/ read_results text = Err.
Proof.
  intros text. change (no_panic (read_results text)). unfold read_results. destruct (from_str text) as [v|]; [|right; reflexivity]. unfold as_results.
  readers2. apply no_panic_bind; [apply no_panic_all, no_panic_query|intros ?]. readers2. apply no_panic_bind; [apply no_panic_all, no_panic_artifact|intros ?]. readers2.
Qed.
Print Assumptions C57_total.

(** The results of every analysis are of this kind. *)
Definition qb (n : Z) (q : qdata) : Prop :=
  utf8 (q_label q) /\ duration_ok (q_time q) /\ duration_ok (q_self_time q) /\ 0 <= q_misses q <= n /\ 0 <= q_hits q <= n /\ 0 <= q_count q <= n /\
  duration_ok (q_blocked q) /\ duration_ok (q_load q) /\ duration_ok (q_hashing q).
Lemma dadd_ok a b v : duration_ok a -> 0 <= b -> dadd a b = Ok v -> duration_ok v.
Proof. unfold duration_ok, dadd, DURATION_MAX. intros H Hb. destruct (Z.leb_spec (a + b) (18446744073709551615 * 1000000000 + 999999999)); [|discriminate]. intros E. injection E as <-. lia. Qed.
Lemma dsub_ok a b v : duration_ok a -> 0 <= b -> dsub a b = Ok v -> duration_ok v.
Proof. unfold duration_ok, dsub. intros H Hb. destruct (Z.leb_spec b a); [|discriminate]. intros E. injection E as <-. lia. Qed.
Ltac upd := match goal with
  | H : context [dadd ?a ?b] |- _ => let v := fresh "v" in let E := fresh "E" in destruct (dadd a b) as [v| | |] eqn:E; cbn [bind] in H; try discriminate; apply dadd_ok in E; auto
  | H : context [dsub ?a ?b] |- _ => let v := fresh "v" in let E := fresh "E" in destruct (dsub a b) as [v| | |] eqn:E; cbn [bind] in H; try discriminate; apply dsub_ok in E; auto
  end.
Lemma qb_mono n m q : n <= m -> qb n q -> qb m q.
Proof. unfold qb. intuition lia. Qed.
Lemma parent_qb k d n q q' : 0 <= d -> qb n q -> parent_update k d q = Ok q' -> qb n q'.
Proof.
  intros Hd (H1 & H2 & H3 & H4 & H5 & H6 & H7 & H8 & H9). unfold parent_update, sub_self, sub_hashing, sub_load.
  destruct (beq k QUERY_EVENT_KIND || beq k GENERIC_ACTIVITY_EVENT_KIND); [|destruct (beq k INCREMENTAL_RESULT_HASHING_EVENT_KIND); [|destruct (beq k INCREMENTAL_LOAD_RESULT_EVENT_KIND)]]; intros H; repeat (upd; cbn [bind q_label q_time q_self_time q_misses q_hits q_count q_blocked q_load q_hashing] in H); injection H as <-; unfold qb; cbn [q_label q_time q_self_time q_misses q_hits q_count q_blocked q_load q_hashing]; tauto.
Qed.
Lemma own_qb k d n q q' : 0 <= d -> qb n q -> own_update k d q = Ok q' -> qb (n + 1) q'.
Proof.
  intros Hd (H1 & H2 & H3 & H4 & H5 & H6 & H7 & H8 & H9). unfold own_update, add_self, add_time, add_hashing, add_load, add_blocked, inc_misses, inc_count.
  destruct (beq k QUERY_EVENT_KIND || beq k GENERIC_ACTIVITY_EVENT_KIND); [|destruct (beq k QUERY_BLOCKED_EVENT_KIND); [|destruct (beq k INCREMENTAL_LOAD_RESULT_EVENT_KIND); [|destruct (beq k INCREMENTAL_RESULT_HASHING_EVENT_KIND)]]]; intros H; repeat (upd; cbn [bind q_label q_time q_self_time q_misses q_hits q_count q_blocked q_load q_hashing] in H); injection H as <-; unfold qb; cbn [q_label q_time q_self_time q_misses q_hits q_count q_blocked q_load q_hashing]; (split; [exact H1|]); repeat (split; [first [assumption|lia]|]); assumption.
Qed.
Lemma new_qb l n : utf8 l -> 0 <= n -> qb n (qdata_new l).
Proof. intros H Hn. unfold qb, qdata_new, duration_ok. cbn [q_label q_time q_self_time q_misses q_hits q_count q_blocked q_load q_hashing]. split; [exact H|]. repeat (split; [lia|]). lia. Qed.
Lemma put_Forall {V} (P : V -> Prop) k v (m : list (bytes * V)) : P v -> Forall (fun e => P (snd e)) m -> Forall (fun e => P (snd e)) (map_put beq k v m).
Proof. intros H F. induction F as [|(k', v') m HP F IH]; cbn [map_put]; [repeat constructor; auto|]. destruct (beq k k'); constructor; auto. Qed.
Lemma zput_Forall {V} (P : V -> Prop) k v (m : list (Z * V)) : P v -> Forall (fun e => P (snd e)) m -> Forall (fun e => P (snd e)) (map_put Z.eqb k v m).
Proof. intros H F. induction F as [|(k', v') m HP F IH]; cbn [map_put]; [repeat constructor; auto|]. destruct (k =? k'); constructor; auto. Qed.
Lemma bput_Forall {V} (P : V -> Prop) k v (m : list (bytes * V)) : P v -> Forall (fun e => P (snd e)) m -> Forall (fun e => P (snd e)) (btree_put k v m).
Proof. intros H F. induction F as [|(k', v') m HP F IH]; cbn [btree_put]; [repeat constructor; auto|]. destruct (bltb k k'); [repeat constructor; auto|]. destruct (beq k k'); constructor; auto. Qed.
Lemma get_Forall {K V} (eqb : K -> K -> bool) (P : V -> Prop) k v (m : list (K * V)) : Forall (fun e => P (snd e)) m -> map_get eqb k m = Some v -> P v.
Proof. intros F. induction F as [|(k', v') m HP F IH]; cbn [map_get]; [discriminate|]. destruct (eqb k k'); auto. intros E. injection E as <-. auto. Qed.
Lemma record_qb n n' l (f : qdata -> res qdata) m m' : 0 <= n <= n' -> utf8 l -> (forall q q', qb n q -> f q = Ok q' -> qb n' q') ->
  Forall (fun e => qb n (snd e)) m -> record_event_data m l f = Ok m' -> Forall (fun e => qb n' (snd e)) m'.
Proof.
  intros Hn HL HF F. unfold record_event_data. assert (F' : Forall (fun e => qb n' (snd e)) m) by (eapply Forall_impl; [|exact F]; intros e; apply qb_mono; lia).
  destruct (map_get beq l m) as [d|] eqn:G.
  - destruct (f d) as [d'| | |] eqn:E; cbn [bind]; try discriminate. intros K. injection K as <-. apply put_Forall; auto. eapply HF; [|exact E]. eapply (get_Forall beq (qb n)); eauto.
  - destruct (f (qdata_new l)) as [d'| | |] eqn:E; cbn [bind]; try discriminate. intros K. injection K as <-. apply put_Forall; auto. eapply HF; [|exact E]. apply new_qb; auto; lia.
Qed.
Definition ainv (n : Z) (s : astate) : Prop :=
  Forall (fun e => qb n (snd e)) (a_query s) /\ Forall (fun e => artifact_ok (snd e)) (a_artifacts s) /\ Forall (fun t => Forall (fun e => utf8 (ev_label e)) (th_stack (snd t))) (a_threads s).
Lemma pop_Forall (P : event -> Prop) st e : Forall P st -> Forall P (pop_non_parents st e).
Proof. induction 1 as [|x st H F IH]; cbn [pop_non_parents]; [constructor|]. destruct (contains (ev_payload x) (ev_payload e)); auto. Qed.
Lemma u64_add_range oc a b w : is_u64 a -> is_u64 b -> u64_add oc a b = Ok w -> is_u64 w.
Proof.
  unfold u64_add, is_u64. intros Ha Hb. destruct (Z.ltb_spec (a + b) U64) as [L|L]; [intros E; injection E as <-; unfold U64 in L; lia|]. destruct oc; [discriminate|].
  intros E. assert (W : (a + b) mod U64 = w) by congruence. rewrite <- W. apply (Z.mod_pos_bound (a + b) U64). reflexivity.
Qed.
Lemma ainv_interval oc n s e s' start end_ : 0 <= n -> event_ok e -> ainv n s -> ev_payload e = Timestamp (Interval start end_) -> analysis_step oc s e = Ok s' -> ainv (n + 1) s'.
Proof.
  intros Hn ((HL & _) & HP) (I1 & I2 & I3) EP. unfold analysis_step. rewrite EP in *. clear EP.
  assert (I1' : Forall (fun e => qb (n + 1) (snd e)) (a_query s)) by (eapply Forall_impl; [|exact I1]; intros x; apply qb_mono; lia).
  set (th := match map_get Z.eqb (ev_thread e) (a_threads s) with Some t => t | None => mkTh [] start end_ end).
    assert (HT : Forall (fun e => utf8 (ev_label e)) (th_stack th)).
    { unfold th. destruct (map_get Z.eqb (ev_thread e) (a_threads s)) as [t|] eqn:G; [|constructor]. apply (get_Forall Z.eqb (fun t => Forall (fun e => utf8 (ev_label e)) (th_stack t)) _ _ _ I3 G). }
    apply (pop_Forall _ _ e) in HT. revert HT. generalize (pop_non_parents (th_stack th) e). intros st HT.
    destruct (duration (Timestamp (Interval start end_))) as [d|] eqn:ED; cbn [unwrap bind]; [|discriminate].
    assert (Hd : 0 <= d). { unfold duration in ED. revert ED. cbn. destruct (Z.leb_spec start end_); intros ED; try discriminate; try (injection ED as <-; lia). }
    destruct (match st with top :: _ => record_event_data (a_query s) (ev_label top) (parent_update (ev_kind top) d) | [] => Ok (a_query s) end) as [q1| | |] eqn:E1; cbn [bind]; try discriminate.
    assert (F1 : Forall (fun e => qb n (snd e)) q1).
    { destruct st as [|top st]; [injection E1 as <-; auto|]. inversion HT; subst. eapply (record_qb n n); [lia| |intros q q'; apply parent_qb; auto|exact I1|exact E1]; auto. }
    destruct (record_event_data q1 (ev_label e) (own_update (ev_kind e) d)) as [q2| | |] eqn:E2; cbn [bind]; try discriminate. intros K. injection K as <-.
    split; [|split]; cbn [a_query a_artifacts a_threads].
  - eapply (record_qb n (n + 1)); [lia| |intros q q'; apply own_qb; auto|exact F1|exact E2]; auto.
  - auto.
  - apply (zput_Forall (fun t => Forall (fun e => utf8 (ev_label e)) (th_stack t))); auto. cbn [th_stack]. constructor; auto.
Qed.
Lemma ainv_instant oc n s e s' t : 0 <= n -> event_ok e -> ainv n s -> ev_payload e = Timestamp (Instant t) -> analysis_step oc s e = Ok s' -> ainv (n + 1) s'.
Proof.
  intros Hn ((HL & _) & HP) (I1 & I2 & I3) EP. unfold analysis_step. rewrite EP in *. clear EP.
  assert (I1' : Forall (fun e => qb (n + 1) (snd e)) (a_query s)) by (eapply Forall_impl; [|exact I1]; intros x; apply qb_mono; lia).
  destruct (beq (ev_kind e) QUERY_CACHE_HIT_EVENT_KIND); [|intros K; injection K as <-; repeat split; auto].
    match goal with |- bind ?r _ = _ -> _ => destruct r as [q1| | |] eqn:E1 end; cbn [bind]; try discriminate. intros K. injection K as <-. split; [|split]; auto. cbn [a_query].
    eapply (record_qb n (n + 1)); [lia| | |exact I1|exact E1]; auto. intros q q' (H1 & H2 & H3 & H4 & H5 & H6 & H7 & H8 & H9) Q. cbn [inc_hits inc_count bind] in Q. injection Q as <-. unfold qb. cbn [q_label q_time q_self_time q_misses q_hits q_count q_blocked q_load q_hashing]. split; [exact H1|]. repeat (split; [first [assumption|lia]|]). assumption.
Qed.
Lemma ainv_integer oc n s e s' v : 0 <= n -> event_ok e -> ainv n s -> ev_payload e = Integer v -> analysis_step oc s e = Ok s' -> ainv (n + 1) s'.
Proof.
  intros Hn ((HL & _) & HP) (I1 & I2 & I3) EP. unfold analysis_step. rewrite EP in *. clear EP.
  assert (I1' : Forall (fun e => qb (n + 1) (snd e)) (a_query s)) by (eapply Forall_impl; [|exact I1]; intros x; apply qb_mono; lia).
  destruct (beq (ev_kind e) ARTIFACT_SIZE_EVENT_KIND); [|intros K; injection K as <-; repeat split; auto].
    set (old := match map_get beq (ev_label e) (a_artifacts s) with Some a => a | None => mkArt (ev_label e) 0 end).
    assert (HO : artifact_ok old). { unfold old. destruct (map_get beq (ev_label e) (a_artifacts s)) as [a|] eqn:G; [apply (get_Forall beq artifact_ok _ _ _ I2 G)|]. split; cbn; auto. unfold is_u64. lia. }
    destruct (u64_add oc (art_value old) v) as [w| | |] eqn:EW; cbn [bind]; try discriminate. intros K. injection K as <-. split; [|split]; auto. cbn [a_artifacts]. apply (bput_Forall artifact_ok); auto. split; [apply HO|]. cbn [art_value].
    exact (u64_add_range oc _ _ _ (proj2 HO) HP EW).
Qed.
Lemma ainv_step oc n s e s' : 0 <= n -> event_ok e -> ainv n s -> analysis_step oc s e = Ok s' -> ainv (n + 1) s'.
Proof.
  intros Hn HE I. destruct (ev_payload e) as [[start end_|t]|v] eqn:EP; [eapply ainv_interval|eapply ainv_instant|eapply ainv_integer]; eauto.
Qed.
Lemma ainv_run oc evs : Forall event_ok evs -> forall n s s', 0 <= n -> ainv n s -> foldM (analysis_step oc) s evs = Ok s' -> ainv (n + zlen evs) s'.
Proof.
  induction 1 as [|e evs H F IH]; intros n s s' Hn I; cbn [foldM].
  - intros E. injection E as <-. rewrite zlen_nil, Z.add_0_r. auto.
  - destruct (analysis_step oc s e) as [s1| | |] eqn:E1; cbn [bind]; try discriminate. intros E. rewrite zlen_cons, Z.add_assoc. eapply IH; [| |exact E]; [lia|]. eapply ainv_step; eauto.
Qed.
Lemma sum_spans_ok ts t : sum_spans ts = Ok t -> duration_ok t.
Proof.
  unfold sum_spans. assert (K : forall acc, duration_ok acc -> foldM (fun acc t => do d <- thread_span (snd t); dadd acc d) acc ts = Ok t -> duration_ok t).
  { induction ts as [|x ts IH]; intros acc HA; cbn [foldM]; [intros E; injection E as <-; auto|]. unfold thread_span at 1. destruct (Z.leb_spec (th_start (snd x)) (th_end (snd x))) as [L|L]; cbn [bind]; [|discriminate].
    destruct (dadd acc (th_end (snd x) - th_start (snd x))) as [v| | |] eqn:E; cbn [bind]; try discriminate. apply IH. eapply dadd_ok; eauto. lia. }
  apply K. unfold duration_ok. lia.
Qed.
Theorem C57_analysis : forall oc order evs r, (forall l, Permutation l (order l)) -> Forall event_ok evs -> zlen evs < 2 ^ 64 ->
  perform_analysis oc order evs = Ok r -> read_results (results_text r) = Ok r.
Proof.
  intros oc order evs r HO F HN H. apply C57_reads_back. unfold perform_analysis in H.
  destruct (foldM (analysis_step oc) astate_init (rev evs)) as [s| | |] eqn:E; cbn [bind] in H; try discriminate.
  destruct (sum_spans (a_threads s)) as [t| | |] eqn:ET; cbn [bind] in H; try discriminate. injection H as <-.
  apply (ainv_run oc (rev evs)) with (n := 0) in E; [|apply Forall_rev, F|lia|split; [|split]; constructor].
  rewrite Z.add_0_l in E. replace (zlen (rev evs)) with (zlen evs) in E by (unfold zlen; rewrite rev_length; reflexivity).
  destruct E as (I1 & I2 & _). split; [|split]; cbn [query_data artifact_sizes total_time].
  - eapply Permutation_Forall; [apply HO|]. apply Forall_map. eapply Forall_impl; [|exact I1]. intros (k, q) (H1 & H2 & H3 & H4 & H5 & H6 & H7 & H8 & H9). cbn [snd] in *. unfold query_ok, is_u64. split; [exact H1|]. repeat (split; [first [assumption|lia]|]). assumption.
  - apply Forall_map. exact I2.
  - eapply sum_spans_ok, ET.
Qed.
Print Assumptions C57_analysis.
Example C57_example : results_ok (mkRes [mkQ (str "typeck ""x""") 5 3 1 2 3 0 0 0] [mkArt (str "a\b") 7] 1500000000) /\
  results_text (mkRes [mkQ (str "typeck ""x""") 5 3 1 2 3 0 0 0] [mkArt (str "a\b") 7] 1500000000) =
  str "{""query_data"":[{""label"":""typeck \""x\"""",""time"":{""secs"":0,""nanos"":5},""self_time"":{""secs"":0,""nanos"":3},""number_of_cache_misses"":1,""number_of_cache_hits"":2,""invocation_count"":3,""blocked_time"":{""secs"":0,""nanos"":0},""incremental_load_time"":{""secs"":0,""nanos"":0},""incremental_hashing_time"":{""secs"":0,""nanos"":0}}],""artifact_sizes"":[{""label"":""a\\b"",""value"":7}],""total_time"":{""secs"":1,""nanos"":500000000}}".
Proof.
  split; [|reflexivity]. unfold results_ok, query_ok, artifact_ok, duration_ok, is_u64. cbn [query_data artifact_sizes total_time].
  split; [constructor; [|constructor]; cbn [q_label q_time q_self_time q_misses q_hits q_count q_blocked q_load q_hashing]; split; [apply str_utf8; reflexivity|lia]|]. split; [constructor; [|constructor]; cbn [art_label art_value]; split; [apply str_utf8; reflexivity|lia]|lia].
Qed.

(** ** C58: the Chrome profile *)
Lemma crox_text_print rs : crox_text rs = print (JArr (map record_json rs)).
Proof. unfold crox_text, crox_written. cbn [print app]. rewrite map_map. reflexivity. Qed.
Definition record_strings (r : record) : Prop :=
  match r with
  | Complete name cat _ _ _ _ args => utf8 name /\ utf8 cat /\ match args with Some m => Forall (fun a => utf8 (fst a) /\ utf8 (snd a)) m | None => True end
  | ProcessName _ name => utf8 name
  | ProcessSortIndex _ _ => True
  end.
Lemma record_json_strings r : record_strings r -> all_strings utf8 (record_json r).
Proof.
  destruct r as [name cat ts dur pid tid args|pid name|pid i]; cbn [record_strings record_json all_strings fold_right fst snd].
  - intros (H1 & H2 & H3). strs; auto. destruct args as [m|]; [|exact I]. apply all_strings_obj. apply Forall_map. eapply Forall_impl; [|exact H3]. intros (k, v). cbn. auto.
  - intros H. strs; auto.
  - intros _. strs.
Qed.
(** Whatever records crox writes: the finished file is one JSON array (in UTF-8), and only that array. *)
Lemma crox_document rs : Forall record_strings rs -> utf8 (crox_text rs) /\ forall v, document (crox_text rs) v <-> v = JArr (map record_json rs).
Proof.
  intros F. assert (S : all_strings utf8 (JArr (map record_json rs))) by (apply all_strings_arr, Forall_map; eapply Forall_impl; [|exact F]; exact record_json_strings).
  rewrite crox_text_print. split; [apply print_utf8, S|]. intros v. assert (D : document (print (JArr (map record_json rs))) (JArr (map record_json rs))) by (apply document_print; eapply all_strings_impl; [apply utf8_nonneg|exact S]).
  split; [|intros ->; auto]. intros D'. apply from_str_iff in D, D'. congruence.
Qed.
Lemma get_args_strings e : Forall utf8 (ev_args e) -> match get_args e with Some m => Forall (fun a => utf8 (fst a) /\ utf8 (snd a)) m | None => True end.
Proof.
  intros F. pose proof (C37_args e) as A. destruct (get_args e) as [m|]; [|exact I]. destruct A as (_ & _ & A). apply Forall_forall. intros (k, v) H. apply A in H. destruct H as (i & Hi & -> & HN). cbn [fst snd]. split.
  - apply utf8_app; [apply str_utf8; reflexivity|apply decimal_utf8, Hi].
  - rewrite Forall_forall in F. apply F. unfold znth in HN. destruct (i <? 0); [discriminate|]. eapply nth_error_In, HN.
Qed.
Lemma crate_name_utf8 cmd name : utf8 cmd -> crate_name_of cmd name -> utf8 name.
Proof.
  intros U (pre & rest & tail & (E & _) & -> & _ & HT). assert (R : utf8 (name ++ tail)).
  { change (str " --crate-name ") with (str " --crate-name" ++ [32]) in E. rewrite E in U. replace (pre ++ (str " --crate-name" ++ [32]) ++ name ++ tail) with ((pre ++ str " --crate-name") ++ 32 :: (name ++ tail)) in U by (rewrite <- !app_assoc; reflexivity). apply utf8_split_ascii in U; [apply U|lia]. }
  destruct HT as [->|(t & ->)]; [rewrite app_nil_r in R; auto|]. apply utf8_split_ascii in R; [apply R|lia].
Qed.
Lemma distinct_keys ks : (fix nd (l : list bytes) := match l with [] => true | x :: l' => negb (existsb (beq x) l') && nd l' end) ks = true -> NoDup ks.
Proof.
  induction ks as [|k ks IH]; [constructor|]. rewrite andb_true_iff, negb_true_iff. intros (A & B). constructor; auto. intros H. assert (K : existsb (beq k) ks = true) by (apply existsb_exists; exists k; split; auto; apply beq_true; auto). congruence.
Qed.
Ltac obj := eexists; split; [reflexivity|]; split; [apply distinct_keys; reflexivity|]; intros ?; cbn [In]; tauto.
Lemma chrome_object_of pid tid e r : chrome_record pid tid e r -> chrome_object pid tid e (record_json r).
Proof.
  intros (a & b & args & EP & -> & HA). exists a, b, (match args with None => JNull | Some m => JObj (map (fun a => (fst a, JStr (snd a))) m) end). split; auto. split; [obj|].
  destruct args as [m|]; [|left; auto]. right. destruct HA as (N & ND & HA). split; auto. eexists. split; [reflexivity|]. split; [rewrite map_map; exact ND|]. intros k v. rewrite in_map_iff. split.
  - intros ((k', s) & E & HI). cbn [fst snd] in E. injection E as <- <-. apply HA in HI. destruct HI as (i & Hi & -> & HZ). exists i, s. auto.
  - intros (i & s & Hi & -> & HZ & ->). exists (str "arg" ++ decimal i, s). split; [reflexivity|]. apply HA. eauto.
Qed.
Definition file_ok (f : metadata * list event) : Prop :=
  Forall exportable (snd f) /\ 0 <= md_start_time (fst f) < 18446744073709551616 * 1000 /\ few_threads (snd f) /\ Forall event_strings (snd f) /\ utf8 (md_cmd (fst f)).
(** Every file crox writes completely is one JSON document in UTF-8: an array with the objects of every
    profile in order, namely the selected events with the thread shown for them, the crate name and the sort
    index. *)
Theorem C58_document : forall oc collapse minimum files r, Forall file_ok files -> crox_main oc collapse minimum files r ->
  exists rs oss, r = Ok rs /\ utf8 (crox_text rs) /\ (forall v, document (crox_text rs) v <-> v = JArr (concat oss)) /\
    Forall2 (fun f os => exists m, thread_mapping oc collapse (snd f) (Ok m) /\
      file_objects minimum (fun t => match map_get Z.eqb t m with Some t' => t' | None => t end) (fst f) (snd f) os) files oss.
Proof.
  intros oc collapse minimum files r F C. destruct (C37_main oc collapse minimum files r) as (rss & -> & R); auto; [eapply Forall_impl; [|exact F]; intros f (A & B & D & _); auto|]. clear C.
  assert (K : Forall record_strings (concat rss) /\ exists oss, map record_json (concat rss) = concat oss /\ Forall2 (fun f os => exists m, thread_mapping oc collapse (snd f) (Ok m) /\
      file_objects minimum (fun t => match map_get Z.eqb t m with Some t' => t' | None => t end) (fst f) (snd f) os) files oss).
  { induction R as [|(md, evs) rs files rss (m & T & E) R IH]; [split; [constructor|exists []; split; [reflexivity|constructor]]|]. inversion F as [|? ? (A & B & D & S & U) F']; subst. cbn [fst snd] in *.
    destruct (IH F') as (IS & oss & IE & IF). destruct (C37_export oc minimum m md evs A B) as (ers & E' & H2). rewrite E in E'. injection E' as ->.
    assert (SE : Forall record_strings ers).
    { clear - H2 S. assert (S2 : Forall event_strings (filter (selected minimum) evs)) by (apply Forall_forall; intros x Hx; apply filter_In in Hx; rewrite Forall_forall in S; apply S, Hx).
      induction H2 as [|e r es rs (a & b & args & EP & -> & HA) H2 IH]; [constructor|]. inversion S2 as [|? ? (U1 & U2 & U3) S3]; subst. constructor; auto. cbn [record_strings]. split; auto. split; auto. destruct args as [am|]; [|exact I].
      destruct HA as (_ & _ & HA). apply Forall_forall. intros (k, v) H. apply HA in H. destruct H as (i & Hi & -> & HN). cbn [fst snd]. split; [apply utf8_app; [apply str_utf8; reflexivity|apply decimal_utf8, Hi]|].
      rewrite Forall_forall in U3. apply U3. unfold znth in HN. destruct (i <? 0); [discriminate|]. eapply nth_error_In, HN. }
    assert (CN : Forall record_strings (crate_name_record md)).
    { destruct (C37_crate_name md) as [(name & HN & ->)|(_ & ->)]; [|constructor]. constructor; [|constructor]. cbn [record_strings]. eapply crate_name_utf8; eauto. }
    split.
    - cbn [concat]. repeat (apply Forall_app; split); auto. constructor; [exact I|constructor].
    - exists (map record_json (ers ++ crate_name_record md ++ [ProcessSortIndex (md_process_id md) (md_start_time md / 1000)]) :: oss). cbn [concat]. split; [rewrite map_app, IE; reflexivity|]. constructor; auto. exists m. split; auto. cbn [fst snd].
      exists (map record_json ers), (map record_json (crate_name_record md)), (record_json (ProcessSortIndex (md_process_id md) (md_start_time md / 1000))). split; [rewrite !map_app; reflexivity|]. split; [|split].
      + clear - H2. induction H2 as [|e r es rs H H2 IH]; cbn [map]; constructor; auto. apply chrome_object_of, H.
      + destruct (C37_crate_name md) as [(name & HN & ->)|(N & ->)]; [left; exists name; eexists; split; [exact HN|]; split; [reflexivity|]; obj|right; auto].
      + obj. }
  destruct K as (S & oss & E & H). exists (concat rss), oss. split; auto. destruct (crox_document _ S) as (U & D). split; auto. split; auto. intros v. rewrite D, E. reflexivity.
Qed.
Print Assumptions C58_document.
(** As long as the export is not finished (a later profile cannot be loaded, the export panics, the process
    is killed, the disk is full ...) the file is not a JSON document. *)
Theorem C58_unfinished : forall rs written rest v, Forall record_strings rs -> crox_text rs = written ++ rest -> rest <> [] -> ~ document written v.
Proof.
  intros rs written rest v F E N D. apply N. rewrite crox_text_print in E.
  assert (J : jtext (written ++ rest) (JArr (map record_json rs))).
  { rewrite <- E. apply print_ok. apply all_strings_arr, Forall_map. eapply Forall_impl; [|exact F]. intros r H. eapply all_strings_impl; [apply utf8_nonneg|]. apply record_json_strings, H. }
  destruct written as [|c written].
  - apply from_str_iff in D. discriminate.
  - assert (c = 91) by (cbn [print app] in E; congruence). subst c. apply from_str_iff in D as D2.
    assert (K : exists l, v = JArr l).
    { unfold from_str in D2. destruct (value (S (List.length (91 :: written))) (91 :: written)) as [(v', r')|] eqn:EV; [|discriminate]. destruct (skip_ws r'); [|discriminate]. injection D2 as <-. cbn [value] in EV. rewrite skip_ws_stop in EV by reflexivity.
      change (91 =? 123) with false in EV. change (91 =? 91) with true in EV. cbv iota in EV. destruct (skip_ws written) as [|q r2]; [discriminate|]. destruct (q =? 93); [injection EV as <- _; eauto|]. destruct (elements (List.length (91 :: written)) written) as [(l, r3)|]; [|discriminate]. injection EV as <- _. eauto. }
    destruct K as (l & ->). eapply no_proper_prefix; [exact J|exact D|discriminate|discriminate].
Qed.
Print Assumptions C58_unfinished.
Example C58_example :
  crox_text [Complete (str "a ""b""") (str "Query") 10 2 99 0 (Some [(str "arg0", [9])]); ProcessName 99 (str "foo"); ProcessSortIndex 99 5] =
  str "[{""name"":""a \""b\"""",""cat"":""Query"",""ph"":""X"",""ts"":10,""dur"":2,""pid"":99,""tid"":0,""args"":{""arg0"":""\t""}},{""args"":{""name"":""foo""},""cat"":"""",""name"":""process_name"",""ph"":""M"",""pid"":99,""tid"":0,""ts"":0},{""args"":{""sort_index"":5},""cat"":"""",""name"":""process_sort_index"",""ph"":""M"",""pid"":99,""tid"":0,""ts"":0}]" /\
  file_ok (mkMd 5000 99 (str "rustc --crate-name foo x.rs"), [mkEv (str "Query") (str "q") [str "a"; str "b"] (Timestamp (Interval 10500 12500)) 7]).
Proof.
  split; [reflexivity|]. unfold file_ok. cbn [fst snd]. split; [constructor; [cbn; lia|constructor]|]. split; [cbn; lia|]. split; [unfold few_threads; cbn; reflexivity|]. split; [|apply str_utf8; reflexivity].
  constructor; [|constructor]. split; [apply str_utf8; reflexivity|]. split; [apply str_utf8; reflexivity|]. cbn [ev_args]. constructor; [apply str_utf8; reflexivity|]. constructor; [apply str_utf8; reflexivity|constructor].
Qed.
