(** Properties C19-C21: event ids.  Model M_EventId.v, vocabulary S_EventId.v. *)
From Coq Require Import ZArith List Lia Bool.
From Verif Require Import M_Base F_Base M_Sink S_Sink M_Utf8 S_Utf8 F_Utf8 M_Raw M_Strings M_StrTable S_Strings F_Strings
  M_EventId S_EventId F_EventId M_Session S_Session F_Session F_Session2 Prop_Strings.
Import ListNotations.
Open Scope Z_scope.

(** ** C19 *)
(** What the builder allocates denotes the label and the arguments joined by the separator ... *)
Theorem C19_builder : forall alloc resolve id label args lt ats,
  denotes alloc resolve label lt -> Forall2 (denotes alloc resolve) args ats ->
  (alloc id (label_and_args label args) -> denotes alloc resolve id (join lt ats)) /\
  (forall arg at_, args = [arg] -> ats = [at_] -> alloc id (label_and_arg label arg) ->
     denotes alloc resolve id (join lt ats)) /\
  (from_label label = label /\ join lt [] = lt).
Proof.
  intros alloc resolve id label args lt ats Hl Ha.
  assert (P : forall parts args', push_args parts args' = parts ++ flat_map (fun a => [CValue [30]; CRef a]) args').
  { intros parts args'. revert parts. induction args' as [|a r IH]; intros parts; cbn [push_args flat_map].
    - rewrite app_nil_r. reflexivity.
    - rewrite IH, <- !app_assoc. reflexivity. }
  assert (D : denotes_all alloc resolve (CRef label :: flat_map (fun a => [CValue [30]; CRef a]) args) (join lt ats)).
  { unfold join. constructor; auto. induction Ha as [|a t args ats H1 _ IH]; [constructor|].
    cbn [flat_map app]. apply (da_value _ _ [30]). constructor; auto. }
  split; [|split].
  - intros H. eapply d_comps; [exact H|]. rewrite P. exact D.
  - intros arg at_ -> -> H. eapply d_comps; [exact H|]. exact D.
  - split; [reflexivity|]. apply app_nil_r.
Qed.
Print Assumptions C19_builder.

(** ... and the parser takes the joined text apart again. *)
Theorem C19_parse : forall label args,
  utf8 label -> Forall utf8 args -> good_text label -> Forall good_text args ->
  parse_event_id (join label args) = Ok (label, args).
Proof.
  intros label args Hu Hus Hg Hgs.
  assert (G : goodb label = true) by (apply goodb_spec; auto).
  assert (GS : Forall (fun t => goodb t = true) args).
  { rewrite Forall_forall in *. intros t Ht. apply goodb_spec; auto. }
  rewrite parse_join.
  - rewrite G. do 2 f_equal. clear -GS. induction GS as [|t ts E _ IH]; [reflexivity|]. cbn [take_good]. rewrite E, IH. reflexivity.
  - unfold join. apply utf8_app; auto. clear -Hus. induction Hus as [|t ts H _ IH].
    + exists []. split; [constructor|reflexivity].
    + cbn [flat_map]. apply utf8_app; auto. apply (utf8_app [30]); auto.
      exists [30]. split; [repeat constructor; unfold scalar; lia|reflexivity].
  - apply good_no_sep, G.
  - eapply Forall_impl; [|exact GS]. intros t. apply good_no_sep.
Qed.
Print Assumptions C19_parse.

(** Both together, through a recorded session. *)
Theorem C19_roundtrip : forall en md r0 K L label args r id lt ats, session en md r0 K L ->
  In (KAlloc (label_and_args label args), r) K -> alloc_result r = Ok id ->
  denotes (allocated md r0 K) (resolved r0 K) label lt ->
  Forall2 (denotes (allocated md r0 K) (resolved r0 K)) args ats ->
  utf8 lt -> Forall utf8 ats -> good_text lt -> Forall good_text ats ->
  exists tbl, read_table L = Ok tbl /\ exists n, forall m, (n <= m)%nat ->
    (do text <- write_to_string m tbl id; parse_event_id text) = Ok (lt, ats).
Proof.
  intros en md r0 K L label args r id lt ats HS Hin Hr Hl Ha Hu Hus Hg Hgs.
  destruct (C14_roundtrip _ _ _ _ _ HS) as (tbl & Ht & HT). exists tbl. split; auto.
  destruct (HT id (join lt ats)) as (n & Hn).
  - apply (C19_builder _ _ id label args lt ats); auto. right. eauto.
  - exists n. intros m Hm. rewrite Hn by auto. cbn [bind]. apply C19_parse; auto.
Qed.
Print Assumptions C19_roundtrip.
Example ex_C19 : parse_event_id (join [97; 9] [[195; 169]; [98; 32]]) = Ok ([97; 9], [[195; 169]; [98; 32]])
  /\ (do tbl <- read_table (run_session ex_md ex_K); do t <- write_to_string 20 tbl (21 + 100000003); parse_event_id t)
     = Ok ([97], [[195; 169]; [195; 169]])
  /\ good_text [97; 9].
Proof.
  split; [vm_compute; reflexivity|]. split; [vm_compute; reflexivity|]. split; [discriminate|].
  cbn. unfold control, rust_space. intros b; lia.
Qed.

(** ** C20 *)
(** Parsing any valid UTF-8 text terminates without panic.  If the part before the first separator is
    not a good text the result is the error label without arguments; otherwise it is the label, and
    the arguments are all the good texts up to the first bad one, where parsing stops. *)
Theorem C20_total : forall text, utf8 text -> exists label args,
  parse_event_id text = Ok (label, args) /\
  exists t0 ts, text = join t0 ts /\ ~ In 30 t0 /\ Forall (fun t => ~ In 30 t) ts /\
    ((~ good_text t0 /\ label = PARSE_ERROR /\ args = []) \/
     (good_text t0 /\ label = t0 /\ Forall good_text args /\
      exists rest, ts = args ++ rest /\ prefix (join label args) text /\
        (rest = [] /\ join label args = text \/
         exists bad rest', rest = bad :: rest' /\ ~ good_text bad))).
Proof.
  intros text Hu. destruct (cut text) as (t0 & ts & -> & H0 & Hs). destruct (utf8_join _ _ Hu) as [U0 Us].
  rewrite parse_join by auto. do 2 eexists. split; [apply f_equal, surjective_pairing|].
  exists t0, ts. split; auto. split; auto. split; auto.
  destruct (goodb t0) eqn:G; cbn [fst snd].
  - right. split; [apply goodb_spec; auto|]. split; auto. destruct (take_good_prefix ts) as (r & E & HF & Hr).
    assert (UT : Forall utf8 (take_good ts ++ r)) by (rewrite <- E; exact Us). apply Forall_app in UT. destruct UT as [UT UR].
    split.
    { rewrite Forall_forall in *. intros t Ht. apply goodb_spec; auto. }
    exists r. split; auto. split.
    { exists (flat_map (fun a => 30 :: a) r). rewrite E at 1. apply join_app. }
    destruct Hr as [->|(b & r' & -> & Hb)].
    + left. split; auto. rewrite app_nil_r in E. rewrite <- E. reflexivity.
    + right. exists b, r'. split; auto. inversion UR; subst. rewrite <- goodb_spec by auto. congruence.
  - left. split; [rewrite <- goodb_spec by auto; congruence|]. auto.
Qed.
Print Assumptions C20_total.
Example ex_C20 : parse_event_id [102; 30; 97; 30; 30; 98] = Ok ([102], [[97]]) /\ parse_event_id [] = Ok (PARSE_ERROR, [])
  /\ parse_event_id [102; 27] = Ok (PARSE_ERROR, []).
Proof. vm_compute. auto. Qed.

(** ** C21 *)
(** The parser accepts exactly the texts of the grammar when white space is read as Rust's
    [is_ascii_whitespace] ... *)
Theorem C21_accepts : forall text, utf8 text ->
  (exists label args, parse_event_id text = Ok (label, args) /\ join label args = text) <->
  (exists label args, good_text label /\ Forall good_text args /\ text = join label args).
Proof.
  intros text Hu. split.
  - intros (label & args & Hp & Hj). destruct (C20_total text Hu) as (l' & a' & Hp' & t0 & ts & E & H0 & Hs & [C|C]).
    + rewrite Hp in Hp'. inversion Hp'; subst l' a'. destruct C as (_ & -> & ->). exists PARSE_ERROR, [].
      split; [|split; [constructor|symmetry; exact Hj]]. split; [discriminate|].
      intros b Hb. vm_compute in Hb. unfold control, rust_space. intuition lia.
    + rewrite Hp in Hp'. inversion Hp'; subst l' a'. destruct C as (G & -> & GA & _). exists t0, args. auto.
  - intros (label & args & G & GA & ->). destruct (utf8_join _ _ Hu). exists label, args. split; auto. apply C19_parse; auto.
Qed.
Print Assumptions C21_accepts.

(** ... so the documented grammar is not fully accepted: [[:space:]] contains vertical tab. *)
Theorem C21_grammar_refuted : exists text, utf8 text /\ doc_text text /\
  parse_event_id text = Ok (PARSE_ERROR, []).
Proof.
  exists [97; 11; 98]. split; [exists [97; 11; 98]; split; [repeat constructor; unfold scalar; lia|reflexivity]|].
  split; [|vm_compute; reflexivity]. split; [discriminate|]. unfold control, posix_space, rust_space. cbn. intros b; lia.
Qed.
Print Assumptions C21_grammar_refuted.

(** Vertical tab is the only difference. *)
Theorem C21_only_vertical_tab : forall t, good_text t <-> doc_text t /\ ~ In 11 t.
Proof.
  intros t. unfold good_text, doc_text, posix_space. split.
  - intros [H1 H2]. split; [split; auto|]. intros Hin. apply H2 in Hin; unfold control, rust_space in *; lia.
  - intros [[H1 H2] H3]. split; auto. intros b Hb Hc. destruct (H2 b Hb Hc); auto. subst. contradiction.
Qed.
Print Assumptions C21_only_vertical_tab.
