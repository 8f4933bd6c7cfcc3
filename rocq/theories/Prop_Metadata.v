(** C41: the metadata record.  Model M_Metadata.v, specification S_Metadata.v. *)
From Coq Require Import String ZArith List Lia Bool.
From Verif Require Import M_Base F_Base M_Sink S_Sink M_Conc S_Conc F_Sink F_SinkSeq F_Conc F_Conc2 M_Raw F_Raw M_Header M_V8 M_Iter
  Prop_Raw Prop_Format M_Utf8 S_Utf8 F_Utf8 M_Strings M_StrTable S_Strings F_Strings M_EventId S_EventId F_EventId
  M_Session S_Session F_Session F_Session2 Prop_Strings Prop_EventId M_Run S_Run F_Run Prop_Run.
From Verif Require Import M_Map M_Crox S_Crox Prop_Crox2 M_Counters M_Metadata S_Metadata.
Import ListNotations.
Open Scope Z_scope.

(** ** Numbers *)
Lemma is_digit_spec c : is_digit c = true <-> 48 <= c <= 57.
Proof. unfold is_digit. rewrite andb_true_iff, !Z.leb_le. lia. Qed.
Lemma take_digits_app ds rest : Forall (fun d => 48 <= d <= 57) ds -> match rest with c :: _ => is_digit c = false | [] => True end -> take_digits (ds ++ rest) = (ds, rest).
Proof.
  intros F HR. induction F as [|d ds Hd F IH]; cbn [app].
  - destruct rest as [|c r]; cbn [take_digits]; [reflexivity|]. rewrite HR. reflexivity.
  - cbn [take_digits]. replace (is_digit d) with true by (symmetry; apply is_digit_spec; auto). rewrite IH. reflexivity.
Qed.
Lemma decimal_head n : 0 <= n -> exists c t, decimal n = c :: t /\ 48 <= c <= 57 /\ ((c =? 48) && negb (zlen t =? 0)) = false.
Proof.
  intros H. destruct (C37_decimal n H) as (F & _ & Z0 & P). destruct (Z.eq_dec n 0) as [E|N].
  - rewrite (Z0 E). exists 48, []. split; [reflexivity|]. split; [lia|reflexivity].
  - destruct (P ltac:(lia)) as (d & t & E & N8). exists d, t. rewrite E in F. inversion F; subst. split; auto. split; auto. destruct (Z.eqb_spec d 48); [contradiction|reflexivity].
Qed.
Lemma number_decimal n rest : 0 <= n -> number false (decimal n ++ 44 :: rest) = Some (JInt n, 44 :: rest).
Proof.
  intros H. unfold number. destruct (C37_decimal n H) as (F & D & _). rewrite take_digits_app by (auto; reflexivity). destruct (decimal_head n H) as (c & t & E & _ & K). rewrite E at 1. rewrite K.
  cbn [frac expo orb]. unfold denotes in D. unfold digits_value. rewrite D. reflexivity.
Qed.
Lemma value_decimal f n rest : 0 <= n -> value (S f) (32 :: decimal n ++ 44 :: rest) = Some (JInt n, 44 :: rest).
Proof.
  intros H. rewrite <- (number_decimal n rest H). destruct (decimal_head n H) as (c & t & E & R & _). rewrite E. cbn [app].
  assert (K : skip_ws (32 :: c :: t ++ 44 :: rest) = c :: t ++ 44 :: rest).
  { cbn [skip_ws]. change (32 =? 32) with true. cbn [orb]. replace ((c =? 32) || (c =? 9) || (c =? 10) || (c =? 13)) with false; [reflexivity|]. symmetry. rewrite !orb_false_iff, !Z.eqb_neq. lia. }
  cbn [value]. rewrite K. replace (c =? 123) with false by (symmetry; apply Z.eqb_neq; lia). replace (c =? 91) with false by (symmetry; apply Z.eqb_neq; lia). replace (c =? 34) with false by (symmetry; apply Z.eqb_neq; lia). replace (c =? 45) with false by (symmetry; apply Z.eqb_neq; lia).
  replace (is_digit c) with true by (symmetry; apply is_digit_spec; auto). reflexivity.
Qed.

(** ** Strings *)
Lemma string_plain c rest : plain c -> string_rest (escape_char c ++ rest) = match string_rest rest with Some (x, r) => Some (encode c ++ x, r) | None => None end.
Proof.
  intros P. unfold escape_char. assert (EC : encode c = [c]) by (unfold encode; destruct (Z.ltb_spec c 128) as [|L]; [reflexivity|unfold plain in P; lia]). rewrite EC.
  destruct (Z.eqb_spec c 9) as [->|N9]; [reflexivity|]. destruct (Z.eqb_spec c 13) as [->|N13]; [reflexivity|]. destruct (Z.eqb_spec c 10) as [->|N10]; [reflexivity|].
  destruct (Z.eqb_spec c 92) as [->|N92]; [reflexivity|]. destruct (Z.eqb_spec c 34) as [->|N34]; [reflexivity|]. destruct (Z.eqb_spec c 39) as [->|N39]; [unfold plain in P; lia|]. cbn [orb].
  assert (R : 32 <= c <= 126) by (unfold plain in P; lia). destruct (Z.leb_spec 32 c); [|lia]. destruct (Z.leb_spec c 126); [|lia]. cbn [andb app string_rest].
  replace (c =? 34) with false by (symmetry; apply Z.eqb_neq; auto). replace (c =? 92) with false by (symmetry; apply Z.eqb_neq; auto). destruct (Z.ltb_spec c 32); [lia|]. reflexivity.
Qed.
Lemma string_not_plain c rest : ~ plain c -> string_rest (escape_char c ++ rest) = None.
Proof.
  intros P. unfold escape_char. destruct (Z.eqb_spec c 9) as [->|N9]; [destruct P; left; auto|]. destruct (Z.eqb_spec c 13) as [->|N13]; [destruct P; right; right; left; auto|]. destruct (Z.eqb_spec c 10) as [->|N10]; [destruct P; right; left; auto|].
  destruct (Z.eqb_spec c 92) as [->|N92]; [destruct P; right; right; right; lia|]. destruct (Z.eqb_spec c 34) as [->|N34]; [destruct P; right; right; right; lia|]. destruct (Z.eqb_spec c 39) as [->|N39]; [reflexivity|]. cbn [orb].
  destruct ((32 <=? c) && (c <=? 126)) eqn:E; [apply andb_true_iff in E; rewrite !Z.leb_le in E; destruct P; right; right; right; lia|].
  generalize (hex_fuel 8 c [] ++ [125]). intros l. cbn [app string_rest]. change (92 =? 34) with false. change (92 =? 92) with true. cbv beta iota. change ((117 =? 34) || (117 =? 92) || (117 =? 47)) with false. change (117 =? 98) with false. change (117 =? 102) with false. change (117 =? 110) with false. change (117 =? 114) with false. change (117 =? 116) with false. change (117 =? 117) with true. cbv beta iota.
  destruct (l ++ rest) as [|h2 [|h3 [|h4 r2]]]; reflexivity.
Qed.
Lemma string_arg a rest : string_rest (concat (map escape_char a) ++ rest) = None \/
  (Forall plain a /\ string_rest (concat (map escape_char a) ++ rest) = match string_rest rest with Some (x, r) => Some (flat_map encode a ++ x, r) | None => None end).
Proof.
  induction a as [|c a IH]; cbn [map concat flat_map]; [right; split; [constructor|]; cbn [app]; destruct (string_rest rest) as [(x, r)|]; reflexivity|].
  rewrite <- app_assoc. assert (D : plain c \/ ~ plain c) by (unfold plain; lia). destruct D as [P|P].
  - rewrite string_plain by auto. destruct IH as [->|(F & ->)]; [left; reflexivity|]. right. split; [constructor; auto|]. destruct (string_rest rest) as [(x, r)|]; [|reflexivity]. rewrite app_assoc. reflexivity.
  - left. apply string_not_plain, P.
Qed.
Lemma string_arg_plain a rest : Forall plain a -> string_rest (concat (map escape_char a) ++ rest) = match string_rest rest with Some (x, r) => Some (flat_map encode a ++ x, r) | None => None end.
Proof.
  intros F. induction F as [|c a P F IH]; cbn [map concat flat_map]; [cbn [app]; destruct (string_rest rest) as [(x, r)|]; reflexivity|].
  rewrite <- app_assoc, string_plain, IH by auto. destruct (string_rest rest) as [(x, r)|]; [|reflexivity]. rewrite app_assoc. reflexivity.
Qed.
Lemma string_args args rest : plain_args args -> string_rest (args_text args ++ 34 :: rest) = Some (command_line args, rest).
Proof.
  intros F. unfold args_text, command_line. induction F as [|a args P F IH]; cbn [map concat]; [reflexivity|].
  rewrite <- !app_assoc. rewrite string_arg_plain by auto. cbn [app string_rest]. change (32 =? 34) with false. change (32 =? 92) with false. change (32 <? 32) with false. cbv beta iota. rewrite IH. reflexivity.
Qed.
Lemma string_args_bad args rest : ~ plain_args args -> string_rest (args_text args ++ rest) = None.
Proof.
  unfold args_text. intros N. induction args as [|a args IH]; [destruct N; constructor|]. cbn [map concat]. rewrite <- !app_assoc.
  destruct (string_arg a ([32] ++ concat (map (fun a => concat (map escape_char a) ++ [32]) args) ++ rest)) as [E|(F & E)]; rewrite E; [reflexivity|].
  assert (NA : ~ plain_args args) by (intros Q; apply N; constructor; auto). specialize (IH NA). cbn [app string_rest]. change (32 =? 34) with false. change (32 =? 92) with false. change (32 <? 32) with false. cbv beta iota. rewrite IH. reflexivity.
Qed.

(** ** The text *)
Definition T4 (k : counter_kind) : bytes := str " ""counter"": " ++ describe_as_json k ++ str " }".
Definition T3 (args : list (list Z)) (k : counter_kind) : bytes := str " ""cmd"":" ++ 32 :: 34 :: args_text args ++ 34 :: 44 :: T4 k.
Definition T2 (p : Z) (args : list (list Z)) (k : counter_kind) : bytes := str " ""process_id"":" ++ 32 :: decimal p ++ 44 :: T3 args k.
Definition T1 (t p : Z) (args : list (list Z)) (k : counter_kind) : bytes := str " ""start_time"":" ++ 32 :: decimal t ++ 44 :: T2 p args k.
Lemma text_parts t p args k : metadata_text t p args k = 123 :: T1 t p args k.
Proof.
  unfold metadata_text, T1, T2, T3, T4. generalize (decimal t) (decimal p) (args_text args) (describe_as_json k). intros a b c d.
  change (str "{ ""start_time"": ") with ([123] ++ str " ""start_time"":" ++ [32]). change (str ", ""process_id"": ") with ([44] ++ str " ""process_id"":" ++ [32]). change (str ", ""cmd"": """) with ([44] ++ str " ""cmd"":" ++ [32; 34]). change (str """, ""counter"": ") with ([34; 44] ++ str " ""counter"": ").
  rewrite <- !app_assoc. reflexivity.
Qed.
Lemma members_step f key r2 b : skip_ws b = 34 :: key ++ 34 :: 58 :: r2 -> string_rest (key ++ 34 :: 58 :: r2) = Some (key, 58 :: r2) ->
  members (S f) b = match value f r2 with
    | None => None
    | Some (v, r3) => match skip_ws r3 with
        | d :: r4 => if d =? 125 then Some ([(key, v)], r4) else if d =? 44 then match members f r4 with Some (ms, r5) => Some ((key, v) :: ms, r5) | None => None end else None
        | [] => None end end.
Proof. intros E1 E2. cbn [members]. rewrite E1. change (34 =? 34) with true. cbv beta iota. rewrite E2. reflexivity. Qed.
Lemma counter_parse f k : exists v, members (S (30 + f)) (T4 k) = Some ([(str "counter", v)], []).
Proof. destruct k; eexists; reflexivity. Qed.
Lemma step1 f t p args k : members (S f) (T1 t p args k) = match value f (32 :: decimal t ++ 44 :: T2 p args k) with
    | None => None
    | Some (v, r3) => match skip_ws r3 with
        | d :: r4 => if d =? 125 then Some ([(str "start_time", v)], r4) else if d =? 44 then match members f r4 with Some (ms, r5) => Some ((str "start_time", v) :: ms, r5) | None => None end else None
        | [] => None end end.
Proof. apply members_step; reflexivity. Qed.
Lemma step2 f p args k : members (S f) (T2 p args k) = match value f (32 :: decimal p ++ 44 :: T3 args k) with
    | None => None
    | Some (v, r3) => match skip_ws r3 with
        | d :: r4 => if d =? 125 then Some ([(str "process_id", v)], r4) else if d =? 44 then match members f r4 with Some (ms, r5) => Some ((str "process_id", v) :: ms, r5) | None => None end else None
        | [] => None end end.
Proof. apply members_step; reflexivity. Qed.
Lemma step3 f args k : members (S f) (T3 args k) = match value f (32 :: 34 :: args_text args ++ 34 :: 44 :: T4 k) with
    | None => None
    | Some (v, r3) => match skip_ws r3 with
        | d :: r4 => if d =? 125 then Some ([(str "cmd", v)], r4) else if d =? 44 then match members f r4 with Some (ms, r5) => Some ((str "cmd", v) :: ms, r5) | None => None end else None
        | [] => None end end.
Proof. apply members_step; reflexivity. Qed.
Lemma value_string f r : value (S f) (32 :: 34 :: r) = match string_rest r with Some (s, r') => Some (JStr s, r') | None => None end.
Proof. reflexivity. Qed.
Lemma value_object f t p args k : value (S f) (123 :: T1 t p args k) = match members f (T1 t p args k) with Some (ms, r2) => Some (JObj ms, r2) | None => None end.
Proof. reflexivity. Qed.
Lemma text_long t p args k : exists f, S (List.length (metadata_text t p args k)) = S (S (S (S (S (30 + f))))).
Proof.
  exists (List.length (metadata_text t p args k) - 34)%nat. assert (34 <= List.length (metadata_text t p args k))%nat; [|lia]. unfold metadata_text. rewrite !app_length.
  change (List.length (str "{ ""start_time"": ")) with 16%nat. change (List.length (str ", ""process_id"": ")) with 16%nat. change (List.length (str ", ""cmd"": """)) with 10%nat. lia.
Qed.
Lemma from_str_good t p args k : 0 <= t -> 0 <= p -> plain_args args ->
  exists v, from_str (metadata_text t p args k) = Some (JObj [(str "start_time", JInt t); (str "process_id", JInt p); (str "cmd", JStr (command_line args)); (str "counter", v)]).
Proof.
  intros Ht Hp F. unfold from_str. destruct (text_long t p args k) as (f & ->). rewrite text_parts, value_object, step1, value_decimal by auto.
  cbn [skip_ws]. change ((44 =? 32) || (44 =? 9) || (44 =? 10) || (44 =? 13)) with false. change (44 =? 125) with false. change (44 =? 44) with true. cbv beta iota.
  rewrite step2, value_decimal by auto. cbn [skip_ws]. change ((44 =? 32) || (44 =? 9) || (44 =? 10) || (44 =? 13)) with false. change (44 =? 125) with false. change (44 =? 44) with true. cbv beta iota.
  rewrite step3. rewrite value_string, string_args by auto. cbn [skip_ws]. change ((44 =? 32) || (44 =? 9) || (44 =? 10) || (44 =? 13)) with false. change (44 =? 125) with false. change (44 =? 44) with true. cbv beta iota.
  destruct (counter_parse f k) as (v & E). exists v. rewrite E. reflexivity.
Qed.
Lemma from_str_bad t p args k : 0 <= t -> 0 <= p -> ~ plain_args args -> from_str (metadata_text t p args k) = None.
Proof.
  intros Ht Hp F. unfold from_str. destruct (text_long t p args k) as (f & ->). rewrite text_parts, value_object, step1, value_decimal by auto.
  cbn [skip_ws]. change ((44 =? 32) || (44 =? 9) || (44 =? 10) || (44 =? 13)) with false. change (44 =? 125) with false. change (44 =? 44) with true. cbv beta iota.
  rewrite step2, value_decimal by auto. cbn [skip_ws]. change ((44 =? 32) || (44 =? 9) || (44 =? 10) || (44 =? 13)) with false. change (44 =? 125) with false. change (44 =? 44) with true. cbv beta iota.
  rewrite step3. rewrite value_string, string_args_bad by auto. reflexivity.
Qed.
(** With plain arguments the record is read back exactly (process ids are [u32]; times up to the year
    2554 fit [u64]) ... *)
Theorem C41_reads_back : forall t p args k, 0 <= t < 2 ^ 64 -> 0 <= p < 2 ^ 32 -> plain_args args ->
  parse_metadata (metadata_text t p args k) = Ok (mkMd t p (command_line args)).
Proof.
  intros t p args k Ht Hp F. unfold parse_metadata. destruct (from_str_good t p args k) as (v & ->); auto; try lia.
  cbv beta iota delta [members_of].
  change (fields (str "start_time") [(str "start_time", JInt t); (str "process_id", JInt p); (str "cmd", JStr (command_line args)); (str "counter", v)]) with [JInt t].
  change (fields (str "process_id") [(str "start_time", JInt t); (str "process_id", JInt p); (str "cmd", JStr (command_line args)); (str "counter", v)]) with [JInt p].
  change (fields (str "cmd") [(str "start_time", JInt t); (str "process_id", JInt p); (str "cmd", JStr (command_line args)); (str "counter", v)]) with [JStr (command_line args)].
  cbv beta iota. destruct (Z.leb_spec 0 t); [|lia]. destruct (Z.ltb_spec t (2 ^ 64)); [|lia]. destruct (Z.leb_spec 0 p); [|lia]. destruct (Z.ltb_spec p (2 ^ 32)); [|lia]. reflexivity.
Qed.
(** ... but one apostrophe, control or non-ASCII character in any argument makes the record
    unreadable (the escapes written are not JSON). *)
Theorem C41_unreadable_refuted : forall t p args k, 0 <= t -> 0 <= p -> ~ plain_args args -> parse_metadata (metadata_text t p args k) = Err.
Proof. intros. unfold parse_metadata. rewrite from_str_bad by auto. reflexivity. Qed.
Theorem C41_far_future : forall t p args k, 2 ^ 64 <= t -> 0 <= p -> parse_metadata (metadata_text t p args k) = Err.
Proof.
  intros t p args k Ht Hp. assert (D : plain_args args \/ ~ plain_args args).
  { unfold plain_args. assert (DP : forall a, Forall plain a \/ ~ Forall plain a). { induction a as [|c a [IH|IH]]; [left; constructor| |right; intros Q; inversion Q; contradiction]. assert (D : plain c \/ ~ plain c) by (unfold plain; lia). destruct D; [left; constructor; auto|right; intros Q; inversion Q; contradiction]. }
    induction args as [|a args [IH|IH]]; [left; constructor| |right; intros Q; inversion Q; contradiction]. destruct (DP a); [left; constructor; auto|right; intros Q; inversion Q; contradiction]. }
  destruct D as [F|F]; [|apply C41_unreadable_refuted; auto; lia]. unfold parse_metadata. destruct (from_str_good t p args k) as (v & ->); auto; try lia.
  cbv beta iota delta [members_of].
  change (fields (str "start_time") [(str "start_time", JInt t); (str "process_id", JInt p); (str "cmd", JStr (command_line args)); (str "counter", v)]) with [JInt t].
  change (fields (str "process_id") [(str "start_time", JInt t); (str "process_id", JInt p); (str "cmd", JStr (command_line args)); (str "counter", v)]) with [JInt p].
  change (fields (str "cmd") [(str "start_time", JInt t); (str "process_id", JInt p); (str "cmd", JStr (command_line args)); (str "counter", v)]) with [JStr (command_line args)].
  cbv beta iota. destruct (Z.leb_spec 0 t); [|lia]. destruct (Z.ltb_spec t (2 ^ 64)); [lia|]. reflexivity.
Qed.
(** The description of the counter is JSON and names the counter (C52). *)
Theorem C52_description : forall k, exists units, from_str (describe_as_json k) = Some (JObj [(str "name", JStr (NAME k)); (str "units", units)]).
Proof. intros []; eexists; reflexivity. Qed.

(** ** Through a whole session *)
Lemma ascii_cons c l : 0 <= c < 128 -> Forall (fun c => 0 <= c < 128) l -> Forall (fun c => 0 <= c < 128) (c :: l).
Proof. intros; constructor; auto. Qed.
Lemma hex_fuel_ascii : forall fuel n acc, 0 <= n -> Forall (fun c => 0 <= c < 128) acc -> Forall (fun c => 0 <= c < 128) (hex_fuel fuel n acc).
Proof.
  induction fuel as [|f IH]; intros n acc Hn F; cbn [hex_fuel]; auto.
  assert (F' : Forall (fun c => 0 <= c < 128) (hex_digit (n mod 16) :: acc)).
  { apply ascii_cons; auto. unfold hex_digit. pose proof (Z.mod_pos_bound n 16 ltac:(lia)). destruct (Z.ltb_spec (n mod 16) 10); lia. }
  destruct (n / 16 =? 0); auto. apply IH; auto. apply Z.div_pos; lia.
Qed.
Lemma escape_ascii c : scalar c -> Forall (fun c => 0 <= c < 128) (escape_char c).
Proof.
  intros Hs. unfold escape_char. destruct (c =? 9); [repeat (apply ascii_cons; [lia|]); constructor|]. destruct (c =? 13); [repeat (apply ascii_cons; [lia|]); constructor|]. destruct (c =? 10); [repeat (apply ascii_cons; [lia|]); constructor|].
  destruct ((c =? 92) || (c =? 34) || (c =? 39)) eqn:E. { rewrite !orb_true_iff, !Z.eqb_eq in E. repeat (apply ascii_cons; [lia|]); constructor. }
  destruct ((32 <=? c) && (c <=? 126)) eqn:E2. { rewrite andb_true_iff, !Z.leb_le in E2. repeat (apply ascii_cons; [lia|]); constructor. }
  apply Forall_app. split; [repeat (apply ascii_cons; [lia|]); constructor|]. apply Forall_app. split; [|apply ascii_cons; [lia|constructor]]. apply hex_fuel_ascii; [unfold scalar in Hs; lia|constructor].
Qed.
Lemma decimal_ascii n : 0 <= n -> Forall (fun c => 0 <= c < 128) (decimal n).
Proof. intros H. destruct (C37_decimal n H) as (F & _). eapply Forall_impl; [|exact F]. cbn; lia. Qed.
Lemma describe_utf8 k : utf8 (describe_as_json k).
Proof. apply utf8_valid_iff; [|destruct k; reflexivity]. apply Forall_forall. intros x Hx. unfold byte_ok. destruct k; vm_compute in Hx; repeat (destruct Hx as [<-|Hx]; [lia|]); destruct Hx. Qed.
Lemma str_utf8 s : utf8_valid (str s) = true -> forallb (fun b => (0 <=? b) && (b <? 256)) (str s) = true -> utf8 (str s).
Proof. intros H F. apply utf8_valid_iff; auto. apply Forall_forall. intros x Hx. rewrite forallb_forall in F. specialize (F x Hx). rewrite andb_true_iff, Z.leb_le, Z.ltb_lt in F. exact F. Qed.
(** The record is a Rust string whatever the arguments. *)
Lemma metadata_utf8 t p args k : 0 <= t -> 0 <= p -> Forall (Forall scalar) args -> utf8 (metadata_text t p args k).
Proof.
  intros Ht Hp F. unfold metadata_text. pose proof (describe_utf8 k) as HK. generalize dependent (describe_as_json k). intros desc HK. repeat apply utf8_app; try (apply str_utf8; reflexivity); try (apply utf8_ascii_list, decimal_ascii; auto); [|exact HK].
  apply utf8_ascii_list. unfold args_text. induction F as [|a args Fa F IH]; cbn [map concat]; [constructor|]. apply Forall_app. split; auto. apply Forall_app. split; [|apply ascii_cons; [lia|constructor]].
  induction Fa as [|c a Hc Fa IHa]; cbn [map concat]; [constructor|]. apply Forall_app. split; auto. apply escape_ascii, Hc.
Qed.

Lemma session_decoder_fails en md r0 K L (HS : session en md r0 K L) parse pages : parse md = Err ->
  split_streams pages = Ok (streams_of (fun t => written t (map fst L))) ->
  exists n, forall f, (n <= f)%nat -> decoder_new parse f (file_of pages) = Err.
Proof.
  intros Hm Hsp. destruct (session_metadata en md r0 K L HS) as (n & Hn). exists n. intros f Hf. unfold decoder_new, file_of.
  change (concat (header_writes FILE_MAGIC_TOP_LEVEL)) with (hdr FILE_MAGIC_TOP_LEVEL).
  rewrite verify_hdr by reflexivity. cbn [bind]. rewrite zdrop_app_eq by reflexivity. rewrite Hsp. cbn [bind tget]. unfold streams_of. cbn [tm_sd tm_si tm_ev].
  rewrite (session_written en md r0 K L HS TStrData), (session_written en md r0 K L HS TStrIndex), (session_written en md r0 K L HS TEvents).
  rewrite !present_hdr by reflexivity. cbn [bind ok_or_err]. unfold from_separate_buffers. rewrite verify_hdr by reflexivity. cbn [bind].
  pose proof (session_table_new en md r0 K L HS) as T.
  rewrite (session_written en md r0 K L HS TStrData), (session_written en md r0 K L HS TStrIndex) in T. rewrite T. cbn [bind].
  rewrite Hn by auto. cbn [bind]. rewrite Hm. reflexivity.
Qed.

(** Every profile of a process with plain arguments opens and reports start time, process and command
    line, whatever was recorded and however the threads were scheduled. *)
Theorem C41_profile_opens : forall en t p args k r0 c0 acts drops,
  0 <= t < 2 ^ 64 -> 0 <= p < 2 ^ 32 -> plain_args args -> started (metadata_text t p args k) r0 c0 -> ucalls_ok acts ->
  let c := urun en acts (mkU c0 []) in
  all_idle (uc c) -> Forall is_drop drops -> (forall t, In (ODrop t) drops) ->
  exists n, forall fuel, (n <= fuel)%nat ->
    exists d, decoder_new parse_metadata fuel (file_of (disk (snd (run_ops drops (cmem (uc c)))))) = Ok d /\
      md_start_time (d_metadata d) = t /\ md_process_id (d_metadata d) = p /\ md_cmd (d_metadata d) = command_line args.
Proof.
  intros en t p args k r0 c0 acts drops Ht Hp F Hst Hok c Hidle Hd Hall.
  assert (FS : Forall (Forall scalar) args). { eapply Forall_impl; [|exact F]. intros a Fa. eapply Forall_impl; [|exact Fa]. unfold plain, scalar. lia. }
  destruct (concurrent_session en _ r0 c0 acts drops (metadata_utf8 t p args k ltac:(lia) ltac:(lia) FS) Hst Hok Hidle Hd Hall) as (K & L & HK & HS & Hsp). fold c in HK, Hsp.
  destruct (session_decoder_new en _ r0 K L HS parse_metadata (mkMd t p (command_line args)) _ (C41_reads_back t p args k Ht Hp F) Hsp) as (n & Hn).
  exists n. intros fuel Hf. exists (session_decoder K L (mkMd t p (command_line args))).
  split; [apply Hn; auto|split; [|split]; reflexivity].
Qed.
(** With any other argument nothing of the profile can be read. *)
Theorem C41_profile_lost_refuted : forall en t p args k r0 c0 acts drops,
  0 <= t -> 0 <= p -> Forall (Forall scalar) args -> ~ plain_args args -> started (metadata_text t p args k) r0 c0 -> ucalls_ok acts ->
  let c := urun en acts (mkU c0 []) in
  all_idle (uc c) -> Forall is_drop drops -> (forall t, In (ODrop t) drops) ->
  exists n, forall fuel, (n <= fuel)%nat ->
    decoder_new parse_metadata fuel (file_of (disk (snd (run_ops drops (cmem (uc c)))))) = Err.
Proof.
  intros en t p args k r0 c0 acts drops Ht Hp FS F Hst Hok c Hidle Hd Hall.
  destruct (concurrent_session en _ r0 c0 acts drops (metadata_utf8 t p args k Ht Hp FS) Hst Hok Hidle Hd Hall) as (K & L & HK & HS & Hsp). fold c in HK, Hsp.
  exact (session_decoder_fails en _ r0 K L HS parse_metadata _ (C41_unreadable_refuted t p args k Ht Hp F) Hsp).
Qed.

(** The hypotheses are met: `rustc a.rs`, process 7, started at 1000. *)
Definition ex_args : list (list Z) := [str "rustc"; str "a.rs"].
Example ex_C41_plain : plain_args ex_args /\ command_line ex_args = str "rustc a.rs ".
Proof. split; [|reflexivity]. unfold plain_args. apply Forall_forall. intros a Ha. apply Forall_forall. intros c Hc. destruct Ha as [<-|[<-|[]]]; cbv in Hc; repeat (destruct Hc as [<-|Hc]; [unfold plain; lia|]); destruct Hc. Qed.
Definition ex_text : bytes := metadata_text 1000 7 ex_args CWallTime.
Definition ex_start : conf := exec (flat_map (seq_acts 0) (init_headers ++ [init_alloc ex_text; index_op METADATA_STRING_ID 8])) conf0.
Example ex_C41_started : started ex_text 8 ex_start.
Proof.
  exists (flat_map (seq_acts 0) (init_headers ++ [init_alloc ex_text; index_op METADATA_STRING_ID 8])), 0,
    (combine init_headers [4; 4; 4; 4; 4; 4]), (index_op METADATA_STRING_ID 8), 8.
  split; [reflexivity|]. split; [|split; [reflexivity|split; [reflexivity|vm_compute; reflexivity]]].
  intros tid. destruct (Z.eq_dec tid 0) as [->|Ht]; [vm_compute; reflexivity|].
  unfold ex_start. apply (idle_others tid (flat_map (seq_acts 0) (init_headers ++ [init_alloc ex_text; index_op METADATA_STRING_ID 8])) conf0); [|reflexivity].
  intros x o Hin. apply in_flat_map in Hin. destruct Hin as (y & _ & [E|E]); [inversion E; congruence|].
  apply repeat_spec in E. discriminate.
Qed.
Example ex_C41_file : (do d <- decoder_new parse_metadata 50 (file_of (disk (snd (run_ops [ODrop TEvents; ODrop TStrData; ODrop TStrIndex] (cmem ex_start))))); Ok (d_metadata d)) = Ok (mkMd 1000 7 (str "rustc a.rs ")).
Proof. vm_compute. reflexivity. Qed.
(** `--name=d'Arc` *)
Example ex_C41_apostrophe : parse_metadata (metadata_text 1000 7 [str "--name=d'Arc"] CWallTime) = Err.
Proof. vm_compute. reflexivity. Qed.
Print Assumptions C41_profile_opens.
Print Assumptions C41_profile_lost_refuted.
