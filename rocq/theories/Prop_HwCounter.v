(** C79: creating a counter on a machine, what it shows, what it says, and where it is wrong. *)
From Coq Require Import String ZArith List Lia Bool.
From Verif Require Import M_Base F_Base M_Map S_Utf8 F_Utf8 M_Utf8 M_Crox S_Crox S_Tools Prop_Tools M_Counters S_Counters Prop_Counters M_Metadata M_HwCounter S_HwCounter F_HwCounter.
Import ListNotations.
Open Scope Z_scope.

Lemma called_inj k k' : called k = called k' -> k = k'.
Proof. destruct k, k'; intros H; try reflexivity; discriminate H. Qed.
Lemma beq_called k k' : beq (called k) (NAME k') = match k, k' with CWallTime, CWallTime | CInstructions, CInstructions | CInstructionsMinusIrqs, CInstructionsMinusIrqs | CInstructionsMinusRaw0420, CInstructionsMinusRaw0420 => true | _, _ => false end.
Proof. destruct k, k'; reflexivity. Qed.
Lemma name_cases name : (exists k, name = called k) \/ (forall k, name <> called k).
Proof.
  destruct (beq name (called CWallTime)) eqn:E1; [apply beq_true in E1; eauto|]. destruct (beq name (called CInstructions)) eqn:E2; [apply beq_true in E2; eauto|].
  destruct (beq name (called CInstructionsMinusIrqs)) eqn:E3; [apply beq_true in E3; eauto|]. destruct (beq name (called CInstructionsMinusRaw0420)) eqn:E4; [apply beq_true in E4; eauto|].
  right. intros [] H; subst name; discriminate.
Qed.

Set Default Proof Using "All".
Section M.
Variables (debug_str : bytes -> bytes) (debug_io_error : Z -> bytes) (debug_cpuid : Z -> Z -> Z -> Z -> bytes) (m : machine).
Hypothesis OK : words_ok m.
Notation by_name := (by_name_io debug_str debug_io_error debug_cpuid m).
Notation denied := (denied debug_io_error (fun a => - ka_fd a) m).
Notation refused := (cpu_refused debug_str debug_cpuid m).
Lemma by_name_invalid name t : (forall k, name <> called k) -> by_name name t = (Failed (debug_str name ++ str " is not a valid counter name"), [], t).
Proof.
  intros N. unfold by_name_io. assert (B : forall k, beq name (NAME k) = false).
  { intros k. destruct (beq name (NAME k)) eqn:E; [|reflexivity]. apply beq_true in E. destruct (N k). rewrite E. destruct k; reflexivity. }
  rewrite !B. reflexivity.
Qed.
(** the second event of a counter *)
Definition second (k : counter_kind) (g : cpu_model) : option perf_event := match k with CInstructionsMinusIrqs => interrupts_event g | _ => Some (4, 0x420) end.
Lemma irqs_cases g :
  (exists ev reg, interrupts_event g = Some ev /\ granted m (Some ev) reg /\ (forall text, ~ denied (interrupts_event g) text) /\ new_irqs debug_io_error m g = Done reg) \/
  (exists text, denied (interrupts_event g) text /\ (forall t', denied (interrupts_event g) t' -> t' = text) /\ (forall reg, ~ granted m (interrupts_event g) reg) /\ new_irqs debug_io_error m g = Failed text).
Proof.
  unfold new_irqs, irqs_event. destruct (interrupts_event g) as [ev|] eqn:EI.
  - assert (EC : exists c, irqs_counter_config g = Ok c /\ ev = (4, c)) by (destruct g as [[]|[]]; cbn in EI |- *; try discriminate; injection EI as <-; eauto).
    destruct EC as (c & -> & ->). destruct (open_cases debug_str debug_io_error debug_cpuid m OK (4, c)) as [(reg & G & N & E)|(text & D & U & N & E)]; [left; exists (4, c), reg; auto|right; exists text; auto].
  - assert (EC : irqs_counter_config g = Err) by (destruct g as [[]|[]]; cbn in EI |- *; try discriminate; reflexivity). rewrite EC.
    right. eexists. split; [reflexivity|]. split; [intros t' H; exact H|]. split; [|reflexivity]. intros reg (ev & p & E & _). discriminate.
Qed.
(** The course of [by_name] for a hardware counter. *)
Inductive course (k : counter_kind) (t : nat) : Prop :=
| Refused text (R : refused text) (E : by_name (called k) t = (Failed text, [], t))
| Denied1 g a b t1 text (C : cpu_is m g) (A : once (unknown_cpu_warning m) a) (B : once (speculation_warning m t) b) (L : (t <= t1)%nat)
    (D : denied (Some (0, 1)) text) (U : forall t', denied (Some (0, 1)) t' -> t' = text) (N : forall reg, ~ granted m (Some (0, 1)) reg)
    (E : by_name (called k) t = (Failed text, a ++ b, t1))
| Single g a b t1 reg (K : k = CInstructions) (C : cpu_is m g) (A : once (unknown_cpu_warning m) a) (B : once (speculation_warning m t) b) (L : (t <= t1)%nat)
    (G : granted m (Some (0, 1)) reg) (N : forall text, ~ denied (Some (0, 1)) text)
    (E : by_name (called k) t = (Done (Instructions reg (hw_read (m_register m t1 reg))), a ++ b, S t1))
| Denied2 g a b c t1 reg text (K : k <> CInstructions) (C : cpu_is m g) (A : once (unknown_cpu_warning m) a) (B : once (speculation_warning m t) b) (L : (t <= t1)%nat)
    (W : c = if match k, g with CInstructionsMinusRaw0420, Amd Zen => true | CInstructionsMinusRaw0420, _ => false | _, _ => true end then [] else [really_warn (str "Counter::new: the undocumented `r0420` performance counter has only been observed on AMD Zen CPUs")])
    (G : granted m (Some (0, 1)) reg) (N1 : forall text, ~ denied (Some (0, 1)) text)
    (D : denied (second k g) text) (U : forall t', denied (second k g) t' -> t' = text) (N : forall reg, ~ granted m (second k g) reg)
    (E : by_name (called k) t = (Failed text, a ++ b ++ c, t1))
| Double g a b c t1 reg ev reg2 cnt (K : k <> CInstructions) (C : cpu_is m g) (A : once (unknown_cpu_warning m) a) (B : once (speculation_warning m t) b) (L : (t <= t1)%nat)
    (W : c = if match k, g with CInstructionsMinusRaw0420, Amd Zen => true | CInstructionsMinusRaw0420, _ => false | _, _ => true end then [] else [really_warn (str "Counter::new: the undocumented `r0420` performance counter has only been observed on AMD Zen CPUs")])
    (G : granted m (Some (0, 1)) reg) (N1 : forall text, ~ denied (Some (0, 1)) text) (EV : second k g = Some ev) (G2 : granted m (Some ev) reg2) (N2 : forall text, ~ denied (second k g) text)
    (EC : cnt = InstructionsMinusIrqs reg reg2 (wrapping_sub (hw_read (m_register m t1 reg)) (hw_read (m_register m (S t1) reg2))) \/ cnt = InstructionsMinusRaw0420 reg reg2 (wrapping_sub (hw_read (m_register m t1 reg)) (hw_read (m_register m (S t1) reg2))))
    (E : by_name (called k) t = (Done cnt, a ++ b ++ c, S (S t1))).
Lemma courses k t : k <> CWallTime -> course k t.
Proof.
  intros NW. destruct (detect_cases debug_str debug_io_error debug_cpuid m OK t) as [(text & R & E)|(g & a & b & t1 & C & E & A & B & L)].
  - apply (Refused k t text R). unfold by_name_io. rewrite !beq_called, E. destruct k; [contradiction| | |]; reflexivity.
  - destruct (open_cases debug_str debug_io_error debug_cpuid m OK (0, 1)) as [(reg & G & N & E1)|(text & D & U & N & E1)].
    + destruct k; [contradiction| | |].
      * apply (Single _ t g a b t1 reg eq_refl C A B L G N). unfold by_name_io. rewrite !beq_called, E. unfold new_instructions. rewrite E1. reflexivity.
      * destruct (irqs_cases g) as [(ev & reg2 & EV & G2 & N2 & E2)|(text & D & U & N2 & E2)].
        -- eapply (Double _ t g a b [] t1 reg ev reg2); [discriminate|exact C|exact A|exact B|exact L|reflexivity|exact G|exact N|exact EV|exact G2|exact N2|left; reflexivity|].
           unfold by_name_io. rewrite !beq_called, E. unfold new_instructions. rewrite E1, E2. cbn. rewrite app_nil_r. reflexivity.
        -- eapply (Denied2 _ t g a b [] t1 reg text); [discriminate|exact C|exact A|exact B|exact L|reflexivity|exact G|exact N|exact D|exact U|exact N2|].
           unfold by_name_io. rewrite !beq_called, E. unfold new_instructions. rewrite E1, E2. cbn. rewrite app_nil_r. reflexivity.
      * destruct (open_cases debug_str debug_io_error debug_cpuid m OK (4, 0x0420)) as [(reg2 & G2 & N2 & E2)|(text & D & U & N2 & E2)].
        -- eapply (Double _ t g a b _ t1 reg (4, 0x0420) reg2); [discriminate|exact C|exact A|exact B|exact L|reflexivity|exact G|exact N|reflexivity|exact G2|exact N2|right; reflexivity|].
           unfold by_name_io. rewrite !beq_called, E. unfold new_instructions, new_raw0420. rewrite E1, E2. rewrite app_assoc. destruct g as [[]|]; reflexivity.
        -- eapply (Denied2 _ t g a b _ t1 reg text); [discriminate|exact C|exact A|exact B|exact L|reflexivity|exact G|exact N|exact D|exact U|exact N2|].
           unfold by_name_io. rewrite !beq_called, E. unfold new_instructions, new_raw0420. rewrite E1, E2. rewrite app_assoc. destruct g as [[]|]; reflexivity.
    + apply (Denied1 k t g a b t1 text C A B L D U N). unfold by_name_io. rewrite !beq_called, E. unfold new_instructions. rewrite E1. destruct k; [contradiction| | |]; reflexivity.
Qed.
Lemma needs_second k g : k <> CWallTime -> k <> CInstructions -> needs k g = [Some (0, 1); second k g].
Proof. destruct k; intros A B; try contradiction; reflexivity. Qed.

(** What comes of [by_name]. *)
Definition fails_with (name text : bytes) : Prop :=
  ((forall k, name <> called k) /\ text = debug_str name ++ str " is not a valid counter name") \/
  exists k, name = called k /\ k <> CWallTime /\
    (refused text \/
     exists g before need after, cpu_is m g /\ needs k g = before ++ need :: after /\ Forall (fun n => exists reg, granted m n reg) before /\ denied need text).
Definition works (name : bytes) : Prop :=
  name = called CWallTime \/ exists k g, name = called k /\ k <> CWallTime /\ cpu_is m g /\ Forall (fun n => exists reg, granted m n reg) (needs k g).
Lemma split2 {A} (x y : A) before need after : [x; y] = before ++ need :: after -> (before = [] /\ need = x) \/ (before = [x] /\ need = y).
Proof.
  destruct before as [|u [|v before]]; cbn [app]; intros E; injection E; intros; subst; auto. destruct before; discriminate.
Qed.
Lemma outcome name t : match fst (fst (by_name name t)) with
  | Failed text => fails_with name text /\ (forall text', fails_with name text' -> text' = text) /\ ~ works name
  | Done _ => works name /\ forall text, ~ fails_with name text
  end.
Proof.
  destruct (name_cases name) as [(k & ->)|N].
  2:{ rewrite by_name_invalid by exact N. cbn [fst]. split; [left; auto|]. split.
      - intros text' [(_ & E)|(k & E & _)]; [exact E|destruct (N k E)].
      - intros [E|(k & g & E & _)]; exact (N _ E). }
  destruct k eqn:EK.
  { cbn -[called]. split; [left; reflexivity|]. intros text [(N & _)|(k' & E & N & _)]; [exact (N _ eq_refl)|]. apply called_inj in E. congruence. }
  all: rewrite <- EK in *; assert (NW : k <> CWallTime) by congruence; clear EK.
  all: destruct (courses k t NW); rewrite E; cbn [fst].
  all: assert (INV : forall text', fails_with (called k) text' -> refused text' \/ exists g before need after, cpu_is m g /\ needs k g = before ++ need :: after /\ Forall (fun n => exists reg, granted m n reg) before /\ denied need text')
    by (intros text' [(N0 & _)|(k' & E' & _ & H)]; [destruct (N0 k eq_refl)|apply called_inj in E'; subst k'; exact H]).
  all: assert (WINV : works (called k) -> exists g, cpu_is m g /\ Forall (fun n => exists reg, granted m n reg) (needs k g))
    by (intros [E'|(k' & g' & E' & _ & H)]; [apply called_inj in E'; contradiction|apply called_inj in E'; subst k'; eauto]).
  all: clear E.
  all: repeat match goal with
  | H : refused ?x |- _ /\ _ /\ _ => split; [right; exists k; split; [reflexivity|]; split; [exact NW|left; exact H]|]; split;
      [intros text' F; apply INV in F; destruct F as [F|(g' & _ & _ & _ & C' & _)]; [exact (refused_fun debug_str debug_io_error debug_cpuid m OK _ _ F H)|destruct (refused_not_is debug_str debug_io_error debug_cpuid m OK _ _ H C')]
      |intros F; apply WINV in F; destruct F as (g' & C' & _); exact (refused_not_is debug_str debug_io_error debug_cpuid m OK _ _ H C')]
  end.
  all: try (split; [right; exists k; split; [reflexivity|]; split; [exact NW|]; right; exists g, [], (Some (0, 1)), (tl (needs k g)); split; [exact C|]; split; [destruct k; try contradiction; reflexivity|]; split; [constructor|exact D]|]; split;
      [intros text' F; apply INV in F; destruct F as [F|(g' & before & need & after & C' & EN & FB & D')]; [destruct (refused_not_is debug_str debug_io_error debug_cpuid m OK _ _ F C)|]; apply U;
       assert (HN : exists r, needs k g' = Some (0, 1) :: r) by (destruct k; try contradiction; cbn [needs]; eauto); destruct HN as (r & HN); rewrite HN in EN; destruct before as [|x before]; injection EN as EN1 EN2;
         [subst need; exact D'|subst x; inversion FB as [|? ? (reg & G) _]; destruct (N reg G)]
      |intros F; apply WINV in F; destruct F as (g' & C' & FN); assert (HN : exists r, needs k g' = Some (0, 1) :: r) by (destruct k; try contradiction; cbn [needs]; eauto); destruct HN as (r & HN); rewrite HN in FN; inversion FN as [|? ? (reg & G) _]; destruct (N reg G)]).
  all: try (subst k; split; [right; exists CInstructions, g; split; [reflexivity|]; split; [exact NW|]; split; [exact C|]; constructor; [eauto|constructor]|];
      intros text F; apply INV in F; destruct F as [F|(g' & before & need & after & C' & EN & FB & D')]; [exact (refused_not_is debug_str debug_io_error debug_cpuid m OK _ _ F C)|];
      cbn [needs] in EN; destruct before as [|x [|? ?]]; cbn [app] in EN; injection EN; try discriminate; intros; subst; exact (N _ D')).
  all: rewrite (needs_second k g NW K) in * || idtac.
  all: try (split; [right; exists k; split; [reflexivity|]; split; [exact NW|]; right; exists g, [Some (0, 1)], (second k g), []; split; [exact C|]; split; [apply needs_second; auto|]; split; [constructor; [eauto|constructor]|exact D]|]; split;
      [intros text' F; apply INV in F; destruct F as [F|(g' & before & need & after & C' & EN & FB & D')]; [destruct (refused_not_is debug_str debug_io_error debug_cpuid m OK _ _ F C)|];
       rewrite <- (cpu_is_fun debug_str debug_io_error debug_cpuid m OK _ _ C C') in *; rewrite (needs_second k g NW K) in EN; apply split2 in EN; destruct EN as [(-> & ->)|(-> & ->)]; [destruct (N1 _ D')|apply U; exact D']
      |intros F; apply WINV in F; destruct F as (g' & C' & FN); rewrite <- (cpu_is_fun debug_str debug_io_error debug_cpuid m OK _ _ C C') in *; rewrite (needs_second k g NW K) in FN; inversion FN as [|? ? _ FN2]; inversion FN2 as [|? ? (reg' & G') _]; exact (N _ G')]).
  all: split; [right; exists k, g; split; [reflexivity|]; split; [exact NW|]; split; [exact C|]; rewrite (needs_second k g NW K); constructor; [eauto|constructor; [rewrite EV; eauto|constructor]]|];
      intros text F; apply INV in F; destruct F as [F|(g' & before & need & after & C' & EN & FB & D')]; [exact (refused_not_is debug_str debug_io_error debug_cpuid m OK _ _ F C)|];
      rewrite <- (cpu_is_fun debug_str debug_io_error debug_cpuid m OK _ _ C C') in *; rewrite (needs_second k g NW K) in EN; apply split2 in EN; destruct EN as [(-> & ->)|(-> & ->)]; [exact (N1 _ D')|exact (N2 _ D')].
Qed.
End M.

(** ** C79: what comes of asking for a counter *)
Theorem C79_outcome : forall debug_str debug_io_error debug_cpuid m name t result log t', words_ok m ->
  by_name_io debug_str debug_io_error debug_cpuid m name t = (result, log, t') ->
  (forall text, result = Failed text <->
    ((forall k, name <> called k) /\ text = debug_str name ++ str " is not a valid counter name") \/
    (exists k, name = called k /\ k <> CWallTime /\
      (cpu_refused debug_str debug_cpuid m text \/
       exists g before need after, cpu_is m g /\ needs k g = before ++ need :: after /\
         Forall (fun n => exists reg, granted m n reg) before /\ denied debug_io_error (fun a => - ka_fd a) m need text))) /\
  ((exists c, result = Done c) <->
    name = called CWallTime \/
    (exists k g, name = called k /\ k <> CWallTime /\ cpu_is m g /\ Forall (fun n => exists reg, granted m n reg) (needs k g))).
Proof.
  intros ds di dc m name t result log t' OK E. pose proof (outcome ds di dc m OK name t) as H. rewrite E in H. cbn [fst] in H. destruct result as [c|text].
  - destruct H as (W & N). split.
    + intros text. split; [discriminate|]. intros F. destruct (N text F).
    + split; [intros _; exact W|eauto].
  - destruct H as (F & U & N). split.
    + intros text'. split; [intros K; injection K as <-; exact F|]. intros F'. rewrite (U _ F'). reflexivity.
    + split; [intros (c & K); discriminate|]. intros W. destruct (N W).
Qed.

(** ** ... what it shows *)
Lemma diff_mod a b : ((a mod 2 ^ 64) - (b mod 2 ^ 64)) mod 2 ^ 64 = (a - b) mod 2 ^ 64.
Proof. rewrite <- Zminus_mod. reflexivity. Qed.
Lemma holds_read m counted t last ev reg t' t'' : holds_event m counted t last ev reg -> (t <= t' <= last)%nat -> (t <= t'' <= last)%nat ->
  exists s, hw_read (m_register m t' reg) = (s + counted ev t') mod 2 ^ 64 /\ hw_read (m_register m t'' reg) = (s + counted ev t'') mod 2 ^ 64.
Proof.
  intros (s & H) A B. exists s. destruct (H t' A) as (-> & S1), (H t'' B) as (-> & S2). split; apply hw_read_signed; auto; reflexivity.
Qed.
Theorem C79_value : forall debug_str debug_io_error debug_cpuid m name t c log t', words_ok m ->
  by_name_io debug_str debug_io_error debug_cpuid m name t = (Done c, log, t') ->
  exists t0, (t <= t0 < t')%nat /\ forall counted now, (t' <= now)%nat ->
    (name = str "wall-time" -> since_start m c now = Z.max 0 (m_clock m now - m_clock m t0) mod 2 ^ 64) /\
    (name = str "instructions:u" -> forall g, cpu_is m g -> kernel_keeps m counted (needs CInstructions g) t0 (S now) ->
       since_start m c now = between counted (0, 1) t0 now mod 2 ^ 64) /\
    (forall k, name = called k -> k = CInstructionsMinusIrqs \/ k = CInstructionsMinusRaw0420 -> forall g, cpu_is m g ->
       kernel_keeps m counted (needs k g) t0 (S now) ->
       exists ev, needs k g = [Some (0, 1); Some ev] /\
         since_start m c now = (between counted (0, 1) t0 now - between counted ev (S t0) (S now)) mod 2 ^ 64).
Proof.
  intros ds di dc m name t c log t' OK E. destruct (name_cases name) as [(k & ->)|N]; [|rewrite by_name_invalid in E by auto; discriminate].
  assert (NE : forall k1, called k = called k1 -> k = k1) by (intros; apply called_inj; auto).
  assert (DK : k = CWallTime \/ k <> CWallTime) by (destruct k; auto; right; discriminate).
  destruct DK as [-> |NW].
  { cbn in E. injection E as <- <- <-. exists t. split; [lia|]. intros counted now L. split; [intros _; reflexivity|]. split; [intros K; apply (NE CInstructions) in K; discriminate|]. intros k1 K [-> | ->]; apply NE in K; discriminate. }
  assert (WT : called k = str "wall-time" -> k = CWallTime) by exact (NE CWallTime).
  assert (IN : called k = str "instructions:u" -> k = CInstructions) by exact (NE CInstructions).
  destruct (courses ds di dc m OK k t NW) as [? ? E'|? ? ? ? ? ? ? ? ? ? ? ? E'|g a b t1 reg K C A B L G N E'|? ? ? ? ? ? ? ? ? ? ? ? ? ? ? ? ? ? E'|g a b w t1 reg ev reg2 cnt K C A B L W G N1 EV G2 N2 EC E']; rewrite E' in E; try discriminate; clear E'.
  - injection E as <- <- <-. exists t1. split; [lia|]. intros counted now Ln. split; [intros H; destruct (NW (WT H))|]. split; [|intros k1 Hk [-> | ->]; apply NE in Hk; congruence].
    intros _ g' C' KK. destruct (holds_read m counted t1 (S now) (0, 1) reg t1 now (KK (0, 1) reg (or_introl eq_refl) G) ltac:(lia) ltac:(lia)) as (s & R1 & R2).
    cbn [since_start]. unfold read, wrapping_sub, between. rewrite R1, R2, diff_mod. f_equal. lia.
  - injection E as <- <- <-. exists t1. split; [lia|]. intros counted now Ln. split; [intros H; destruct (NW (WT H))|]. split; [intros H; destruct (K (IN H))|].
    intros k1 Hk _ g' C' KK. apply NE in Hk. subst k1. rewrite <- (cpu_is_fun ds di dc m OK _ _ C C') in *. rewrite (needs_second ds di dc m OK k g NW K), EV in *. exists ev. split; [reflexivity|].
    destruct (holds_read m counted t1 (S now) (0, 1) reg t1 now (KK (0, 1) reg (or_introl eq_refl) G) ltac:(lia) ltac:(lia)) as (s & R1 & R2).
    destruct (holds_read m counted t1 (S now) ev reg2 (S t1) (S now) (KK ev reg2 (or_intror (or_introl eq_refl)) G2) ltac:(lia) ltac:(lia)) as (s2 & R3 & R4).
    assert (EQ : since_start m cnt now = (((s + counted (0, 1) now) mod 2 ^ 64 - (s2 + counted ev (S now)) mod 2 ^ 64) mod 2 ^ 64 - ((s + counted (0, 1) t1) mod 2 ^ 64 - (s2 + counted ev (S t1)) mod 2 ^ 64) mod 2 ^ 64) mod 2 ^ 64).
    { destruct EC as [-> | ->]; cbn [since_start read_pair]; unfold wrapping_sub; rewrite R1, R2, R3, R4; reflexivity. }
    rewrite EQ. rewrite (diff_mod (s + counted (0, 1) now)), (diff_mod (s + counted (0, 1) t1)), diff_mod. unfold between. f_equal. lia.
Qed.

(** ** ... and what it says *)
Lemma once_nothing (P : bytes -> Prop) : (forall x, ~ P x) -> once P [].
Proof. left. auto. Qed.
Theorem C79_warnings : forall debug_str debug_io_error debug_cpuid m k t result log t', words_ok m ->
  by_name_io debug_str debug_io_error debug_cpuid m (called k) t = (result, log, t') ->
  (k = CWallTime -> log = []) /\
  (k <> CWallTime -> exists a b c, log = a ++ b ++ c /\
     once (unknown_cpu_warning m) a /\ once (speculation_warning m t) b /\ once (undocumented_warning m (called k)) c).
Proof.
  intros ds di dc m k t result log t' OK E. split; [intros ->; cbn in E; injection E as <- <- <-; reflexivity|]. intros NW.
  assert (NU : k <> CInstructionsMinusRaw0420 -> once (undocumented_warning m (called k)) []).
  { intros H. apply once_nothing. intros x (Ek & _). apply called_inj in Ek. contradiction. }
  assert (UW : forall g reg w, cpu_is m g -> granted m (Some (0, 1)) reg -> k <> CInstructions ->
    w = (if match k, g with CInstructionsMinusRaw0420, Amd Zen => true | CInstructionsMinusRaw0420, _ => false | _, _ => true end then [] else [really_warn (str "Counter::new: the undocumented `r0420` performance counter has only been observed on AMD Zen CPUs")]) ->
    once (undocumented_warning m (called k)) w).
  { intros g reg w C G K ->. destruct k; [contradiction|contradiction|apply NU; discriminate|].
    assert (DG : g = Amd Zen \/ g <> Amd Zen) by (destruct g as [[]|]; auto; right; discriminate). destruct DG as [-> |NZ].
    - apply once_nothing. intros x (_ & _ & (g' & C' & N') & _). apply N'. exact (cpu_is_fun ds di dc m OK _ _ C' C).
    - right. exists (str "[WARNING] Counter::new: the undocumented `r0420` performance counter has only been observed on AMD Zen CPUs"). split; [destruct g as [[]|]; try reflexivity; contradiction|]. split.
      + split; [reflexivity|]. split; [eauto|]. split; [eauto|reflexivity].
      + intros y (_ & _ & _ & ->). reflexivity. }
  destruct (courses ds di dc m OK k t NW); rewrite E in E0; injection E0 as -> -> ->.
  - exists [], [], []. split; [reflexivity|]. split; [|split].
    + apply once_nothing. intros x [(C & _)|(C & _)]; exact (refused_not_is ds di dc m OK _ _ R C).
    + apply once_nothing. intros x ([C|C] & _); exact (refused_not_is ds di dc m OK _ _ R C).
    + apply once_nothing. intros x (_ & _ & (g & C & _) & _). exact (refused_not_is ds di dc m OK _ _ R C).
  - exists a, b, []. split; [rewrite app_nil_r; reflexivity|]. split; [exact A|]. split; [exact B|]. apply once_nothing. intros x (_ & (reg & G) & _). exact (N reg G).
  - exists a, b, []. split; [rewrite app_nil_r; reflexivity|]. split; [exact A|]. split; [exact B|]. apply NU. congruence.
  - exists a, b, c. split; [reflexivity|]. split; [exact A|]. split; [exact B|]. eapply UW; eauto.
  - exists a, b, c. split; [reflexivity|]. split; [exact A|]. split; [exact B|]. eapply UW; eauto.
Qed.

(** ** Where it goes wrong *)
(** [perf_event_open] returns -1 on failure and leaves the reason in [errno]; the message always gives error number 1 ("operation
    not permitted"), whatever the reason was. *)
Theorem C79_errno_refuted : forall debug_str debug_io_error debug_cpuid m g k t, words_ok m -> cpu_is m g -> k <> CWallTime ->
  ka_fd (m_kernel m (0, 1)) = -1 ->
  fst (fst (by_name_io debug_str debug_io_error debug_cpuid m (called k) t)) = Failed (str "perf_event_open failed: " ++ debug_io_error 1).
Proof.
  intros ds di dc m g k t OK C NW F. destruct (by_name_io ds di dc m (called k) t) as ((result & log) & t') eqn:E.
  apply (proj1 (C79_outcome _ _ _ _ _ _ _ _ _ OK E)). right. exists k. split; [reflexivity|]. split; [exact NW|]. right.
  exists g, [], (Some (0, 1)), (tl (needs k g)). split; [exact C|]. split; [destruct k; try contradiction; reflexivity|]. split; [constructor|].
  left. rewrite F. split; [lia|reflexivity].
Qed.
(** Instances: a Skylake, a kernel that grants the events in registers 0 and 1 or refuses because of too many open files (24). *)
Definition a_machine (kernel : perf_event -> kernel_answer) (register : nat -> Z -> Z) : machine :=
  mkMachine 0x756e6547 0x49656e69 0x6c65746e 0x506e3 kernel register (fun t => 1000 * Z.of_nat t).
Definition grants (ev : perf_event) : kernel_answer := mkKA 3 0 (inr (mkPV 1 1 0 (if fst ev =? 0 then 1 else 2) 48)).
Definition no_files (ev : perf_event) : kernel_answer := mkKA (-1) 24 (inl []).
Lemma a_machine_ok kernel register : (forall ev p, ka_map (kernel ev) = inr p -> 0 <= pv_width p < 2 ^ 16) -> words_ok (a_machine kernel register).
Proof. intros H. split; [cbn; lia|exact H]. Qed.
Lemma a_machine_is kernel register : cpu_is (a_machine kernel register) (Intel Lake).
Proof. split; [split; [reflexivity|split; reflexivity]|]. cbn. split; [reflexivity|]. right; right; left. reflexivity. Qed.
(** A kernel that moves the running event to another register (and says so in the page, which is not looked at again): the
    counter goes on reading the old register. *)
Definition moving (t : nat) (reg : Z) : Z := if (t <? 5)%nat then (if reg =? 0 then 1000 * Z.of_nat t else 3) else (if reg =? 1 then 1000 * Z.of_nat t else 7).
Definition thousand (ev : perf_event) (t : nat) : Z := 1000 * Z.of_nat t.
Theorem C79_moved_refuted : exists m c log t', words_ok m /\
  (forall debug_str debug_io_error debug_cpuid, by_name_io debug_str debug_io_error debug_cpuid m (str "instructions:u") 0 = (Done c, log, t')) /\
  granted m (Some (0, 1)) 0 /\
  (forall t, (t < 5)%nat -> m_register m t 0 = register 0 (thousand (0, 1) t)) /\
  (forall t, (5 <= t < 1000)%nat -> m_register m t 1 = register 0 (thousand (0, 1) t)) /\
  between thousand (0, 1) 0 9 = 9000 /\ since_start m c 9 = 7.
Proof.
  exists (a_machine grants moving). eexists _, _, _. split; [apply a_machine_ok; cbn; intros ev p [= <-]; cbn; lia|]. split; [intros; reflexivity|].
  split; [exists (0, 1); eexists; split; [reflexivity|]; split; [cbn; lia|]; split; [reflexivity|]; split; [vm_compute; discriminate|]; split; [vm_compute; discriminate|]; split; reflexivity|].
  split; [|split; [|split; reflexivity]].
  - intros t L. cbn [m_register a_machine]. unfold moving, register, thousand. destruct (Nat.ltb_spec t 5); [|lia]. rewrite Z.mod_small by lia. reflexivity.
  - intros t L. cbn [m_register a_machine]. unfold moving, register, thousand. destruct (Nat.ltb_spec t 5); [lia|]. rewrite Z.mod_small by lia. reflexivity.
Qed.

(** ** Other platforms *)
Theorem C79_platforms : forall debug_str x86_64 linux ohos clock name,
  (hw_supported x86_64 linux ohos = true <-> missing x86_64 linux ohos = []) /\
  (hw_supported x86_64 linux ohos = false ->
   (name = called CWallTime -> by_name_elsewhere debug_str x86_64 linux ohos clock name = Done (WallTime clock)) /\
   (forall k, k <> CWallTime -> name = called k ->
      by_name_elsewhere debug_str x86_64 linux ohos clock name = Failed (joined (str "; ") (missing x86_64 linux ohos))) /\
   ((forall k, name <> called k) -> by_name_elsewhere debug_str x86_64 linux ohos clock name = Failed (debug_str name ++ str " is not a valid counter name"))).
Proof.
  intros ds x l o clock name. split; [destruct x, l, o; cbn; split; intros H; try reflexivity; discriminate|]. intros _. split; [|split].
  - intros ->. reflexivity.
  - intros k N ->. destruct k; [contradiction| | |]; destruct x, l, o; reflexivity.
  - intros N. unfold by_name_elsewhere. assert (B : forall k, beq name (NAME k) = false).
    { intros k. destruct (beq name (NAME k)) eqn:E; [|reflexivity]. apply beq_true in E. destruct (N k). rewrite E. destruct k; reflexivity. }
    cbn [existsb]. rewrite !B. reflexivity.
Qed.

(** Instances of the hypotheses: on the Skylake the instructions counter is created and shows 4000 after four steps; the registers
    hold the events. *)
Definition steady (t : nat) (reg : Z) : Z := (if reg =? 0 then - 2000 + 1000 * Z.of_nat t else 2 ^ 47 - 10000 + 1000 * Z.of_nat t) mod 2 ^ 48.
Example ex_C79 : words_ok (a_machine grants steady) /\
  (forall ds di dc, exists c log t', by_name_io ds di dc (a_machine grants steady) (str "instructions-minus-irqs:u") 0 = (Done c, log, t') /\ t' = 2%nat /\ since_start (a_machine grants steady) c 5 = 0) /\
  kernel_keeps (a_machine grants steady) thousand (needs CInstructionsMinusIrqs (Intel Lake)) 0 6 /\
  (forall ds di dc, fst (fst (by_name_io ds di dc (a_machine no_files steady) (str "instructions:u") 0)) = Failed (str "perf_event_open failed: " ++ di 1)) /\
  ka_errno (m_kernel (a_machine no_files steady) (0, 1)) = 24.
Proof.
  assert (GO : forall ev p, ka_map (grants ev) = inr p -> 0 <= pv_width p < 2 ^ 16) by (cbn; intros ev p [= <-]; cbn; lia).
  split; [apply a_machine_ok; exact GO|]. split; [intros; eexists _, _, _; split; [reflexivity|]; split; reflexivity|]. split; [|split; [|reflexivity]].
  - intros ev reg I (ev' & p & E & _ & P & _ & _ & _ & ->). injection E as <-. cbn in I. destruct I as [I|[I|[]]]; injection I as <-; injection P as <-.
    + exists (-2000). intros t L. split; [reflexivity|unfold signed48, thousand; lia].
    + exists (2 ^ 47 - 10000). intros t L. split; [reflexivity|unfold signed48, thousand; lia].
  - intros ds di dc. apply (C79_errno_refuted ds di dc _ (Intel Lake) CInstructions); [|apply a_machine_is|discriminate|reflexivity].
    apply a_machine_ok. cbn. discriminate.
Qed.
