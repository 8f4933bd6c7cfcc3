(** Specification for C79: opening a counter on a machine and what it then shows. *)
From Coq Require Import String ZArith List Lia Bool.
From Verif Require Import M_Base M_Map S_Utf8 M_Crox S_Tools M_Counters S_Counters M_Metadata M_HwCounter.
Import ListNotations.
Open Scope Z_scope.

(** the names of the counters *)
Definition called (k : counter_kind) : bytes :=
  match k with
  | CWallTime => str "wall-time"
  | CInstructions => str "instructions:u"
  | CInstructionsMinusIrqs => str "instructions-minus-irqs:u"
  | CInstructionsMinusRaw0420 => str "instructions-minus-r0420:u"
  end.
(** [cpuid] returns 32-bit words; the width in the page is a 16-bit number *)
Definition words_ok (m : machine) : Prop :=
  (0 <= m_ebx m < 2 ^ 32 /\ 0 <= m_edx m < 2 ^ 32 /\ 0 <= m_ecx m < 2 ^ 32 /\ 0 <= m_version m < 2 ^ 32) /\
  forall ev p, ka_map (m_kernel m ev) = inr p -> 0 <= pv_width p < 2 ^ 16.
(** the processor (tables of S_Counters.v, C45) *)
Definition cpu_is (m : machine) (model : cpu_model) : Prop :=
  match model with
  | Amd g => is_amd (m_ebx m) (m_edx m) (m_ecx m) /\ amd_table (family (m_version m)) (amd_model (m_version m)) g
  | Intel g => is_intel (m_ebx m) (m_edx m) (m_ecx m) /\ intel_table (family (m_version m)) (intel_model (m_version m)) g
  end.
(** hexadecimal numerals: digits, no leading zero *)
Definition hex_digits (ds : bytes) (n : Z) : Prop :=
  Forall (fun c => 48 <= c <= 57 \/ 97 <= c <= 102) ds /\ (ds = [48] \/ exists c t, ds = c :: t /\ c <> 48) /\
  fold_left (fun a c => 16 * a + (if c <? 58 then c - 48 else c - 87)) ds 0 = n.
Definition report : bytes := str "please report this to https://github.com/rust-lang/measureme/issues/new".
(** processors on which no hardware counter is opened *)
Definition cpu_refused (debug_str : bytes -> bytes) (debug_cpuid : Z -> Z -> Z -> Z -> bytes) (m : machine) (text : bytes) : Prop :=
  let vendor := le_bytes 4 (m_ebx m) ++ le_bytes 4 (m_edx m) ++ le_bytes 4 (m_ecx m) in
  (~ utf8 vendor /\ text = str "cpuid returned non-UTF-8 vendor name: " ++ debug_cpuid (m_ebx m) (m_edx m) (m_ecx m) (m_version m)) \/
  (is_amd (m_ebx m) (m_edx m) (m_ecx m) /\ amd_impossible (family (m_version m)) /\ exists f n, numeral f (family (m_version m)) /\ numeral n (amd_model (m_version m)) /\
     text = str "impossible AMD64 CPU detected (Family " ++ f ++ str " Model " ++ n ++ str "); " ++ report) \/
  (utf8 vendor /\ ~ is_amd (m_ebx m) (m_edx m) (m_ecx m) /\ ~ is_intel (m_ebx m) (m_edx m) (m_ecx m) /\ exists v, hex_digits v (m_version m) /\
     text = str "cpuid returned unknown CPU vendor " ++ debug_str vendor ++ str "; version=0x" ++ v).

(** the event counting "hardware interrupts", if there is one *)
Definition interrupts_event (model : cpu_model) : option perf_event :=
  match model with
  | Amd PreZen => Some (4, 0xcf)
  | Amd _ => Some (4, 0x2c)
  | Intel PreBridge => None
  | Intel _ => Some (4, 0x1cb)
  end.
(** what a counter needs, in order ([None]: an event that does not exist) *)
Definition needs (k : counter_kind) (model : cpu_model) : list (option perf_event) :=
  match k with
  | CWallTime => []
  | CInstructions => [Some (0, 1)]
  | CInstructionsMinusIrqs => [Some (0, 1); interrupts_event model]
  | CInstructionsMinusRaw0420 => [Some (0, 1); Some (4, 0x420)]
  end.
(** the kernel grants an event, in a register *)
Definition granted (m : machine) (need : option perf_event) (reg : Z) : Prop :=
  exists ev p, need = Some ev /\ 0 <= ka_fd (m_kernel m ev) /\ ka_map (m_kernel m ev) = inr p /\
    pv_cap_user_rdpmc p <> 0 /\ pv_index p <> 0 /\ pv_width p = 48 /\ reg = pv_index p - 1.
(** ... or not, and the message; [reported]: the error number that is reported when [perf_event_open] fails *)
Definition denied (debug_io_error : Z -> bytes) (reported : kernel_answer -> Z) (m : machine) (need : option perf_event) (text : bytes) : Prop :=
  match need with
  | None => text = str "counting IRQs not yet supported on Intel CPUs predating Sandy Bridge; " ++ report
  | Some ev =>
      let a := m_kernel m ev in
      (ka_fd a < 0 /\ text = str "perf_event_open failed: " ++ debug_io_error (reported a)) \/
      (exists e, 0 <= ka_fd a /\ ka_map a = inl e /\ text = str "perf_event_mmap_page: mmap failed: " ++ e) \/
      (exists p, 0 <= ka_fd a /\ ka_map a = inr p /\
         ((pv_cap_user_rdpmc p = 0 /\ ~ (pv_cap_bit0_is_deprecated p = 0 /\ pv_cap_bit0 p = 1) /\ text = str "perf_event_mmap_page: missing cap_user_rdpmc") \/
          (pv_cap_user_rdpmc p = 0 /\ pv_cap_bit0_is_deprecated p = 0 /\ pv_cap_bit0 p = 1 /\ text = str "perf_event_mmap_page: missing cap_user_rdpmc (ignoring legacy/broken rdpmc support)") \/
          (pv_cap_user_rdpmc p <> 0 /\ pv_index p = 0 /\ text = str "perf_event_mmap_page: no allocated hardware register (ran out?)") \/
          (pv_cap_user_rdpmc p <> 0 /\ pv_index p <> 0 /\ pv_width p <> 48 /\ exists w, numeral w (pv_width p) /\ text = str "perf_event_mmap_page: " ++ w ++ str "-bit hardware counter found, only 48-bit supported")))
  end.

(** From time [t] to time [last] the register [reg] holds the event [ev], of which [counted] units have occurred by each
    time; the register stays within the positive or negative half in which it was programmed (see C40). *)
Definition holds_event (m : machine) (counted : perf_event -> nat -> Z) (t last : nat) (ev : perf_event) (reg : Z) : Prop :=
  exists s, forall t', (t <= t' <= last)%nat -> m_register m t' reg = register s (counted ev t') /\ signed48 (s + counted ev t').
(** from [t] to [last] the kernel keeps the events it has granted where it said *)
Definition kernel_keeps (m : machine) (counted : perf_event -> nat -> Z) (events : list (option perf_event)) (t last : nat) : Prop :=
  forall ev reg, In (Some ev) events -> granted m (Some ev) reg -> holds_event m counted t last ev reg.
(** units of [ev] between two times *)
Definition between (counted : perf_event -> nat -> Z) (ev : perf_event) (t t' : nat) : Z := counted ev t' - counted ev t.

(** ** The warnings *)
Definition unknown_cpu_warning (m : machine) (x : bytes) : Prop :=
  (cpu_is m (Amd UnknownMaybeZenLike) /\ exists f n, numeral f (family (m_version m)) /\ numeral n (amd_model (m_version m)) /\
     x = str "[WARNING] CpuModel::detect: unknown AMD CPU (Family " ++ f ++ str " Model " ++ n ++ str "), assuming Zen-like; " ++ report) \/
  (cpu_is m (Intel UnknownMaybeLakeLike) /\ exists f n, numeral f (family (m_version m)) /\ numeral n (intel_model (m_version m)) /\
     x = str "[WARNING] CpuModel::detect: unknown Intel CPU (Family " ++ f ++ str " Model " ++ n ++ str "), assuming Skylake-like; " ++ report).
(** the names of the Zen models; the others of this family and later ones have the empty name *)
Definition zen_models : list (Z * bytes) :=
  [(1, str "Zen (Naples/Whitehaven/Summit Ridge/Snowy Owl)"); (8, str "Zen+ (Pinnacle Ridge)"); (17, str "Zen (Raven Ridge)");
   (24, str "Zen (Banded Kestrel/Dali) / Zen+ (Picasso)"); (49, str "Zen 2 (Rome/Castle Peak)"); (113, str "Zen 2 (Matisse)")].
Definition zen_named (m : machine) (name : bytes) : Prop :=
  (cpu_is m (Amd Zen) /\ In (amd_model (m_version m), name) zen_models) \/ (cpu_is m (Amd UnknownMaybeZenLike) /\ name = []).
(** on a Zen, or what may be one, the register of the event 0x825 can be had and changes *)
Definition speculation_warning (m : machine) (t : nat) (x : bytes) : Prop :=
  (cpu_is m (Amd Zen) \/ cpu_is m (Amd UnknownMaybeZenLike)) /\ exists reg name, granted m (Some (4, 0x825)) reg /\ zen_named m name /\
    m_register m t reg mod 2 ^ 48 <> m_register m (S t) reg mod 2 ^ 48 /\
    x = str "[WARNING] CpuModel::detect: SpecLockMap detected, in AMD " ++ name ++ str " CPU; this may add some non-deterministic noise - for information on disabling SpecLockMap, see https://github.com/mozilla/rr/wiki/Zen".
(** the r0420 counter was asked for, the instructions event could be had, and this is not a known Zen *)
Definition undocumented_warning (m : machine) (name x : bytes) : Prop :=
  name = called CInstructionsMinusRaw0420 /\ (exists reg, granted m (Some (0, 1)) reg) /\ (exists model, cpu_is m model /\ model <> Amd Zen) /\
  x = str "[WARNING] Counter::new: the undocumented `r0420` performance counter has only been observed on AMD Zen CPUs".

(** a message that is there, once, exactly if its condition holds *)
Definition once (P : bytes -> Prop) (l : list bytes) : Prop := (l = [] /\ forall x, ~ P x) \/ exists x, l = [x] /\ P x /\ forall y, P y -> y = x.

(** ** Other platforms *)
Fixpoint joined (sep : bytes) (parts : list bytes) : bytes :=
  match parts with
  | [] => []
  | [p] => p
  | p :: rest => p ++ sep ++ joined sep rest
  end.
Definition missing (x86_64 linux ohos : bool) : list bytes :=
  (if x86_64 then [] else [str "only supported architecture is x86_64"]) ++
  (if linux then [] else [str "only supported OS is Linux"]) ++
  (if ohos then [str "unsupported OHOS environment"] else []).
