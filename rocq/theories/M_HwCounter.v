(** Model of the creation and use of a counter: measureme/src/counters.rs (cited as counters.rs) lines 135-147,
    167-292 (the four counters), 307-440 and 473-606 (the Linux x86_64 module [hw]), 691-911 ([CpuModel::detect]
    with its messages), and 943-1003 (the module [hw] of the other platforms).

    The machine is an input: what [cpuid] returns, what the kernel answers when an event is opened and mapped,
    and what the registers and the clock show at each point of time.  Every call of [by_name] opens an event at
    most once, so the answer depends only on the event.  Time advances by one with every instruction that reads
    a register or the clock.  Of the log only the messages that are shown by default are modelled
    ([really_warn!]).  Texts made by the standard library ([Debug] of strings, I/O errors and
    [CpuidResult]) are parameters.  The page is read as in M_Counters.v (C53); here only what is read appears. *)
From Coq Require Import String ZArith List Lia Bool.
From Verif Require Import M_Base M_Utf8 M_Map M_Crox M_Counters M_Metadata.
Import ListNotations.
Open Scope Z_scope.

(** (type, config) of an event *)
Definition perf_event : Type := (Z * Z)%type.
(** counters.rs:397-406: the fields of the mapped page that are used *)
Record page_view := mkPV { pv_cap_user_rdpmc : Z; pv_cap_bit0_is_deprecated : Z; pv_cap_bit0 : Z; pv_index : Z; pv_width : Z }.
(** what the kernel answers: the value returned by [perf_event_open], the error number it leaves in [errno]; if the
    value is not negative, the error of [mmap] or the page *)
Record kernel_answer := mkKA { ka_fd : Z; ka_errno : Z; ka_map : bytes + page_view }.
Record machine := mkMachine {
  m_ebx : Z; m_edx : Z; m_ecx : Z;       (* cpuid(0) *)
  m_version : Z;                          (* cpuid(1).eax *)
  m_kernel : perf_event -> kernel_answer;
  m_register : nat -> Z -> Z;             (* at each time, of each index: 64 bits *)
  m_clock : nat -> Z }.                   (* at each time, nanoseconds *)

Inductive outcome (A : Type) := Done (a : A) | Failed (text : bytes).
Arguments Done {A} a.
Arguments Failed {A} text.

(** counters.rs:129-134 [Counter] with its contents: the register indices and the value at the start *)
Inductive counter :=
| WallTime (start : Z)
| Instructions (reg : Z) (start : Z)
| InstructionsMinusIrqs (reg irqs_reg : Z) (start : Z)
| InstructionsMinusRaw0420 (reg irqs_reg : Z) (start : Z).

(** counters.rs:302-303 *)
Definition BUG_REPORT_MSG : bytes := str "please report this to https://github.com/rust-lang/measureme/issues/new".
(** counters.rs:122-126 [really_warn!] *)
Definition really_warn (text : bytes) : bytes := str "[WARNING] " ++ text.

Section Machine.
Variable debug_str : bytes -> bytes.       (* {:?} of a string *)
Variable debug_io_error : Z -> bytes.      (* {:?} of [io::Error::from_raw_os_error] *)
Variable debug_cpuid : Z -> Z -> Z -> Z -> bytes.   (* "cpuid(0)={:?} cpuid(1)={:?}" *)
Variable m : machine.

(** counters.rs:348-437 [Counter::with_type_and_hw_id]: the register index *)
Definition with_type_and_hw_id (ev : perf_event) : outcome Z :=
  let a := m_kernel m ev in
  if ka_fd a <? 0 then Failed (str "perf_event_open failed: " ++ debug_io_error (- ka_fd a))
  else match ka_map a with
  | inl e => Failed (str "perf_event_mmap_page: mmap failed: " ++ e)
  | inr p =>
      if pv_cap_user_rdpmc p =? 0 then
        Failed (str "perf_event_mmap_page: missing cap_user_rdpmc" ++
                if (pv_cap_bit0_is_deprecated p =? 0) && (pv_cap_bit0 p =? 1) then str " (ignoring legacy/broken rdpmc support)" else [])
      else if pv_index p =? 0 then Failed (str "perf_event_mmap_page: no allocated hardware register (ran out?)")
      else if negb (pv_width p =? 48) then
        Failed (str "perf_event_mmap_page: " ++ decimal (pv_width p) ++ str "-bit hardware counter found, only 48-bit supported")
      else Done (pv_index p - 1)
  end.
(** counters.rs:475-497 [read] *)
Definition read (t : nat) (reg : Z) : Z := hw_read (m_register m t reg).
(** counters.rs:500-519 [read] of a pair, one instruction after the other *)
Definition read_pair (t : nat) (a b : Z) : Z * Z := (hw_read (m_register m t a), hw_read (m_register m (S t) b)).

(** counters.rs:746-751: the names of the known Zen models; unknown ones have none *)
Definition zen_name (family model : Z) : bytes :=
  if negb (family =? 23) then []
  else if model =? 1 then str "Zen (Naples/Whitehaven/Summit Ridge/Snowy Owl)"
  else if model =? 17 then str "Zen (Raven Ridge)"
  else if model =? 24 then str "Zen (Banded Kestrel/Dali) / Zen+ (Picasso)"
  else if model =? 8 then str "Zen+ (Pinnacle Ridge)"
  else if model =? 49 then str "Zen 2 (Rome/Castle Peak)"
  else if model =? 113 then str "Zen 2 (Matisse)"
  else [].
(** counters.rs:794-834: the probe for [SpecLockMap]; the two readings take place at [t] and after it *)
Definition probe (name : bytes) (t : nat) : list bytes * nat :=
  match with_type_and_hw_id (4, 0x0825) with
  | Done reg =>
      (if read t reg =? read (S t) reg then []
       else [really_warn (str "CpuModel::detect: SpecLockMap detected, in AMD " ++ name ++ str " CPU; this may add some non-deterministic noise - for information on disabling SpecLockMap, see https://github.com/mozilla/rr/wiki/Zen")],
       S (S t))
  | Failed _ => ([], t)
  end.
(** counters.rs:691-911 [CpuModel::detect]: the model or an error, the warnings, and the time afterwards *)
Definition detect_io (t : nat) : outcome cpu_model * list bytes * nat :=
  let vendor := vendor_of (m_ebx m) (m_edx m) (m_ecx m) in
  if negb (utf8_valid vendor) then
    (Failed (str "cpuid returned non-UTF-8 vendor name: " ++ debug_cpuid (m_ebx m) (m_edx m) (m_ecx m) (m_version m)), [], t)
  else
    let family := family_of (m_version m) in
    let model := model_of vendor (m_version m) in
    if beq vendor (str "AuthenticAMD") then
      match amd_match family model with
      | Ok g =>
          let warned := match g with
            | UnknownMaybeZenLike => [really_warn (str "CpuModel::detect: unknown AMD CPU (Family " ++ decimal family ++ str " Model " ++ decimal model ++ str "), assuming Zen-like; " ++ BUG_REPORT_MSG)]
            | _ => []
            end in
          let '(probed, t') := match g with PreZen => ([], t) | _ => probe (zen_name family model) t end in
          (Done (Amd g), warned ++ probed, t')
      | _ => (Failed (str "impossible AMD64 CPU detected (Family " ++ decimal family ++ str " Model " ++ decimal model ++ str "); " ++ BUG_REPORT_MSG), [], t)
      end
    else if beq vendor (str "GenuineIntel") then
      let g := intel_match family model in
      (Done (Intel g),
       match g with
       | UnknownMaybeLakeLike => [really_warn (str "CpuModel::detect: unknown Intel CPU (Family " ++ decimal family ++ str " Model " ++ decimal model ++ str "), assuming Skylake-like; " ++ BUG_REPORT_MSG)]
       | _ => []
       end, t)
    else (Failed (str "cpuid returned unknown CPU vendor " ++ debug_str vendor ++ str "; version=0x" ++ hex_fuel 8 (m_version m) []), [], t).

(** counters.rs:915-935 [irqs_counter_config] with its text *)
Definition irqs_event (model : cpu_model) : outcome perf_event :=
  match irqs_counter_config model with
  | Ok c => Done (4, c)
  | _ => Failed (str "counting IRQs not yet supported on Intel CPUs predating Sandy Bridge; " ++ BUG_REPORT_MSG)
  end.
(** counters.rs:323-346 [Counter::new] *)
Definition new_instructions : outcome Z := with_type_and_hw_id (0, 1).
Definition new_irqs (model : cpu_model) : outcome Z :=
  match irqs_event model with Done ev => with_type_and_hw_id ev | Failed e => Failed e end.
Definition new_raw0420 (model : cpu_model) : outcome Z * list bytes :=
  (with_type_and_hw_id (4, 0x0420),
   match model with
   | Amd Zen => []
   | _ => [really_warn (str "Counter::new: the undocumented `r0420` performance counter has only been observed on AMD Zen CPUs")]
   end).

(** counters.rs:135-147 [Counter::by_name] and the constructors, counters.rs:187-191, 210-218, 238-249,
    272-283: the counter or an error, the warnings, and the time afterwards *)
Definition by_name_io (name : bytes) (t : nat) : outcome counter * list bytes * nat :=
  if beq name (NAME CWallTime) then (Done (WallTime (m_clock m t)), [], S t)
  else if beq name (NAME CInstructions) then
    let '(d, w, t1) := detect_io t in
    match d with
    | Failed e => (Failed e, w, t1)
    | Done _ =>
        match new_instructions with
        | Failed e => (Failed e, w, t1)
        | Done reg => (Done (Instructions reg (read t1 reg)), w, S t1)
        end
    end
  else if beq name (NAME CInstructionsMinusIrqs) then
    let '(d, w, t1) := detect_io t in
    match d with
    | Failed e => (Failed e, w, t1)
    | Done model =>
        match new_instructions with
        | Failed e => (Failed e, w, t1)
        | Done reg =>
            match new_irqs model with
            | Failed e => (Failed e, w, t1)
            | Done irqs =>
                let '(a, b) := read_pair t1 reg irqs in
                (Done (InstructionsMinusIrqs reg irqs (wrapping_sub a b)), w, S (S t1))
            end
        end
    end
  else if beq name (NAME CInstructionsMinusRaw0420) then
    let '(d, w, t1) := detect_io t in
    match d with
    | Failed e => (Failed e, w, t1)
    | Done model =>
        match new_instructions with
        | Failed e => (Failed e, w, t1)
        | Done reg =>
            let '(o, w') := new_raw0420 model in
            match o with
            | Failed e => (Failed e, w ++ w', t1)
            | Done irqs =>
                let '(a, b) := read_pair t1 reg irqs in
                (Done (InstructionsMinusRaw0420 reg irqs (wrapping_sub a b)), w ++ w', S (S t1))
            end
        end
    end
  else (Failed (debug_str name ++ str " is not a valid counter name"), [], t).

(** counters.rs:167-174, 194-196, 221-223, 252-255, 286-288 [since_start] at time [t]; the time since the start of a
    wall clock saturates at zero ([Instant::elapsed]) *)
Definition since_start (c : counter) (t : nat) : Z :=
  match c with
  | WallTime s => wall_since_start (Z.max 0 (m_clock m t - s))
  | Instructions reg s => wrapping_sub (read t reg) s
  | InstructionsMinusIrqs reg irqs s | InstructionsMinusRaw0420 reg irqs s =>
      let '(a, b) := read_pair t reg irqs in wrapping_sub (wrapping_sub a b) s
  end.
End Machine.

(** counters.rs:943-1003: the other platforms.  [x86_64], [linux], [ohos]: the target *)
Definition add_error (msg s : bytes) : bytes := (match msg with [] => [] | _ => msg ++ str "; " end) ++ s.
Definition detect_elsewhere (x86_64 linux ohos : bool) : bytes :=
  let msg := [] in
  let msg := if x86_64 then msg else add_error msg (str "only supported architecture is x86_64") in
  let msg := if linux then msg else add_error msg (str "only supported OS is Linux") in
  if ohos then add_error msg (str "unsupported OHOS environment") else msg.
(** which module [hw] is compiled: counters.rs:306, 941 *)
Definition hw_supported (x86_64 linux ohos : bool) : bool := x86_64 && linux && negb ohos.
Definition by_name_elsewhere (debug_str : bytes -> bytes) (x86_64 linux ohos : bool) (clock : Z) (name : bytes) : outcome counter :=
  if beq name (NAME CWallTime) then Done (WallTime clock)
  else if existsb (beq name) [NAME CInstructions; NAME CInstructionsMinusIrqs; NAME CInstructionsMinusRaw0420] then Failed (detect_elsewhere x86_64 linux ohos)
  else Failed (debug_str name ++ str " is not a valid counter name").
