(** Model of measureme/src/counters.rs (cited as counters.rs).

    Not modelled: the system calls and the assembly instructions themselves ([perf_event_open],
    [mmap], [cpuid], [rdpmc], [Instant::now]); what they return is an input here.  The log messages
    and the [SpecLockMap] probe, which only logs, are left out here (they are in M_HwCounter.v, C79). *)
From Coq Require Import String ZArith List Lia Bool.
From Verif Require Import M_Base M_Utf8 M_Map.
Import ListNotations.
Open Scope Z_scope.

(** ** Machine integers *)
(** [v as i64] of a [u64] *)
Definition as_i64 (v : Z) : Z := if v <? 2 ^ 63 then v else v - 2 ^ 64.
(** [v as u64] of an [i64] *)
Definition as_u64 (v : Z) : Z := v mod 2 ^ 64.
(** [x << n] and [x >> n] on [i64] (arithmetic shift) *)
Definition i64_shl (x n : Z) : Z := as_i64 (as_u64 (x * 2 ^ n)).
Definition i64_shr (x n : Z) : Z := x / 2 ^ n.
(** [u64::wrapping_sub] *)
Definition wrapping_sub (a b : Z) : Z := (a - b) mod 2 ^ 64.

(** ** Reading a hardware counter *)
(** counters.rs:605: [lo as u64 | (hi as u64) << 32] of the two 32-bit halves *)
Definition rdpmc_value (lo hi : Z) : Z := lo + hi * 2 ^ 32.
(** counters.rs:475-497 [read] with [offset = 0], [pmc_width = 48] (the other branch is disabled by
    [&& false]) and counters.rs:504-519 for the pair *)
Definition hw_read (counter : Z) : Z := as_u64 (i64_shr (i64_shl (0 + as_i64 counter) (64 - 48)) (64 - 48)).
(** counters.rs:194-196 [WallTime::since_start]: [as_nanos() as u64] *)
Definition wall_since_start (elapsed_nanos : Z) : Z := as_u64 elapsed_nanos.
(** counters.rs:207-224 [Instructions]: [start] is what was read at creation *)
Definition instructions_start (r : Z) : Z := hw_read r.
Definition instructions_since_start (start r : Z) : Z := wrapping_sub (hw_read r) start.
(** counters.rs:235-256 [InstructionsMinusIrqs] (also counters.rs:272-288 for r0420) *)
Definition irqs_start (r_instructions r_irqs : Z) : Z := wrapping_sub (hw_read r_instructions) (hw_read r_irqs).
Definition irqs_since_start (start r_instructions r_irqs : Z) : Z :=
  wrapping_sub (wrapping_sub (hw_read r_instructions) (hw_read r_irqs)) start.

(** counters.rs:408-436: the checks after mapping the page; the result is the register index *)
Definition open_counter (cap_user_rdpmc index pmc_width : Z) : res Z :=
  if cap_user_rdpmc =? 0 then Err
  else if index =? 0 then Err
  else if negb (pmc_width =? 48) then Err
  else Ok (index - 1).

(** ** CPU models *)
(** counters.rs:615-625 *)
Inductive amd_gen := PreZen | Zen | UnknownMaybeZenLike.
(** counters.rs:627-687 *)
Inductive intel_gen := PreBridge | Bridge | Well | Lake | UnknownMaybeLakeLike.
Inductive cpu_model := Amd (g : amd_gen) | Intel (g : intel_gen).
(** [(w >> sh) & mask] on [u32] *)
Definition bits (w sh mask : Z) : Z := Z.land (Z.shiftr w sh) mask.
Definition among (x : Z) (l : list Z) : bool := existsb (Z.eqb x) l.
(** counters.rs:729-767: the [match] for AMD, arms in order *)
Definition amd_match (family model : Z) : res amd_gen :=
  if ((0 <=? family) && (family <=? 14)) || (family =? 19) then Err
  else if family =? 15 then Ok PreZen
  else if family =? 16 then Ok PreZen
  else if family =? 17 then Ok PreZen
  else if family =? 18 then Ok PreZen
  else if family =? 20 then Ok PreZen
  else if family =? 21 then Ok PreZen
  else if family =? 22 then Ok PreZen
  else if (family =? 23) && (model =? 1) then Ok Zen
  else if (family =? 23) && (model =? 17) then Ok Zen
  else if (family =? 23) && (model =? 24) then Ok Zen
  else if (family =? 23) && (model =? 8) then Ok Zen
  else if (family =? 23) && (model =? 49) then Ok Zen
  else if (family =? 23) && (model =? 113) then Ok Zen
  else Ok UnknownMaybeZenLike.
(** counters.rs:842-896: the [match] for Intel, arms in order *)
Definition intel_match (family model : Z) : intel_gen :=
  if (0 <=? family) && (family <=? 5) then PreBridge
  else if family =? 15 then PreBridge
  else if (family =? 6) && ((0 <=? model) && (model <=? 41)) then PreBridge
  else if (family =? 6) && (model =? 87) then PreBridge
  else if (family =? 6) && (model =? 133) then PreBridge
  else if (family =? 6) && among model [53; 54] then PreBridge
  else if (family =? 6) && among model [55; 74; 77; 90; 93] then PreBridge
  else if (family =? 6) && (model =? 76) then PreBridge
  else if (family =? 6) && (model =? 44) then PreBridge
  else if (family =? 6) && (model =? 46) then PreBridge
  else if (family =? 6) && (model =? 47) then PreBridge
  else if (family =? 6) && (model =? 42) then Bridge
  else if (family =? 6) && (model =? 45) then Bridge
  else if (family =? 6) && (model =? 58) then Bridge
  else if (family =? 6) && (model =? 62) then Bridge
  else if (family =? 6) && (model =? 60) then Well
  else if (family =? 6) && (model =? 61) then Well
  else if (family =? 6) && (model =? 63) then Well
  else if (family =? 6) && (model =? 69) then Well
  else if (family =? 6) && (model =? 70) then Well
  else if (family =? 6) && (model =? 71) then Well
  else if (family =? 6) && (model =? 79) then Well
  else if (family =? 6) && (model =? 86) then Well
  else if (family =? 6) && (model =? 78) then Lake
  else if (family =? 6) && (model =? 85) then Lake
  else if (family =? 6) && (model =? 94) then Lake
  else if (family =? 6) && (model =? 142) then Lake
  else if (family =? 6) && (model =? 158) then Lake
  else UnknownMaybeLakeLike.
(** counters.rs:692-721: vendor, family and model; [u32] additions (no overflow is possible, see
    C45_fields) *)
Definition vendor_of (ebx edx ecx : Z) : bytes := le_bytes 4 ebx ++ le_bytes 4 edx ++ le_bytes 4 ecx.
Definition family_of (version : Z) : Z :=
  let family := bits version 8 0xf in
  if family =? 15 then family + bits version 20 0xff else family.
Definition model_of (vendor : bytes) (version : Z) : Z :=
  let family := family_of version in
  let model := bits version 4 0xf in
  if (15 <=? family) || beq vendor (str "GenuineIntel") && (family =? 6) then model + Z.shiftl (bits version 16 0xf) 4 else model.
(** counters.rs:691-911 [CpuModel::detect] *)
Definition detect (ebx edx ecx version : Z) : res cpu_model :=
  let vendor := vendor_of ebx edx ecx in
  if negb (utf8_valid vendor) then Err
  else
    let family := family_of version in
    let model := model_of vendor version in
    if beq vendor (str "AuthenticAMD") then do g <- amd_match family model; Ok (Amd g)
    else if beq vendor (str "GenuineIntel") then Ok (Intel (intel_match family model))
    else Err.
(** counters.rs:915-935 [irqs_counter_config] *)
Definition irqs_counter_config (m : cpu_model) : res Z :=
  match m with
  | Amd PreZen => Ok 0x00cf
  | Amd Zen => Ok 0x002c
  | Amd UnknownMaybeZenLike => Ok 0x002c
  | Intel PreBridge => Err
  | Intel _ => Ok 0x01cb
  end.

(** ** Counters by name *)
Inductive counter_kind := CWallTime | CInstructions | CInstructionsMinusIrqs | CInstructionsMinusRaw0420.
(** counters.rs:185, 208, 236, 270: the [NAME]s *)
Definition NAME (k : counter_kind) : bytes :=
  match k with
  | CWallTime => str "wall-time"
  | CInstructions => str "instructions:u"
  | CInstructionsMinusIrqs => str "instructions-minus-irqs:u"
  | CInstructionsMinusRaw0420 => str "instructions-minus-r0420:u"
  end.
(** counters.rs:327-345: the perf events a counter opens, (type, config): PERF_TYPE_HARDWARE = 0,
    PERF_TYPE_RAW = 4, PERF_COUNT_HW_INSTRUCTIONS = 1 (linux/perf_event.h) *)
Definition events_of (k : counter_kind) (m : cpu_model) : res (list (Z * Z)) :=
  match k with
  | CWallTime => Ok []
  | CInstructions => Ok [(0, 1)]
  | CInstructionsMinusIrqs => do c <- irqs_counter_config m; Ok [(0, 1); (4, c)]
  | CInstructionsMinusRaw0420 => Ok [(0, 1); (4, 0x0420)]
  end.
(** counters.rs:135-147 [Counter::by_name]; [make] stands for the constructors *)
Definition by_name {A} (make : counter_kind -> res A) (name : bytes) : res A :=
  if beq name (NAME CWallTime) then make CWallTime
  else if beq name (NAME CInstructions) then make CInstructions
  else if beq name (NAME CInstructionsMinusIrqs) then make CInstructionsMinusIrqs
  else if beq name (NAME CInstructionsMinusRaw0420) then make CInstructionsMinusRaw0420
  else Err.
(** counters.rs:149-164 [describe_as_json] *)
Definition quote : bytes := [34].
Definition describe_as_json (k : counter_kind) : bytes :=
  let units := match k with
    | CWallTime => str "[[""ns"", 1], [""μs"", 1000], [""ms"", 1000000], [""s"", 1000000000]]"
    | _ => str "[[""instructions"", 1]]"
    end in
  str "{ ""name"": """ ++ NAME k ++ str """, ""units"": " ++ units ++ str " }".

(** ** The sequence lock *)
(** counters.rs:443-469 [access_mmap_page_with_seqlock].  The mapped page as the thread sees it at
    successive points in time; [attempt] reads some fields one after another.  One iteration of the
    loop: read [lock] at time [t0], then the fields at later times, then [lock] again. *)
Record page_state := mkPg { pg_lock : Z; pg_fields : list Z }.
(** counters.rs:455-468: one iteration; [times] are the instants of the individual field reads,
    [fs] which fields are read; [None]: try again *)
Definition seqlock_attempt (page : nat -> page_state) (t0 : nat) (reads : list (nat * nat)) (t1 : nat) : option (list (option Z)) :=
  let seq_lock := pg_lock (page t0) in
  let result := map (fun r => nth_error (pg_fields (page (fst r))) (snd r)) reads in
  if pg_lock (page t1) =? seq_lock then Some result else None.
