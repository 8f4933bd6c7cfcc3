(** Specification for C40, C45, C52 and C53. *)
From Coq Require Import String ZArith List Lia Bool.
From Verif Require Import M_Base M_Map M_Counters.
Import ListNotations.
Open Scope Z_scope.

(** A 48-bit register that stood at [s] (signed) when the counter was created and has counted [n]
    units since. *)
Definition register (s n : Z) : Z := (s + n) mod 2 ^ 48.
Definition signed48 (s : Z) : Prop := - 2 ^ 47 <= s < 2 ^ 47.

(** The fields of the version word (cpuid leaf 1, eax), as in the vendors' manuals. *)
Definition base_family (v : Z) : Z := v / 2 ^ 8 mod 16.
Definition ext_family (v : Z) : Z := v / 2 ^ 20 mod 256.
Definition base_model (v : Z) : Z := v / 2 ^ 4 mod 16.
Definition ext_model (v : Z) : Z := v / 2 ^ 16 mod 16.
Definition family (v : Z) : Z := if base_family v =? 15 then 15 + ext_family v else base_family v.
Definition amd_model (v : Z) : Z := if 15 <=? family v then 16 * ext_model v + base_model v else base_model v.
Definition intel_model (v : Z) : Z := if (15 <=? family v) || (family v =? 6) then 16 * ext_model v + base_model v else base_model v.
(** The vendor strings as cpuid leaf 0 delivers them. *)
Definition is_amd (ebx edx ecx : Z) : Prop := ebx = 0x68747541 /\ edx = 0x69746e65 /\ ecx = 0x444d4163.
Definition is_intel (ebx edx ecx : Z) : Prop := ebx = 0x756e6547 /\ edx = 0x49656e69 /\ ecx = 0x6c65746e.
(** The classification tables. *)
Definition amd_impossible (f : Z) : Prop := f < 15 \/ f = 19.
Definition amd_table (f m : Z) (g : amd_gen) : Prop :=
  match g with
  | PreZen => 15 <= f <= 22 /\ f <> 19
  | Zen => f = 23 /\ In m [1; 8; 17; 24; 49; 113]
  | UnknownMaybeZenLike => 23 < f \/ f = 23 /\ ~ In m [1; 8; 17; 24; 49; 113]
  end.
Definition old_intel : list Z := [44; 46; 47; 53; 54; 55; 74; 76; 77; 87; 90; 93; 133].
Definition bridges : list Z := [42; 45; 58; 62].
Definition wells : list Z := [60; 61; 63; 69; 70; 71; 79; 86].
Definition lakes : list Z := [78; 85; 94; 142; 158].
Definition intel_table (f m : Z) (g : intel_gen) : Prop :=
  match g with
  | PreBridge => f < 6 \/ f = 15 \/ f = 6 /\ (m < 42 \/ In m old_intel)
  | Bridge => f = 6 /\ In m bridges
  | Well => f = 6 /\ In m wells
  | Lake => f = 6 /\ In m lakes
  | UnknownMaybeLakeLike => 6 < f /\ f <> 15 \/ f = 6 /\ 42 <= m /\ ~ In m (old_intel ++ bridges ++ wells ++ lakes)
  end.

(** ** The page shared with the kernel *)
(** What may happen between two looks at the page: nothing, the kernel increments the [u32] sequence
    number (before and after an update), it writes one field, or it does a whole update in an
    interrupt on the same processor. *)
Inductive kernel_step := Idle | Bump | Write (i : nat) (v : Z) | Interrupt (fields : list Z).
Fixpoint set_nth (i : nat) (v : Z) (l : list Z) : list Z :=
  match l, i with
  | [], _ => []
  | _ :: l', O => v :: l'
  | x :: l', S i' => x :: set_nth i' v l'
  end.
Definition kernel_apply (s : kernel_step) (p : page_state) : page_state :=
  match s with
  | Idle => p
  | Bump => mkPg ((pg_lock p + 1) mod 2 ^ 32) (pg_fields p)
  | Write i v => mkPg (pg_lock p) (set_nth i v (pg_fields p))
  | Interrupt fs => mkPg ((pg_lock p + 2) mod 2 ^ 32) fs
  end.
(** Fields are only written while the sequence number is odd; interrupts find it even. *)
Definition kernel_history (steps : nat -> kernel_step) (page : nat -> page_state) : Prop :=
  0 <= pg_lock (page O) < 2 ^ 32 /\
  forall t, page (S t) = kernel_apply (steps t) (page t) /\
    match steps t with
    | Write _ _ => Z.odd (pg_lock (page t)) = true
    | Interrupt _ => Z.even (pg_lock (page t)) = true
    | _ => True
    end.
(** How often the sequence number is incremented from [t0] on, in [n] steps. *)
Fixpoint increments (steps : nat -> kernel_step) (t0 n : nat) : Z :=
  match n with
  | O => 0
  | S n' => match steps t0 with Bump => 1 | Interrupt _ => 2 | _ => 0 end + increments steps (S t0) n'
  end.
