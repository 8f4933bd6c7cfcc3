(** C50: UTF-8 discipline.  [utf8] (S_Utf8.v) is the Unicode definition. *)
From Coq Require Import ZArith List Lia Bool.
From Verif Require Import M_Base F_Base M_Utf8 S_Utf8 F_Utf8.
Import ListNotations.
Open Scope Z_scope.

(** The validity check accepts exactly the encodings of sequences of scalar values. *)
Theorem C50_validation_exact : forall bs, bytes_ok bs -> utf8_valid bs = true <-> utf8 bs.
Proof. exact utf8_valid_iff. Qed.
Print Assumptions C50_validation_exact.

(** Valid strings contain neither of the two bytes the string table uses as markers. *)
Theorem C50_no_marker_bytes : forall s, utf8 s -> ~ In 254 s /\ ~ In 255 s.
Proof.
  intros s H. split; intros Hin; apply (utf8_max s _ H) in Hin; lia.
Qed.
Print Assumptions C50_no_marker_bytes.

(** Closed under concatenation; removing a valid prefix or cutting at an ASCII character preserves
    validity; lossy decoding is the identity on valid strings and always yields a valid string. *)
Theorem C50_concat : forall a b, utf8 a -> (utf8 b <-> utf8 (a ++ b)).
Proof.
  intros a b Ha. split; [apply utf8_app; auto|apply utf8_app_inv; auto].
Qed.
Print Assumptions C50_concat.
Theorem C50_split_ascii : forall a x b, 0 <= x < 128 -> utf8 (a ++ x :: b) -> utf8 a /\ utf8 b.
Proof. exact utf8_split_ascii. Qed.
Print Assumptions C50_split_ascii.
Theorem C50_lossy : forall bs, bytes_ok bs -> utf8 (lossy bs) /\ (utf8 bs -> lossy bs = bs).
Proof. intros bs H. split; [apply lossy_fuel_utf8; auto|apply lossy_id]. Qed.
Print Assumptions C50_lossy.

Example ex_C50 : utf8 [226; 130; 172; 240; 159; 152; 128; 65] /\ utf8_valid [237; 160; 128] = false
  /\ lossy [65; 240; 159; 66] = [65; 239; 191; 189; 66].
Proof.
  split; [|vm_compute; auto]. exists [8364; 128512; 65]. split; [|vm_compute; auto].
  repeat constructor; unfold scalar; lia.
Qed.
