(** Event id texts. *)
From Coq Require Import ZArith List Lia Bool.
From Verif Require Import M_Base.
Import ListNotations.
Open Scope Z_scope.

(** ASCII control characters: 0-31 and 127. *)
Definition control (b : Z) : Prop := 0 <= b <= 31 \/ b = 127.
(** White space in the sense of [u8::is_ascii_whitespace]: tab, LF, FF, CR (and space). *)
Definition rust_space (b : Z) : Prop := b = 9 \/ b = 10 \/ b = 12 \/ b = 13 \/ b = 32.
(** White space in the sense of [[:space:]], as in the grammar documented in event_id.rs:5-12: also
    vertical tab. *)
Definition posix_space (b : Z) : Prop := rust_space b \/ b = 11.

(** A text that can be a label or an argument. *)
Definition good_text (t : bytes) : Prop := t <> [] /\ forall b, In b t -> control b -> rust_space b.
(** <text> of the documented grammar. *)
Definition doc_text (t : bytes) : Prop := t <> [] /\ forall b, In b t -> control b -> posix_space b.

(** <event_id> = <label> {'\x1E' <text>} *)
Definition join (label : bytes) (args : list bytes) : bytes :=
  label ++ flat_map (fun a => 30 :: a) args.
