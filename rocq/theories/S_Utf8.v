(** What UTF-8 is.  [utf8] (M_Utf8.v) is RFC 3629's encoding table; a byte string
    is valid iff it is a concatenation of encodings of Unicode scalar values. *)
From Verif Require Import Base M_Utf8.

Definition scalar (c : N) : Prop := is_scalar c = true.

Definition valid_utf8 (v : bytes) : Prop :=
  exists cs, Forall scalar cs /\ v = utf8s cs.

(** [v] is a non-empty proper prefix of the encoding of some character. *)
Definition truncated_char (v : bytes) : Prop :=
  v <> [] /\ exists c t, scalar c /\ t <> [] /\ utf8 c = v ++ t.
