(** UTF-8 by the code points, independent of the decoder's tables. *)
From Verif Require Import Base M_Utf8.

(** A code point that can be encoded: not a surrogate half. *)
Definition scalar (r : N) : Prop := (r < 1114112 /\ ~ (55296 <= r <= 57343))%N.

(** Well-formed text. *)
Definition well_formed (s : bytes) : Prop := exists rs, Forall scalar rs /\ s = flat_map encode_rune rs.

(** [cleaned s s']: s' is s with every byte that does not start an encoded code point replaced by U+FFFD. *)
Inductive cleaned : bytes -> bytes -> Prop :=
| cl_nil : cleaned [] []
| cl_rune : forall r s s', scalar r -> cleaned s s' -> cleaned (encode_rune r ++ s) (encode_rune r ++ s')
| cl_bad : forall c s s', (forall r t, scalar r -> c :: s <> encode_rune r ++ t) -> cleaned s s' ->
    cleaned (c :: s) (encode_rune 65533 ++ s').
