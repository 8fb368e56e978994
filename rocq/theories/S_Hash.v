(** Base58 texts, padded messages and message schedules. *)
From Verif Require Import Base.
Notation length := List.length.

(** The number a list of digits stands for, most significant first. *)
Definition number (base : N) (l : list N) : N := fold_left (fun a c => (a * base + c)%N) l 0%N.
Definition no_leading_zero (l : list N) : Prop := forall r, l <> 0%N :: r.
(** Digits and letters without 0, O, I and l. *)
Definition chars58 : bytes := bs "123456789ABCDEFGHJKLMNPQRSTUVWXYZabcdefghijkmnopqrstuvwxyz".
Definition digit_char (d c : N) : Prop := nth_error chars58 (N.to_nat d) = Some c.
(** A 1 for each leading zero byte, then the number without leading zeros. *)
Definition base58_text (b t : bytes) : Prop :=
  exists z b' ds t', b = repeat 0%N z ++ b' /\ no_leading_zero b' /\ t = repeat 49%N z ++ t' /\ Forall2 digit_char ds t' /\
  no_leading_zero ds /\ number 58 ds = number 256 b'.
Definition bytes_ok (b : bytes) : Prop := Forall (fun c => (c < 256)%N) b.

(** FIPS 180-4, 5.1.1: a one bit, the fewest zeros, the length in bits, in all a multiple of 64 bytes. *)
Definition padded (m p : bytes) : Prop :=
  exists z len, p = m ++ 128%N :: repeat 0%N z ++ len /\ length len = 8 /\ number 256 len = (8 * N.of_nat (length m))%N /\
  (length p mod 64 = 0)%nat /\ (z < 64)%nat.
(** FIPS 180-4, 6.2.2 step 1 *)
Definition schedule (s0 s1 : N -> N) (block w : list N) : Prop :=
  length w = 64 /\ firstn 16 w = block /\
  forall t, (16 <= t < 64)%nat ->
    nth t w 0%N = ((s1 (nth (t - 2) w 0) + nth (t - 7) w 0 + s0 (nth (t - 15) w 0) + nth (t - 16) w 0) mod 2 ^ 32)%N.
(** FIPS 180-4, 6.2.2 steps 2 to 4, for given functions of words: each of the 64 rounds uses the constant and
    the word of its number. *)
Section Rounds.
  Variables (S0 S1 : N -> N) (ch maj : N -> N -> N -> N).
  Definition eight := (N * N * N * N * N * N * N * N)%type.
  Definition fips_round (v : eight) (kw : N * N) : eight :=
    let '(a, b, c, d, e, f, g, h) := v in
    let t1 := (h + S1 e + ch e f g + fst kw + snd kw)%N in
    let t2 := (S0 a + maj a b c)%N in
    ((t1 + t2) mod 2 ^ 32, a, b, c, (d + t1) mod 2 ^ 32, e, f, g)%N.
  Definition fips_block (ks ws : list N) (v : eight) : eight :=
    let '(a, b, c, d, e, f, g, h) := v in
    let '(a', b', c', d', e', f', g', h') := fold_left fips_round (combine ks ws) v in
    ((a + a') mod 2 ^ 32, (b + b') mod 2 ^ 32, (c + c') mod 2 ^ 32, (d + d') mod 2 ^ 32,
     (e + e') mod 2 ^ 32, (f + f') mod 2 ^ 32, (g + g') mod 2 ^ 32, (h + h') mod 2 ^ 32)%N.
  Inductive fips_blocks (s0 s1 : N -> N) (ks : list N) : list N -> eight -> eight -> Prop :=
  | fb_none : forall v, fips_blocks s0 s1 ks [] v v
  | fb_block : forall block ws rest v v', length block = 16%nat -> schedule s0 s1 block ws ->
      fips_blocks s0 s1 ks rest (fips_block ks ws v) v' -> fips_blocks s0 s1 ks (block ++ rest) v v'.
End Rounds.
(** Four bytes for each word, most significant first. *)
Definition big_endian (ws : list N) (b : bytes) : Prop :=
  exists gs, b = concat gs /\ Forall2 (fun w g => length g = 4%nat /\ Forall (fun c => (c < 256)%N) g /\ number 256 g = w) ws gs.
Definition eight_list (v : eight) : list N := let '(a, b, c, d, e, f, g, h) := v in [a; b; c; d; e; f; g; h].

