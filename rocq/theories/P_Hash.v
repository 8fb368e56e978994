(** C58: hashes of bytes. *)
From Coq Require Import ZArith Lia.
From Verif Require Import Base M_Hash S_Hash L_Hash.
Notation length := List.length.
Open Scope N_scope.

(** Base58 writes each byte string as its one base58 text ... *)
Theorem base58_exact : forall b t, bytes_ok b -> (base58 b = t <-> base58_text b t).
Proof.
  intros b t H. split; [intros <-; apply base58_meets; assumption|]. intros X. eapply base58_text_fun; [apply base58_meets; assumption|assumption].
Qed.
Print Assumptions base58_exact.
(** ... and different byte strings as different texts. *)
Theorem base58_injective : forall a b, bytes_ok a -> bytes_ok b -> base58 a = base58 b -> a = b.
Proof.
  intros a b Ha Hb E. apply (base58_text_inj a b (base58 a) Ha Hb); [apply base58_meets; assumption|rewrite E; apply base58_meets; assumption].
Qed.
Print Assumptions base58_injective.

(** The digest is made as FIPS 180-4 says: padding, message schedules, rounds, for the words' functions and
    constants of the model. *)
Theorem sha256_fips : forall m, bytes_ok m -> N.of_nat (length m) < 2 ^ 61 ->
  exists p ws v, padded m p /\ big_endian ws p /\
  fips_blocks bsig0 bsig1 choose majority ssig0 ssig1 sha_k ws (eight_of sha_init) v /\
  big_endian (eight_list v) (sha256 m) /\ length (sha256 m) = 32%nat.
Proof.
  intros m Hb H. destruct (sha256_meets m Hb H) as [p [ws [v [A [B [C D]]]]]]. exists p, ws, v. repeat split; try assumption.
Qed.
Print Assumptions sha256_fips.

(** A hash is the base58 text of the bytes 18, 32 and the digest. *)
Theorem hash_bytes_multihash : forall m t, hash_bytes m = t <-> base58_text ([18; 32] ++ sha256 m) t.
Proof.
  intros m t. destruct (sha256_ok m) as [A B]. unfold hash_bytes, multihash_sha256. rewrite B. change (N.of_nat 32) with 32. cbn [app].
  apply base58_exact. constructor; [reflexivity|]. constructor; [reflexivity|exact A].
Qed.
Print Assumptions hash_bytes_multihash.
Lemma multihash_eq_iff : forall x y, bytes_ok x /\ length x = 32%nat -> bytes_ok y /\ length y = 32%nat ->
  (base58 (multihash_sha256 x) = base58 (multihash_sha256 y) <-> x = y).
Proof.
  intros x y [A1 A2] [B1 B2]. split; [|intros ->; reflexivity]. intros E. apply base58_injective in E.
  - unfold multihash_sha256 in E. congruence.
  - unfold multihash_sha256. rewrite A2. constructor; [reflexivity|]. constructor; [reflexivity|exact A1].
  - unfold multihash_sha256. rewrite B2. constructor; [reflexivity|]. constructor; [reflexivity|exact B1].
Qed.
(** Two byte strings have the same hash if and only if they have the same digest. *)
Theorem hash_bytes_eq_iff : forall a b, hash_bytes a = hash_bytes b <-> sha256 a = sha256 b.
Proof. intros a b. unfold hash_bytes. apply multihash_eq_iff; apply sha256_ok. Qed.
Print Assumptions hash_bytes_eq_iff.
(** Every hash is 46 digits and letters, and starts with Qm. *)
Theorem hash_bytes_shape : forall m, exists t, hash_bytes m = bs "Qm" ++ t /\ length t = 44%nat /\ forall c, In c t -> In c chars58.
Proof.
  intros m. destruct (sha256_ok m) as [A1 A2].
  destruct (proj1 (hash_bytes_multihash m _) eq_refl) as (z & b & ds & t & E1 & Z1 & E2 & D & Z2 & V).
  assert (z = 0%nat) as -> by (destruct z; [reflexivity|discriminate]). cbn [repeat app] in E1, E2. rewrite E2. clear E2.
  pose proof (number_bound 256 _ A1) as U. rewrite A2 in U. change (N.of_nat 32) with 32 in U.
  rewrite <- E1 in V. change (18 :: 32 :: sha256 m) with ([18; 32] ++ sha256 m) in V. rewrite number_app, A2 in V.
  change (N.of_nat 32) with 32 in V. change (number 256 [18; 32]) with 4640 in V.
  set (x := number 256 (sha256 m)) in *. clearbody x.
  assert (LT := digits_lt _ _ D).
  assert (L : N.of_nat (length ds) = 45 + 1).
  { apply (digits_length 58); [lia|assumption|assumption|]. rewrite V.
    assert (C1 : 58 ^ 45 <= 4640 * 256 ^ 32) by (vm_compute; discriminate).
    assert (C2 : 4641 * 256 ^ 32 <= 58 ^ (45 + 1)) by (vm_compute; discriminate).
    generalize dependent (58 ^ 45). generalize dependent (58 ^ (45 + 1)). generalize dependent (256 ^ 32). intros. lia. }
  destruct ds as [|d1 [|d2 ds]]; [discriminate|discriminate|].
  inversion D as [|? c1 ? t1 D1 D']; subst. inversion D' as [|? c2 ? t2 D2 D'']; subst.
  assert (LD : length ds = 44%nat) by (cbn [length] in L; lia).
  change (d1 :: d2 :: ds) with ([d1; d2] ++ ds) in V. rewrite number_app, LD in V. change (N.of_nat 44) with 44 in V.
  inversion LT as [|? ? l1 LT']; subst. inversion LT' as [|? ? l2 LT'']; subst.
  pose proof (number_bound 58 ds LT'') as U2. rewrite LD in U2. change (N.of_nat 44) with 44 in U2. set (y := number 58 ds) in *. clearbody y.
  assert (Q : number 58 [d1; d2] = 23 * 58 + 44).
  { assert (C1 : (23 * 58 + 44) * 58 ^ 44 <= 4640 * 256 ^ 32) by (vm_compute; discriminate).
    assert (C2 : 4641 * 256 ^ 32 <= (23 * 58 + 45) * 58 ^ 44) by (vm_compute; discriminate).
    set (q := number 58 [d1; d2]) in *. clearbody q.
    assert (P : 0 < 58 ^ 44) by reflexivity.
    generalize dependent (58 ^ 44). generalize dependent (256 ^ 32). intros p2 H1 p1. intros. nia. }
  cbn [number fold_left] in Q. assert (d1 = 23 /\ d2 = 44) as [-> ->] by lia.
  exists t2. split; [|split].
  - unfold digit_char in D1, D2. change (N.to_nat 23) with 23%nat in D1. change (N.to_nat 44) with 44%nat in D2. cbn in D1, D2. inversion D1; inversion D2; subst. reflexivity.
  - rewrite <- LD. clear -D''. induction D''; cbn [length]; congruence.
  - clear -D''. intros c I. induction D'' as [|d e l l' X Y IH]; [destruct I|]. destruct I as [->|I]; [|auto]. eapply nth_error_In. exact X.
Qed.
Print Assumptions hash_bytes_shape.
(** JSONHash hashes the encoding and fails exactly when encoding does. *)
Theorem json_hash_encoding : forall a b h, json_hash a = Ok h -> json_hash b = Ok h ->
  exists da db, a = Ok da /\ b = Ok db /\ sha256 da = sha256 db.
Proof.
  assert (X : forall a h, json_hash a = Ok h -> exists d, a = Ok d /\ hash_bytes d = h).
  { intros a h. unfold json_hash. generalize hash_bytes. intros f. destruct a as [d| | |]; try discriminate. intros [= <-]. exists d. auto. }
  intros a b h Ha Hb. apply X in Ha. apply X in Hb. destruct Ha as [da [-> Ha]]. destruct Hb as [db [-> Hb]].
  exists da, db. split; [reflexivity|]. split; [reflexivity|]. apply hash_bytes_eq_iff. etransitivity; [exact Ha|symmetry; exact Hb].
Qed.
Print Assumptions json_hash_encoding.

(** The test of the project, and another known digest. *)
Example hash_empty : hash_bytes [] = bs "QmdfTbBqBPQ7VNxZEYEj14VmRuZBkqFbiwReogJgS1zR1n".
Proof. vm_compute. reflexivity. Qed.
Example sha256_abc : sha256 (bs "abc") =
  [186; 120; 22; 191; 143; 1; 207; 234; 65; 65; 64; 222; 93; 174; 34; 35; 176; 3; 97; 163; 150; 23; 122; 156; 180; 16; 255; 97; 242; 0; 21; 173].
Proof. vm_compute. reflexivity. Qed.
(** Two blocks. *)
Example sha256_two : firstn 4 (sha256 (bs "abcdbcdecdefdefgefghfghighijhijkijkljklmklmnlmnomnopnopq")) = [36; 141; 106; 97].
Proof. vm_compute. reflexivity. Qed.
Example base58_zeros : base58 [0; 0; 1; 0] = bs "115R".
Proof. vm_compute. reflexivity. Qed.
Example base58_zeros_text : base58_text [0; 0; 1; 0] (bs "115R").
Proof. apply base58_exact; [repeat constructor|]. vm_compute. reflexivity. Qed.
Example hash_differ : hash_bytes [] <> hash_bytes (bs "abc").
Proof. intros H. generalize (proj1 (hash_bytes_eq_iff [] (bs "abc")) H). vm_compute. discriminate. Qed.
