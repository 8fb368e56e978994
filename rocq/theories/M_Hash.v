(** Model of hash.go: HashBytes and JSONHash, with the functions they call: crypto/sha256 (FIPS 180-4),
    multihash.Encode of github.com/multiformats/go-multihash and base58.Encode of github.com/mr-tron/base58.
    The last three are not part of /repo and are written from their documentation. *)
From Verif Require Import Base.

(** ** SHA-256.  Words are numbers below 2^32. *)
Definition word (x : N) : N := N.land x 4294967295.
Definition add32 (a b : N) : N := word (a + b).
Definition rotr (n x : N) : N := N.lor (N.shiftr x n) (word (N.shiftl x (32 - n))).
Definition bsig0 (x : N) : N := N.lxor (N.lxor (rotr 2 x) (rotr 13 x)) (rotr 22 x).
Definition bsig1 (x : N) : N := N.lxor (N.lxor (rotr 6 x) (rotr 11 x)) (rotr 25 x).
Definition ssig0 (x : N) : N := N.lxor (N.lxor (rotr 7 x) (rotr 18 x)) (N.shiftr x 3).
Definition ssig1 (x : N) : N := N.lxor (N.lxor (rotr 17 x) (rotr 19 x)) (N.shiftr x 10).
Definition choose (x y z : N) : N := N.lxor (N.land x y) (N.land (N.lxor x 4294967295) z).
Definition majority (x y z : N) : N := N.lxor (N.lxor (N.land x y) (N.land x z)) (N.land y z).
(** Fractional parts of the cube roots of the first 64 primes, and of the square roots of the first 8. *)
Definition sha_k : list N :=
  [1116352408; 1899447441; 3049323471; 3921009573; 961987163; 1508970993; 2453635748; 2870763221;
   3624381080; 310598401; 607225278; 1426881987; 1925078388; 2162078206; 2614888103; 3248222580;
   3835390401; 4022224774; 264347078; 604807628; 770255983; 1249150122; 1555081692; 1996064986;
   2554220882; 2821834349; 2952996808; 3210313671; 3336571891; 3584528711; 113926993; 338241895;
   666307205; 773529912; 1294757372; 1396182291; 1695183700; 1986661051; 2177026350; 2456956037;
   2730485921; 2820302411; 3259730800; 3345764771; 3516065817; 3600352804; 4094571909; 275423344;
   430227734; 506948616; 659060556; 883997877; 958139571; 1322822218; 1537002063; 1747873779;
   1955562222; 2024104815; 2227730452; 2361852424; 2428436474; 2756734187; 3204031479; 3329325298]%N.
Record sha_state := mkSha { h0 : N; h1 : N; h2 : N; h3 : N; h4 : N; h5 : N; h6 : N; h7 : N }.
Definition sha_init : sha_state :=
  mkSha 1779033703 3144134277 1013904242 2773480762 1359893119 2600822924 528734635 1541459225.
(** One round; the next sixteen words of the message schedule are in [w]. *)
Definition sha_round (st : sha_state * list N) (k : N) : sha_state * list N :=
  let '(s, w) := st in
  match w with
  | w0 :: rest =>
      let t1 := add32 (add32 (add32 (add32 (h7 s) (bsig1 (h4 s))) (choose (h4 s) (h5 s) (h6 s))) k) w0 in
      let t2 := add32 (bsig0 (h0 s)) (majority (h0 s) (h1 s) (h2 s)) in
      let w16 := add32 (add32 (add32 (ssig1 (nth 14 w 0%N)) (nth 9 w 0%N)) (ssig0 (nth 1 w 0%N))) w0 in
      (mkSha (add32 t1 t2) (h0 s) (h1 s) (h2 s) (add32 (h3 s) t1) (h4 s) (h5 s) (h6 s), rest ++ [w16])
  | [] => (s, [])
  end.
Definition sha_block (s : sha_state) (w : list N) : sha_state :=
  let '(t, _) := fold_left sha_round sha_k (s, w) in
  mkSha (add32 (h0 s) (h0 t)) (add32 (h1 s) (h1 t)) (add32 (h2 s) (h2 t)) (add32 (h3 s) (h3 t))
        (add32 (h4 s) (h4 t)) (add32 (h5 s) (h5 t)) (add32 (h6 s) (h6 t)) (add32 (h7 s) (h7 t)).
(** Four bytes as a word, a word as four bytes, big endian. *)
Fixpoint words (l : bytes) : list N :=
  match l with
  | a :: b :: c :: d :: r => (((a * 256 + b) * 256 + c) * 256 + d)%N :: words r
  | _ => []
  end.
Definition word_bytes (x : N) : bytes :=
  [x / 16777216 mod 256; x / 65536 mod 256; x / 256 mod 256; x mod 256]%N.
(** The message with a one bit, zeros, and its length in bits as eight bytes. *)
Definition sha_pad (m : bytes) : bytes :=
  let n := N.of_nat (length m) in
  m ++ [128%N] ++ repeat 0%N (N.to_nat ((119 - n mod 64) mod 64)) ++
  word_bytes (n * 8 / 4294967296) ++ word_bytes (n * 8 mod 4294967296).
(** The blocks of sixteen words; [fuel] is at least their number. *)
Fixpoint sha_blocks (fuel : nat) (s : sha_state) (w : list N) : sha_state :=
  match fuel, w with
  | S f, _ :: _ => sha_blocks f (sha_block s (firstn 16 w)) (skipn 16 w)
  | _, _ => s
  end.
(** sha256.New, Write, Sum *)
Definition sha256 (m : bytes) : bytes :=
  let s := sha_blocks (S (length m)) sha_init (words (sha_pad m)) in
  word_bytes (h0 s) ++ word_bytes (h1 s) ++ word_bytes (h2 s) ++ word_bytes (h3 s) ++
  word_bytes (h4 s) ++ word_bytes (h5 s) ++ word_bytes (h6 s) ++ word_bytes (h7 s).

(** ** multihash.Encode(digest, multihash.SHA2_256): code and length, each one byte, then the digest *)
Definition multihash_sha256 (digest : bytes) : bytes := 18%N :: N.of_nat (length digest) :: digest.

(** ** base58.Encode.  The digits are kept least significant first; the array of the Go code, whose size is
    an upper bound of their number, is a list that grows. *)
Definition base58_alphabet : bytes := bs "123456789ABCDEFGHJKLMNPQRSTUVWXYZabcdefghijkmnopqrstuvwxyz".
(** The carry left when the digits are used up; it is below 256. *)
Definition push_carry (c : N) : list N :=
  (if N.eqb c 0 then [] else if c <? 58 then [c] else [c mod 58; c / 58])%N.
(** Multiplies the number by 256 and adds [c]. *)
Fixpoint shift_in (c : N) (digits : list N) : list N :=
  match digits with
  | [] => push_carry c
  | d :: r => let x := (c + 256 * d)%N in (x mod 58)%N :: shift_in (x / 58)%N r
  end.
Fixpoint leading_zeros (b : bytes) : nat :=
  match b with c :: r => if N.eqb c 0 then S (leading_zeros r) else O | [] => O end.
Definition base58 (b : bytes) : bytes :=
  let z := leading_zeros b in
  let digits := fold_left (fun ds c => shift_in c ds) (skipn z b) [] in
  repeat 49%N z ++ map (fun d => nth (N.to_nat d) base58_alphabet 0%N) (rev digits).

(** hash.go:30-44, HashBytes.  Neither the hash nor multihash.Encode can fail here. *)
Definition hash_bytes (data : bytes) : bytes := base58 (multihash_sha256 (sha256 data)).
(** hash.go:16-23, JSONHash of a value whose MarshalJSON has the outcome [m] *)
Definition json_hash (m : res bytes) : res bytes :=
  match m with Ok data => Ok (hash_bytes data) | Err e => Err e | Panic => Panic | OutOfFuel => OutOfFuel end.
