(** Specification of CBOR documents (RFC 7049), independent of the reader and the writer. *)
From Verif Require Import Base.
Local Open Scope N_scope.

(** Big-endian value of a list of bytes. *)
Fixpoint value256 (d : bytes) : N := match d with [] => 0 | c :: r => c * 256 ^ N.of_nat (length r) + value256 r end.
Definition byte_list (k : nat) (d : bytes) : Prop := length d = k /\ Forall (fun c => c < 256) d.

(** The head of a data item: major type and argument, in any of the five widths. *)
Inductive head (major n : N) : bytes -> Prop :=
| head_0 : n < 24 -> head major n [major * 32 + n]
| head_1 : forall d, byte_list 1 d -> value256 d = n -> head major n (major * 32 + 24 :: d)
| head_2 : forall d, byte_list 2 d -> value256 d = n -> head major n (major * 32 + 25 :: d)
| head_4 : forall d, byte_list 4 d -> value256 d = n -> head major n (major * 32 + 26 :: d)
| head_8 : forall d, byte_list 8 d -> value256 d = n -> head major n (major * 32 + 27 :: d).

(** A sequence of definite-length chunks of a string of the given major type, each at most 4096 bytes. *)
Inductive chunks (major : N) : bytes -> bytes -> Prop :=
| chunks_nil : chunks major [] []
| chunks_cons : forall h s t b, head major (N.of_nat (length s)) h -> (length s <= N.to_nat 4096)%nat -> chunks major t b ->
    chunks major (s ++ t) (h ++ s ++ b).

(** Later bindings of a key win. *)
Definition map_of {V} (ps : list (bytes * V)) : list (bytes * V) := fold_left (fun acc kv => map_set (fst kv) (snd kv) acc) ps [].

(** Encodings of a value that are valid RFC 7049 and lie within what the reader supports: unsigned integers below 2^63,
    negative integers down to -24 in one byte, strings (or their chunks) of at most 4096 bytes, eight-byte floats,
    definite and indefinite lengths. *)
Inductive cenc : gval N -> bytes -> Prop :=
| cenc_uint : forall n h, head 0 n h -> n < 2 ^ 63 -> cenc (VInt (Z.of_N n)) h
| cenc_nint : forall n, n < 24 -> cenc (VInt (-1 - Z.of_N n)) [32 + n]
| cenc_nil : cenc VNil [246]
| cenc_false : cenc (VBool false) [244]
| cenc_true : cenc (VBool true) [245]
| cenc_float : forall d, byte_list 8 d -> cenc (VFloat (value256 d)) (251 :: d)
| cenc_str : forall s h, head 3 (N.of_nat (length s)) h -> (length s <= N.to_nat 4096)%nat -> cenc (VStr s) (h ++ s)
| cenc_bytes : forall s h, head 2 (N.of_nat (length s)) h -> (length s <= N.to_nat 4096)%nat -> cenc (VBytes s) (h ++ s)
| cenc_str_chunks : forall s b, chunks 3 s b -> cenc (VStr s) (127 :: b ++ [255])
| cenc_bytes_chunks : forall s b, chunks 2 s b -> cenc (VBytes s) (95 :: b ++ [255])
| cenc_arr : forall l h b, head 4 (N.of_nat (length l)) h -> N.of_nat (length l) <= 2 ^ 44 -> cenc_list l b -> cenc (VArr l) (h ++ b)
| cenc_arr_indef : forall l b, cenc_list l b -> cenc (VArr l) (159 :: b ++ [255])
| cenc_map : forall ps h b, head 5 (N.of_nat (length ps)) h -> N.of_nat (length ps) < 2 ^ 63 -> cenc_pairs ps b -> cenc (VMap (map_of ps)) (h ++ b)
| cenc_map_indef : forall ps b, cenc_pairs ps b -> cenc (VMap (map_of ps)) (191 :: b ++ [255])
with cenc_list : list (gval N) -> bytes -> Prop :=
| cenc_list_nil : cenc_list [] []
| cenc_list_cons : forall v l a b, cenc v a -> cenc_list l b -> cenc_list (v :: l) (a ++ b)
with cenc_pairs : list (bytes * gval N) -> bytes -> Prop :=
| cenc_pairs_nil : cenc_pairs [] []
| cenc_pairs_cons : forall k v ps h a b, head 3 (N.of_nat (length k)) h -> (length k <= N.to_nat 4096)%nat ->
    cenc v a -> cenc_pairs ps b -> cenc_pairs ((k, v) :: ps) (h ++ k ++ a ++ b).

(** Values a Go program can hold: int64 integers, 64-bit floats, sizes below 2^44, maps with ascending keys. *)
Fixpoint wf_value (v : gval N) : Prop :=
  match v with
  | VInt z => (- 2 ^ 63 <= z < 2 ^ 63)%Z
  | VFloat b => b < 2 ^ 64
  | VStr s | VBytes s => N.of_nat (length s) < 2 ^ 44
  | VArr l => N.of_nat (length l) < 2 ^ 44 /\ (fix all (l : list (gval N)) := match l with [] => True | x :: r => wf_value x /\ all r end) l
  | VMap m => N.of_nat (length m) < 2 ^ 44 /\ sorted m /\
      (fix all (m : list (bytes * gval N)) := match m with [] => True | x :: r => (N.of_nat (length (fst x)) < 2 ^ 44 /\ wf_value (snd x)) /\ all r end) m
  | _ => True
  end.
(** What survives a round trip: integers of at least -24, strings and keys of at most 4096 bytes. *)
Definition short (s : bytes) : bool := N.of_nat (length s) <=? 4096.
Fixpoint readable (v : gval N) : bool :=
  match v with
  | VInt z => (-24 <=? z)%Z
  | VStr s | VBytes s => short s
  | VArr l => forallb readable l
  | VMap m => forallb (fun kv => short (fst kv) && readable (snd kv)) m
  | _ => true
  end.
(** No byte string anywhere. *)
Fixpoint no_bytes (v : gval N) : bool :=
  match v with
  | VBytes _ => false
  | VArr l => forallb no_bytes l
  | VMap m => forallb (fun kv => no_bytes (snd kv)) m
  | _ => true
  end.

(** Entries of an array, numbered from [i], and of an object. *)
Fixpoint array_entries (i : Z) (vs : list (gval N)) : list (entry N) :=
  match vs with [] => [] | v :: r => mkEntry i [] v :: array_entries (i + 1)%Z r end.
Definition object_entries (m : list (bytes * gval N)) : list (entry N) := map (fun kv => mkEntry 0%Z (fst kv) (snd kv)) m.
(** The longest prefix whose members all satisfy [f]. *)
Fixpoint longest {A} (f : A -> bool) (l : list A) : list A := match l with x :: r => if f x then x :: longest f r else [] | [] => [] end.
Definition readable_pair (kv : bytes * gval N) : bool := short (fst kv) && readable (snd kv).

(** The first value an object writer was given for a key; the empty key is never accepted. *)
Definition first_value (k : bytes) (es : list (entry N)) : option (gval N) :=
  match k with [] => None | _ => option_map e_val (find (fun e => beqb k (e_key e)) es) end.
(** Whether the entry [e] is accepted after the entries [before]. *)
Definition acceptable (obj : bool) (before : list (entry N)) (e : entry N) : Prop :=
  obj = true -> e_key e <> [] /\ ~ In (e_key e) (map e_key before).
