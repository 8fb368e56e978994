(** Specification of column statistics: what each number says about the values of a column, in terms of the values. *)
From Coq Require Import ZArith.
From Verif Require Import Base M_Decimal M_Float.

Notation val := (gval f64).
(** The values of one kind among the values of a column, in order; integers count as floats. *)
Definition numbers (vs : list val) : list f64 := flat_map (fun v => match v with VInt z => [f_int z] | VFloat f => [f] | _ => [] end) vs.
Definition texts (vs : list val) : list bytes := flat_map (fun v => match v with VStr s => [s] | _ => [] end) vs.
Definition bools (vs : list val) : list bool := flat_map (fun v => match v with VBool b => [b] | _ => [] end) vs.
Definition nils (vs : list val) : list unit := flat_map (fun v => match v with VNil => [tt] | _ => [] end) vs.
(** The values under a key of the maps of a column, and at an index of its arrays. *)
Definition at_key (k : bytes) (vs : list val) : list val :=
  flat_map (fun v => match v with VMap m => match map_get k m with Some x => [x] | None => [] end | _ => [] end) vs.
Definition at_index (i : nat) (vs : list val) : list val :=
  flat_map (fun v => match v with VArr l => match nth_error l i with Some x => [x] | None => [] end | _ => [] end) vs.
(** Values as Go has them: a map has every key once (listed in any order), and a length fits an int. *)
Inductive proper : val -> Prop :=
| pr_nil : proper VNil
| pr_bool : forall b, proper (VBool b)
| pr_int : forall z, proper (VInt z)
| pr_float : forall f, proper (VFloat f)
| pr_str : forall s, (Z.of_nat (length s) <= 9223372036854775807)%Z -> proper (VStr s)
| pr_bytes : forall s, proper (VBytes s)
| pr_arr : forall l, Forall proper l -> proper (VArr l)
| pr_map : forall m, NoDup (map fst m) -> Forall (fun kv => proper (snd kv)) m -> proper (VMap m).

(** The kind of a column is the kind of its first value. *)
Inductive kind : Type := KNull | KBool | KNum | KStr | KObj | KArr.
Definition kind_of (v : val) : kind :=
  match v with VNil | VBytes _ => KNull | VBool _ => KBool | VInt _ | VFloat _ => KNum | VStr _ => KStr | VArr _ => KArr | VMap _ => KObj end.
Definition kind_name (k : kind) : bytes :=
  match k with KNull => bs "null" | KBool => bs "boolean" | KNum => bs "numeric" | KStr => bs "string" | KObj => bs "object" | KArr => bs "array" end.

(** m is one of xs or the bound, and no other of them is less. *)
Definition lowest (bound m : f64) (xs : list f64) : Prop :=
  In m (bound :: xs) /\ forall x, In x (bound :: xs) -> x <> SpecFloat.S754_nan -> f_leb m x = true.
Definition highest (bound m : f64) (xs : list f64) : Prop :=
  In m (bound :: xs) /\ forall x, In x (bound :: xs) -> x <> SpecFloat.S754_nan -> f_leb x m = true.
Definition shortest (n : Z) (ss : list bytes) : Prop := (exists s, In s ss /\ n = Z.of_nat (length s)) /\ forall s, In s ss -> (n <= Z.of_nat (length s))%Z.
Definition longest (n : Z) (ss : list bytes) : Prop := (exists s, In s ss /\ n = Z.of_nat (length s)) /\ forall s, In s ss -> (Z.of_nat (length s) <= n)%Z.
(** The name a text goes by in the frequencies: itself, or its first 40 bytes, its length and its place. *)
Definition label (i : nat) (k : bytes) (name : bytes) : Prop :=
  (length k <= 40)%nat /\ name = k \/
  (40 < length k)%nat /\ name = firstn 40 k ++ bs "... " ++ itoa (Z.of_nat (length k)) ++ bs " chars (" ++ itoa (Z.of_nat i) ++ bs ")".
(** The frequencies are exactly the given counts under these names. *)
Definition labelled (top : list (bytes * Z)) (m : list (bytes * val)) : Prop :=
  (forall i k n, nth_error top i = Some (k, n) -> exists name, label i k name /\ map_get name m = Some (VInt n)) /\
  (forall name x, map_get name m = Some x -> exists i k n, nth_error top i = Some (k, n) /\ label i k name /\ x = VInt n) /\
  length m = length top.

Section Column.
  (** What the libraries answer about texts and numbers: the estimated number of different texts, the most
      frequent texts with their counts; bins, frequencies and median of a sketch. *)
  Variable estimate : list bytes -> Z.
  Variable top_keys : list bytes -> list (bytes * Z).
  Variable sketched : list f64 -> list f64 -> list f64 -> f64 -> Prop.
  Definition floats (l : list f64) : val := VArr (map VFloat l).
  Definition two63 : f64 := f_int 9223372036854775808.

  (** [column k vs m]: the statistics m describe the values vs, whose first is of kind k. *)
  Inductive column : kind -> list val -> list (bytes * val) -> Prop :=
  | col_null : forall vs, column KNull vs [(bs "count", VInt (Z.of_nat (length (nils vs))))]
  | col_bool : forall vs, column KBool vs
      [(bs "count", VInt (Z.of_nat (length (bools vs)))); (bs "falseCount", VInt (Z.of_nat (count_occ Bool.bool_dec (bools vs) false)));
       (bs "trueCount", VInt (Z.of_nat (count_occ Bool.bool_dec (bools vs) true)))]
  | col_num : forall vs lo hi bins freqs med, let xs := numbers vs in
      lowest two63 lo xs -> highest (f_neg two63) hi xs -> sketched xs bins freqs med ->
      column KNum vs ([(bs "count", VInt (Z.of_nat (length xs)));
        (bs "histogram", VMap [(bs "bins", floats bins); (bs "frequencies", floats freqs)]);
        (bs "max", VFloat hi); (bs "mean", VFloat (f_div (fold_left f_add xs (f_int 0)) (f_int (Z.of_nat (length xs)))))] ++
        (if f_eqb med two63 then [] else [(bs "median", VFloat med)]) ++ [(bs "min", VFloat lo)])
  | col_str : forall vs lo hi fs, let ss := texts vs in
      shortest lo ss -> longest hi ss -> (NoDup (map fst (top_keys ss)) -> labelled (top_keys ss) fs) ->
      column KStr vs ([(bs "count", VInt (Z.of_nat (length ss))); (bs "frequencies", VMap fs); (bs "maxLength", VInt hi); (bs "minLength", VInt lo)] ++
        (if (estimate ss =? 0)%Z then [] else [(bs "unique", VInt (estimate ss))]))
  | col_obj : forall vs m, sorted m ->
      (forall k, map_get k m = None <-> at_key k vs = []) ->
      (forall k x, map_get k m = Some x -> exists v r m', at_key k vs = v :: r /\ x = VMap m' /\ column (kind_of v) (v :: r) m') ->
      column KObj vs m
  | col_arr : forall vs ms,
      (forall i, nth_error ms i = None <-> at_index i vs = []) ->
      (forall i x, nth_error ms i = Some x -> exists v r m', at_index i vs = v :: r /\ x = VMap m' /\ column (kind_of v) (v :: r) m') ->
      column KArr vs [(bs "values", VArr ms)].

  (** A row of the report: the statistics of a column with its type, and its key if it has one. *)
  Definition reported (key : option bytes) (k : kind) (m row : list (bytes * val)) : Prop :=
    sorted row /\ map_get (bs "type") row = Some (VStr (kind_name k)) /\
    (forall name, name <> bs "type" -> map_get name row =
      match key with Some x => if beqb name (bs "key") then Some (VStr x) else map_get name m | None => map_get name m end).
  Inductive report : list val -> option (list (list (bytes * val))) -> Prop :=
  | rep_empty : report [] None
  | rep_object : forall m r keys rows, let vs := VMap m :: r in
      (forall i j a b, (i < j)%nat -> nth_error keys i = Some a -> nth_error keys j = Some b -> bcmp a b = Lt) ->
      (forall k, In k keys <-> at_key k vs <> []) ->
      Forall2 (fun k row => exists v l m', at_key k vs = v :: l /\ column (kind_of v) (v :: l) m' /\ reported (Some k) (kind_of v) m' row) keys rows ->
      report vs (Some rows)
  | rep_array : forall l r rows, let vs := VArr l :: r in
      (forall i, nth_error rows i = None <-> at_index i vs = []) ->
      (forall i row, nth_error rows i = Some row -> exists v r' m', at_index i vs = v :: r' /\ column (kind_of v) (v :: r') m' /\ reported None (kind_of v) m' row) ->
      report vs (Some rows)
  | rep_scalar : forall v r m row, kind_of v <> KObj -> kind_of v <> KArr ->
      column (kind_of v) (v :: r) m -> reported None (kind_of v) m row -> report (v :: r) (Some [row]).
End Column.
