(** Model of package generate: generate/value.go and generate/tabular.go.  The generator of math/rand is a state
    and the functions Intn and NormFloat64 on it; what they return is not modelled. *)
From Verif Require Import Base M_Stream M_Tabular.

Section Generate.
  Variables F R : Type.
  Variable intn : Z -> R -> Z * R.
  Variable norm_float : R -> F * R.
  Notation gval := (gval F).

  (** rand.Rand.Intn panics unless n is positive. *)
  Definition rand_intn (n : Z) (r : R) : res Z * R :=
    if (n <=? 0)%Z then (Panic, r) else let '(i, r') := intn n r in (Ok i, r').
  (** generate/value.go:54 *)
  Definition alpha_numeric : bytes := bs "abcdefghijklmnopqrstuvwxyzABCDEFGHIJKLMNOPQRSTUVWXYZ0123456789".
  (** generate/value.go:59-61, the loop: n runes *)
  Fixpoint gen_runes (n : nat) (r : R) : bytes * R :=
    match n with
    | O => ([], r)
    | S n' =>
        let '(i, r') := intn (Z.of_nat (length alpha_numeric)) r in
        let '(t, r'') := gen_runes n' r' in
        (nth (Z.to_nat i) alpha_numeric 0%N :: t, r'')
    end.
  (** generate/value.go:57-63, String *)
  Definition gen_string (max : Z) (r : R) : res gval * R :=
    match rand_intn max r with
    | (Ok n, r') => let '(t, r'') := gen_runes (Z.to_nat n) r' in (Ok (VStr t), r'')
    | (_, r') => (Panic, r')
    end.
  (** generate/value.go:66-68, Float *)
  Definition gen_float (r : R) : res gval * R := let '(x, r') := norm_float r in (Ok (VFloat x), r').
  (** generate/value.go:71-73, Int *)
  Definition max_int64 : Z := 9223372036854775807.
  Definition gen_int (r : R) : res gval * R := let '(i, r') := intn max_int64 r in (Ok (VInt i), r').
  (** generate/value.go:76-78, Bool; % is the remainder of Go *)
  Definition gen_bool (r : R) : res gval * R := let '(i, r') := intn 1 r in (Ok (VBool (Z.eqb (Z.rem i 2) 0)), r').
  (** generate/value.go:15-30, Value *)
  Definition gen_value (max : Z) (r : R) : res gval * R :=
    let '(i, r') := intn 40 r in
    (if Z.eqb i 0 then (Ok VNil, r')
     else if (0 <? i) && (i <? 10) then gen_int r'
     else if (10 <? i) && (i <? 20) then gen_string max r'
     else if (20 <? i) && (i <? 30) then gen_float r'
     else if (30 <? i) && (i <? 40) then gen_bool r'
     else (Ok VNil, r'))%Z.
  (** generate/value.go:34-53, Type; Object and Array (82-90) are empty *)
  Definition gen_type (max : Z) (t : bytes) (r : R) : res gval * R :=
    if beqb t (bs "string") then gen_string max r
    else if beqb t (bs "boolean") then gen_bool r
    else if beqb t (bs "number") then gen_float r
    else if beqb t (bs "integer") then gen_int r
    else if beqb t (bs "object") then (Ok (VMap []), r)
    else if beqb t (bs "array") then (Ok (VArr []), r)
    else if beqb t (bs "null") then (Ok VNil, r)
    else gen_value max r.

  (** generate/tabular.go:13-42, Config and its options.  [seeded] is rand.New(rand.NewSource(4)). *)
  Record config := mkConfig { cf_random : R; cf_max_len : Z; cf_random_type : bool }.
  Definition default_config (now : R) : config := mkConfig now 64 false.
  Definition assign_seed (seeded : R) (c : config) : config := mkConfig seeded (cf_max_len c) (cf_random_type c).
  Definition assign_max_len (c : config) : config := mkConfig (cf_random c) 8 (cf_random_type c).
  Definition assign_use_random_type (c : config) : config := mkConfig (cf_random c) (cf_max_len c) true.

  (** generate/tabular.go:46-54; the columns' types are all that is used of them *)
  Record generator := mkGen { g_cols : list (column (F := F)); g_rand : R; g_max : Z; g_count : Z }.
  (** generate/tabular.go:61-86, NewTabularGenerator *)
  Definition new_generator (order : list (bytes * gval) -> list (bytes * gval)) (sch : list (bytes * gval)) (now : R) (options : list (config -> config)) : res generator :=
    let cfg := fold_left (fun c opt => opt c) options (default_config now) in
    match columns_from_schema order sch with
    | Ok (cols, _) => Ok (mkGen cols (cf_random cfg) (cf_max_len cfg) 0)
    | Err e => Err e
    | Panic => Panic
    | OutOfFuel => OutOfFuel
    end.
  (** generate/tabular.go:90-93, the values of a row *)
  Fixpoint gen_row (max : Z) (cols : list (column (F := F))) (r : R) : res (list gval) * R :=
    match cols with
    | [] => (Ok [], r)
    | c :: rest =>
        match c_type c with
        | [] => (Panic, r)
        | t :: _ =>
            match gen_type max t r with
            | (Ok v, r') =>
                match gen_row max rest r' with
                | (Ok vs, r'') => (Ok (v :: vs), r'')
                | x => x
                end
            | (_, r') => (Panic, r')
            end
        end
    end.
  (** generate/tabular.go:89-97, ReadEntry *)
  Definition gen_read (g : generator) : res (entry F) * generator :=
    match gen_row (g_max g) (g_cols g) (g_rand g) with
    | (Ok row, r') => (Ok (mkEntry (g_count g) [] (VArr row)), mkGen (g_cols g) r' (g_max g) (g_count g + 1))
    | (_, r') => (Panic, mkGen (g_cols g) r' (g_max g) (g_count g))
    end.
End Generate.
