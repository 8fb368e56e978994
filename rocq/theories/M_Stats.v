(** Model of dsstats/stats.go: statistics of the entries of a body. *)
From Coq Require Import ZArith.
From Verif Require Import Base M_Decimal M_Float M_Histo M_Stream.

Notation val := (gval f64).
Notation f_sketch := (sketch f64).
Definition sk32 : f_sketch := mkSk [] 33 0%Z f_max (f_neg f_max).          (* histosketch.New(32), histosketch.go:55-66 *)
Definition sk_add (v : f64) (h : f_sketch) : f_sketch := add_many f64 f_ltb f_leb f_eqb f_add f_sub f_mul f_div f_int f_max v 1 h.
(** histosketch.go:396-399, Median: Quantile(0.4999999) *)
Definition sk_median (h : f_sketch) : res f64 := quantile f64 f_ltb f_eqb f_add f_sub f_mul f_div f_sqrt f_int h (f_lit 9007197453301141 (-54)).
(** histosketch.go:401-410, Read: the frequencies are float64. *)
Definition sk_read (h : f_sketch) : list f64 * list f64 := let '(b, f) := read f64 f_add f_int h in (b, map f_int f).

Section Stats.
  (** github.com/axiomhq/hyperloglog and github.com/dgryski/go-topk: what Estimate and Keys answer after the
      given texts were inserted in this order. *)
  Variable estimate : list bytes -> Z.
  Variable top_keys : list bytes -> list (bytes * Z).

  (** stats.go:167-184, 186-188, 242-244, 299-309, 399-407, 479-483, 514-516: the accumulators.  The typ of a
      numericAcc is never read and left out; the two sketches of a stringAcc are the list of texts inserted. *)
  Inductive acc : Type :=
  | ANull (count : Z)
  | ABool (count trues falses : Z)
  | ANum (count : Z) (min max mean median : f64) (dividers histogram : list f64) (sk : f_sketch)
  | AStr (count minl maxl unique : Z) (freqs : list (bytes * Z)) (seen : list bytes)
  | AObj (children : list (bytes * acc))
  | AArr (children : list acc).

  Definition max_int : Z := 9223372036854775807.
  Definition min_int : Z := -9223372036854775808.
  (** stats.go:294: float64(maxUint >> 1) *)
  Definition max_float : f64 := f_int max_int.
  (** stats.go:167-184, newAccumulator; 313-324, newNumericAcc; 411-419, newStringAcc *)
  Definition new_acc (v : val) : acc :=
    match v with
    | VInt _ | VFloat _ => ANum 0 (f_int max_int) (f_int min_int) (f_int 0) max_float [] [] sk32
    | VStr _ => AStr 0 max_int min_int 0 [] []
    | VBool _ => ABool 0 0 0
    | VMap _ => AObj []
    | VArr _ => AArr []
    | VNil | VBytes _ => ANull 0
    end.
  (** stats.go:330-357, numericAcc.Write after the conversion *)
  Definition write_num (v : f64) (a : acc) : acc :=
    match a with
    | ANum c mn mx mean med d h sk =>
        ANum (c + 1) (if f_ltb v mn then v else mn) (if f_ltb mx v then v else mx) (f_add mean v) med d h (sk_add v sk)
    | _ => a
    end.
  (** stats.go:425-439, stringAcc.Write *)
  Definition write_str (s : bytes) (a : acc) : acc :=
    match a with
    | AStr c mn mx u f seen =>
        let n := Z.of_nat (length s) in
        AStr (c + 1) (if (n <? mn)%Z then n else mn) (if (mx <? n)%Z then n else mx) u f (seen ++ [s])
    | _ => a
    end.
  (** The Write methods: stats.go:215-224 (object; Go visits the keys of the map in any order, here ascending), 264-273
      (array), 330-357, 425-439, 491-500, 524-528. *)
  Fixpoint write (v : val) (a : acc) {struct v} : acc :=
    match v with
    | VMap m =>
        match a with
        | AObj ch =>
            AObj ((fix go (m : list (bytes * val)) (ch : list (bytes * acc)) {struct m} : list (bytes * acc) :=
              match m with
              | [] => ch
              | (k, x) :: m' => go m' (map_set k (write x (match map_get k ch with Some c => c | None => new_acc x end)) ch)
              end) m ch)
        | _ => a
        end
    | VArr l =>
        match a with
        | AArr ch =>
            AArr ((fix go (l : list val) (ch : list acc) {struct l} : list acc :=
              match l with
              | [] => ch
              | x :: l' => match ch with
                           | c :: ch' => write x c :: go l' ch'
                           | [] => write x (new_acc x) :: go l' []
                           end
              end) l ch)
        | _ => a
        end
    | VInt z => write_num (f_int z) a
    | VFloat f => write_num f a
    | VStr s => write_str s a
    | VBool b => match a with ABool c t f => ABool (c + 1) (if b then t + 1 else t) (if b then f else f + 1) | _ => a end
    | VNil => match a with ANull c => ANull (c + 1) | _ => a end
    | VBytes _ => a
    end.

  (** stats.go:466-477, stringAcc.Close: long keys are cut to 40 bytes and numbered. *)
  Definition short_key (i : nat) (k : bytes) : bytes :=
    if (40 <? length k)%nat then firstn 40 k ++ bs "... " ++ itoa (Z.of_nat (length k)) ++ bs " chars (" ++ itoa (Z.of_nat i) ++ bs ")" else k.
  Fixpoint frequencies (i : nat) (top : list (bytes * Z)) (m : list (bytes * Z)) : list (bytes * Z) :=
    match top with
    | [] => m
    | (k, n) :: r => frequencies (S i) r (map_set (short_key i k) n m)
    end.
  (** The Close methods: stats.go:236-240, 286-290, 388-393, 466-477, 512, 536. *)
  Fixpoint close (a : acc) : res acc :=
    match a with
    | ANull _ | ABool _ _ _ => Ok a
    | ANum c mn mx mean _ _ _ sk =>
        match sk_median sk with
        | Ok med => let '(d, h) := sk_read sk in Ok (ANum c mn mx (f_div mean (f_int c)) med d h sk)
        | _ => Panic
        end
    | AStr c mn mx _ _ seen => Ok (AStr c mn mx (estimate seen) (frequencies 0 (top_keys seen) []) seen)
    | AObj ch =>
        match (fix go (ch : list (bytes * acc)) : res (list (bytes * acc)) :=
          match ch with
          | [] => Ok []
          | (k, c) :: r => match close c with
                           | Ok c' => match go r with Ok r' => Ok ((k, c') :: r') | _ => Panic end
                           | _ => Panic
                           end
          end) ch with
        | Ok ch' => Ok (AObj ch')
        | _ => Panic
        end
    | AArr ch =>
        match (fix go (ch : list acc) : res (list acc) :=
          match ch with
          | [] => Ok []
          | c :: r => match close c with
                      | Ok c' => match go r with Ok r' => Ok (c' :: r') | _ => Panic end
                      | _ => Panic
                      end
          end) ch with
        | Ok ch' => Ok (AArr ch')
        | _ => Panic
        end
    end.

  (** The Map methods: stats.go:227-233, 276-283, 360-385, 442-463, 503-509, 531-533.  Go's typed maps and slices
      are generic values here; maps are sorted by key. *)
  Definition floats (l : list f64) : val := VArr (map VFloat l).
  Fixpoint to_map (a : acc) : list (bytes * val) :=
    match a with
    | ANull c => [(bs "count", VInt c)]
    | ABool c t f => [(bs "count", VInt c); (bs "falseCount", VInt f); (bs "trueCount", VInt t)]
    | ANum c mn mx mean med d h _ =>
        if (c =? 0)%Z then [(bs "count", VInt 0)]
        else [(bs "count", VInt c); (bs "histogram", VMap [(bs "bins", floats d); (bs "frequencies", floats h)]);
              (bs "max", VFloat mx); (bs "mean", VFloat mean)] ++
             (if f_eqb med max_float then [] else [(bs "median", VFloat med)]) ++ [(bs "min", VFloat mn)]
    | AStr c mn mx u f _ =>
        if (c =? 0)%Z then [(bs "count", VInt 0)]
        else [(bs "count", VInt c); (bs "frequencies", VMap (map (fun kn => (fst kn, VInt (snd kn))) f));
              (bs "maxLength", VInt mx); (bs "minLength", VInt mn)] ++ (if (u =? 0)%Z then [] else [(bs "unique", VInt u)])
    | AObj ch => map (fun kc => (fst kc, VMap (to_map (snd kc)))) ch
    | AArr ch => [(bs "values", VArr (map (fun c => VMap (to_map c)) ch))]
    end.
  (** The Type methods: stats.go:212, 261, 327, 422, 488, 521. *)
  Definition acc_type (a : acc) : bytes :=
    match a with
    | ANull _ => bs "null" | ABool _ _ _ => bs "boolean" | ANum _ _ _ _ _ _ _ _ => bs "numeric"
    | AStr _ _ _ _ _ _ => bs "string" | AObj _ => bs "object" | AArr _ => bs "array"
    end.
  (** stats.go:126-134, 196-209, 252-258, 545-549: Stats of an object sorts the keys and adds "key"; 83-95: ToMap adds "type". *)
  Definition stat_map (a : acc) : list (bytes * val) := map_set (bs "type") (VStr (acc_type a)) (to_map a).
  Definition keyed_map (kc : bytes * acc) : list (bytes * val) :=
    map_set (bs "type") (VStr (acc_type (snd kc))) (map_set (bs "key") (VStr (fst kc)) (to_map (snd kc))).
  Definition acc_stats (a : option acc) : option (list (list (bytes * val))) :=
    match a with
    | None => None
    | Some (AObj ch) => Some (map keyed_map ch)
    | Some (AArr ch) => Some (map stat_map ch)
    | Some a => Some [stat_map a]
    end.
  (** stats.go:142-148, WriteEntry *)
  Definition write_entry (v : val) (a : option acc) : option acc :=
    Some (write v (match a with Some a => a | None => new_acc v end)).
  (** stats.go:151-156, Close *)
  Definition close_all (a : option acc) : res (option acc) :=
    match a with None => Ok None | Some a => match close a with Ok a' => Ok (Some a') | _ => Panic end end.

  (** stats.go:52-75, CalculateFromEntryReader.  The deferred second Close only changes the accumulator, which is
      not part of the result. *)
  Definition calculate {St : Type} (fuel : nat) (rd : reader f64 St) (s : St) : res (option (list (list (bytes * val)))) * St :=
    match each_entry fuel rd (fun a _ e => (None, write_entry (e_val e) a)) 0 s None with
    | (Ok _, s', a) => (match close_all a with
                        | Ok a' => match close_all a' with Ok _ => Ok (acc_stats a') | _ => Panic end
                        | _ => Panic
                        end, s')
    | (Err e, s', a) => (match close_all a with Ok _ => Err e | _ => Panic end, s')
    | (Panic, s', _) => (Panic, s')
    | (OutOfFuel, s', _) => (OutOfFuel, s')
    end.
End Stats.
