(** What the JSON reader is expected to make of a value that was written as JSON. *)
From Verif Require Import Base M_Decimal M_Utf8 S_Utf8 S_JsonText.

(** Texts of numbers that are recognisably not integers. *)
Definition has_point (t : bytes) : Prop := exists c, In c t /\ In c [46; 101; 69; 43]%N.
Definition number_text (t : bytes) : Prop :=
  (exists c t', t = c :: t' /\ (c = 45 \/ 48 <= c <= 57)%N) /\
  Forall (fun c => (48 <= c <= 57)%N \/ In c [46; 101; 69; 43; 45]%N) t.

(** Base 64, by the numbers that groups of three bytes and four characters denote. *)
Definition alphabet : bytes := bs "ABCDEFGHIJKLMNOPQRSTUVWXYZabcdefghijklmnopqrstuvwxyz0123456789+/".
Definition sextet (n : N) (c : N) : Prop := nth_error alphabet (N.to_nat n) = Some c.
Inductive base64 : bytes -> bytes -> Prop :=
| b6_nil : base64 [] []
| b6_one : forall a w x cw cx, sextet w cw -> sextet x cx -> (a < 256)%N -> (a * 16 = w * 64 + x)%N -> base64 [a] [cw; cx; 61%N; 61%N]
| b6_two : forall a b w x y cw cx cy, sextet w cw -> sextet x cx -> sextet y cy ->
    (a < 256 /\ b < 256)%N -> ((a * 256 + b) * 4 = (w * 64 + x) * 64 + y)%N -> base64 [a; b] [cw; cx; cy; 61%N]
| b6_three : forall a b c w x y z cw cx cy cz s t, sextet w cw -> sextet x cx -> sextet y cy -> sextet z cz ->
    (a < 256 /\ b < 256 /\ c < 256)%N -> ((a * 256 + b) * 256 + c = ((w * 64 + x) * 64 + y) * 64 + z)%N -> base64 s t ->
    base64 (a :: b :: c :: s) (cw :: cx :: cy :: cz :: t).

Section Back.
  Variable F : Type.
  Variable fmt_float : F -> option bytes.
  Variable parse_float : bytes -> option F.
  Notation gval := (gval F).

  (** What formatting and parsing of floats have to satisfy: a float is written as a plain integer, or
      as a number with a point or an exponent, which parses to the same float. *)
  Definition float_format : Prop := forall f t, fmt_float f = Some t ->
    (has_point t /\ number_text t /\ parse_float t = Some f) \/ (exists z, int_text z t).

  (** [comes_back v v']: reading the JSON of v gives v'.  Floats written as integers become integers if
      they fit, strings have ill-formed bytes replaced, byte slices become base 64 text. *)
  Inductive comes_back : gval -> gval -> Prop :=
  | cb_nil : comes_back VNil VNil
  | cb_bool : forall b, comes_back (VBool b) (VBool b)
  | cb_int : forall z, fits_int64 z -> comes_back (VInt z) (VInt z)
  | cb_float : forall f t, fmt_float f = Some t -> has_point t -> comes_back (VFloat f) (VFloat f)
  | cb_float_int : forall f t z, fmt_float f = Some t -> int_text z t -> fits_int64 z -> comes_back (VFloat f) (VInt z)
  | cb_str : forall s s', cleaned s s' -> comes_back (VStr s) (VStr s')
  | cb_bytes : forall b t, base64 b t -> comes_back (VBytes b) (VStr t)
  | cb_arr : forall l l', Forall2 comes_back l l' -> comes_back (VArr l) (VArr l')
  | cb_map : forall m m', Forall2 (fun kv kv' => cleaned (fst kv) (fst kv') /\ comes_back (snd kv) (snd kv')) m m' ->
      comes_back (VMap m) (object_of F m').

  (** Values that Marshal refuses: they contain a float without a text. *)
  Inductive refused : gval -> Prop :=
  | rf_float : forall f, fmt_float f = None -> refused (VFloat f)
  | rf_arr : forall l v, In v l -> refused v -> refused (VArr l)
  | rf_map : forall m k v, In (k, v) m -> refused v -> refused (VMap m).

  (** Values whose JSON cannot be read: a float written as an integer beyond int64, anywhere but in the
      first element of an array. *)
  Inductive spoiled : gval -> Prop :=
  | sp_float : forall f t z, fmt_float f = Some t -> int_text z t -> ~ fits_int64 z -> spoiled (VFloat f)
  | sp_arr : forall a a' pre pre' v post, comes_back a a' -> Forall2 comes_back pre pre' -> spoiled v ->
      spoiled (VArr (a :: pre ++ v :: post))
  | sp_map : forall pre pre' k v post,
      Forall2 (fun kv kv' => cleaned (fst kv) (fst kv') /\ comes_back (snd kv) (snd kv')) pre pre' -> spoiled v ->
      spoiled (VMap (pre ++ (k, v) :: post)).
End Back.

(** Which WriteEntry calls are accepted, by the keys seen so far. *)
Section History.
  Variable F : Type.
  Variable fmt_float : F -> option bytes.

  (** An array writer refuses what Marshal refuses.  An object writer also refuses the empty key and every
      key it has seen; a key counts as seen even when its value was refused. *)
  Inductive verdict (obj : bool) (seen : list bytes) (e : entry F) : bool -> list bytes -> Prop :=
  | vd_array : obj = false -> ~ refused F fmt_float (e_val e) -> verdict obj seen e true seen
  | vd_array_no : obj = false -> refused F fmt_float (e_val e) -> verdict obj seen e false seen
  | vd_empty : obj = true -> e_key e = [] -> verdict obj seen e false seen
  | vd_seen : obj = true -> e_key e <> [] -> In (e_key e) seen -> verdict obj seen e false seen
  | vd_object_no : obj = true -> e_key e <> [] -> ~ In (e_key e) seen -> refused F fmt_float (e_val e) ->
      verdict obj seen e false (e_key e :: seen)
  | vd_object : obj = true -> e_key e <> [] -> ~ In (e_key e) seen -> ~ refused F fmt_float (e_val e) ->
      verdict obj seen e true (e_key e :: seen).

  Inductive history (obj : bool) : list bytes -> list (entry F) -> list bool -> Prop :=
  | hi_nil : forall seen, history obj seen [] []
  | hi_cons : forall seen seen' e es b l, verdict obj seen e b seen' -> history obj seen' es l ->
      history obj seen (e :: es) (b :: l).

  (** The accepted entries. *)
  Fixpoint kept (es : list (entry F)) (l : list bool) : list (entry F) :=
    match es, l with
    | e :: es, b :: l => if b then e :: kept es l else kept es l
    | _, _ => []
    end.
End History.
