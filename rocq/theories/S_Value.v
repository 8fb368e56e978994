(** What reading, converting and comparing Values should give, without reference to the functions of the
    model. *)
From Coq Require Import ZArith List.
From Verif Require Import Base M_Decimal S_Utf8 S_JsonText S_NDJson M_Vals S_Vals M_Value.

(** JSON texts as trees in which numbers are still text: [stext bytes Some]. *)
Notation jtree := (gval bytes).
Notation tree_text := (stext bytes (@Some bytes)).
Definition container (g : jtree) : Prop := match g with VArr _ | VMap _ => True | _ => False end.
Definition spaces (w : bytes) : Prop := Forall (fun c => c = 32%N \/ c = 10%N) w.

Section Read.
  Variable F : Type.
  Variable parse_float : bytes -> option F.
  Variable float32_ok : bytes -> bool.
  Variable depth : nat.
  Notation value := (value F).

  (** [reads g v]: v is the Value of the tree g.  A number is an Integer if its text has only digits after
      the sign, otherwise a Number; numbers that do not fit are no Value. *)
  Inductive reads : jtree -> value -> Prop :=
  | rd_null : reads VNil (XNull true)
  | rd_bool : forall b, reads (VBool b) (XBool b)
  | rd_int : forall t z, float32_ok t = true -> integer_text t z -> int64 z -> reads (VFloat t) (XInt z)
  | rd_num : forall t f, float32_ok t = true -> (forall z, ~ integer_text t z) -> parse_float t = Some f -> reads (VFloat t) (XNum f)
  | rd_str : forall s, reads (VStr s) (XStr s)
  | rd_arr : forall l vs, Forall2 reads l vs -> reads (VArr l) (XArr vs)
  | rd_obj : forall m o, Forall2 (fun kv kv' => fst kv = fst kv' /\ reads (snd kv) (snd kv')) m o -> reads (VMap m) (XObj o).

  (** [document data v]: data is the text of an array or object v, after spaces and line breaks and before
      any blanks. *)
  Definition document (data : bytes) (v : value) : Prop :=
    exists w1 t w2 g, spaces w1 /\ blank w2 /\ data = w1 ++ t ++ w2 /\ tree_text depth g t /\ container g /\ reads g v.
  (** [scalar_document data v]: data is the text of a scalar v.  Blanks are allowed around strings only;
      a null with blanks around it is an empty string. *)
  Inductive scalar_document : bytes -> value -> Prop :=
  | sd_plain : forall t g v, tree_text depth g t -> ~ container g -> reads g v -> scalar_document t v
  | sd_string : forall w1 w2 t s, blank w1 -> blank w2 -> tree_text depth (VStr s) t -> scalar_document (w1 ++ t ++ w2) (XStr s)
  | sd_null : forall w1 w2, blank w1 -> blank w2 -> w1 ++ w2 <> [] -> scalar_document (w1 ++ bs "null" ++ w2) (XStr []).

  (** [converts d v]: v is the Value of the decoded d.  Arrays and objects are behind pointers. *)
  Inductive converts : decoded F -> value -> Prop :=
  | cv_nil : converts DNil (XNull true)
  | cv_uint : forall n z, int64 z -> (exists k, Z.of_N n = z + k * 2 ^ 64)%Z -> converts (DUint n) (XInt z)
  | cv_int : forall z, converts (DInt z) (XInt z)
  | cv_float : forall f, converts (DFloat f) (XNum f)
  | cv_str : forall s, converts (DStr s) (XStr s)
  | cv_bool : forall b, converts (DBool b) (XBool b)
  | cv_arr : forall l vs, Forall2 converts l vs -> converts (DArr l) (XPtr (XArr vs))
  | cv_map : forall m o, Forall2 (fun kd kv => fst kd = fst kv /\ converts (snd kd) (snd kv)) m o ->
      converts (DMap m) (XPtr (XObj (fold_left (fun o kv => map_set (fst kv) (snd kv) o) o [])))
  | cv_any : forall m o, Forall2 (fun kd kv => fst kd = DStr (fst kv) /\ converts (snd kd) (snd kv)) m o ->
      converts (DAny m) (XPtr (XObj (fold_left (fun o kv => map_set (fst kv) (snd kv) o) o []))).

  (** [alike a b]: a and b are built the same way, up to equality of numbers. *)
  Variable feq : F -> F -> bool.
  Inductive alike : value -> value -> Prop :=
  | al_null : forall b, alike (XNull b) (XNull b)
  | al_bool : forall b, alike (XBool b) (XBool b)
  | al_int : forall z, alike (XInt z) (XInt z)
  | al_num : forall f g, feq f g = true -> alike (XNum f) (XNum g)
  | al_str : forall s, alike (XStr s) (XStr s)
  | al_arr : forall l l', Forall2 alike l l' -> alike (XArr l) (XArr l')
  | al_obj : forall m m', Forall2 (fun kv kv' => fst kv = fst kv' /\ alike (snd kv) (snd kv')) m m' -> alike (XObj m) (XObj m')
  | al_ptr : forall a b, alike a b -> alike (XPtr a) (XPtr b)
  | al_keyed : forall k a b, alike a b -> alike (XKeyed k a) (XKeyed k b).
  (** [stands v w]: w is the Value that v, perhaps through pointers and keys, stands for. *)
  Inductive stands : value -> value -> Prop :=
  | sf_here : forall v, (forall w, v <> XPtr w) -> (forall k w, v <> XKeyed k w) -> stands v v
  | sf_ptr : forall v w, stands v w -> stands (XPtr v) w
  | sf_keyed : forall k v w, stands v w -> stands (XKeyed k v) w.
  (** Equal arrays and objects are built the same way; equal scalars have the same content. *)
  Inductive equals : value -> value -> Prop :=
  | eq_deep : forall a b x y, stands a x -> stands b y ->
      (exists l l', x = XArr l /\ y = XArr l') \/ (exists m m', x = XObj m /\ y = XObj m') -> alike a b -> equals a b
  | eq_null : forall a b x y, stands a (XNull x) -> stands b (XNull y) -> equals a b
  | eq_bool : forall a b x, stands a (XBool x) -> stands b (XBool x) -> equals a b
  | eq_int : forall a b z, stands a (XInt z) -> stands b (XInt z) -> equals a b
  | eq_num : forall a b f g, stands a (XNum f) -> stands b (XNum g) -> feq f g = true -> equals a b
  | eq_str : forall a b s, stands a (XStr s) -> stands b (XStr s) -> equals a b.
  (** The numbers in a value satisfy P. *)
  Inductive numbers (P : F -> Prop) : value -> Prop :=
  | nb_null : forall b, numbers P (XNull b)
  | nb_bool : forall b, numbers P (XBool b)
  | nb_int : forall z, numbers P (XInt z)
  | nb_num : forall f, P f -> numbers P (XNum f)
  | nb_str : forall s, numbers P (XStr s)
  | nb_arr : forall l, Forall (numbers P) l -> numbers P (XArr l)
  | nb_obj : forall m, Forall (fun kv => numbers P (snd kv)) m -> numbers P (XObj m)
  | nb_ptr : forall v, numbers P v -> numbers P (XPtr v)
  | nb_keyed : forall k v, numbers P v -> numbers P (XKeyed k v).

  (** [shallow d v]: v is nested at most d deep. *)
  Inductive shallow : nat -> value -> Prop :=
  | sh_null : forall d b, shallow d (XNull b)
  | sh_bool : forall d b, shallow d (XBool b)
  | sh_int : forall d z, shallow d (XInt z)
  | sh_num : forall d f, shallow d (XNum f)
  | sh_str : forall d s, shallow d (XStr s)
  | sh_arr : forall d l, Forall (shallow d) l -> shallow (S d) (XArr l)
  | sh_obj : forall d m, Forall (fun kv => shallow d (snd kv)) m -> shallow (S d) (XObj m).
  (** Values that their own JSON text gives back: valid UTF-8, integers of 64 bits, and numbers whose text
      does not look like an integer.  [fmt_float] prints numbers. *)
  Variable fmt_float : F -> option bytes.
  Inductive returnable : value -> Prop :=
  | rt_null : returnable (XNull true)
  | rt_bool : forall b, returnable (XBool b)
  | rt_int : forall z, int64 z -> float32_ok (itoa z) = true -> returnable (XInt z)
  | rt_num : forall f t, fmt_float f = Some t -> float32_ok t = true -> (forall z, ~ integer_text t z) -> returnable (XNum f)
  | rt_str : forall s, well_formed s -> returnable (XStr s)
  | rt_arr : forall l, Forall returnable l -> returnable (XArr l)
  | rt_obj : forall m, sorted m -> Forall (fun kv => well_formed (fst kv) /\ returnable (snd kv)) m -> returnable (XObj m).

  (** Steps into arrays and objects, through trees and through Values. *)
  Inductive step : Type := SIndex (i : nat) | SKey (k : bytes).
  Inductive at_path : jtree -> list step -> jtree -> Prop :=
  | ap_here : forall g, at_path g [] g
  | ap_index : forall l i g p g', nth_error l i = Some g -> at_path g p g' -> at_path (VArr l) (SIndex i :: p) g'
  | ap_key : forall m k g p g', In (k, g) m -> at_path g p g' -> at_path (VMap m) (SKey k :: p) g'.
  Inductive walks : value -> list step -> value -> Prop :=
  | wk_here : forall v, walks v [] v
  | wk_index : forall v i w p w', vindex F v (Z.of_nat i) = Ok w -> walks w p w' -> walks v (SIndex i :: p) w'
  | wk_key : forall v k w p w', vmap_index F v k = Ok (Some w) -> walks w p w' -> walks v (SKey k :: p) w'.

  (** [mirrors v w]: v and w hold the same data, v as read from JSON text, w as converted from decoded
      values, in which all numbers are floats and arrays and objects are behind pointers. *)
  Inductive mirrors : value -> value -> Prop :=
  | mi_null : mirrors (XNull true) (XNull true)
  | mi_bool : forall b, mirrors (XBool b) (XBool b)
  | mi_int : forall t z f, integer_text t z -> parse_float t = Some f -> mirrors (XInt z) (XNum f)
  | mi_num : forall f, mirrors (XNum f) (XNum f)
  | mi_str : forall s, mirrors (XStr s) (XStr s)
  | mi_arr : forall l l', Forall2 mirrors l l' -> mirrors (XArr l) (XPtr (XArr l'))
  | mi_obj : forall m m', Forall2 (fun kv kv' => fst kv = fst kv' /\ mirrors (snd kv) (snd kv')) m m' -> mirrors (XObj m) (XPtr (XObj m')).
  (** What encoding/json decodes into an interface{}, as ConvertDecoded sees it. *)
  Fixpoint as_decoded (g : gval F) : decoded F :=
    match g with
    | VNil => DNil
    | VBool b => DBool b
    | VInt z => DInt z
    | VFloat f => DFloat f
    | VStr s => DStr s
    | VBytes _ => DOther
    | VArr l => DArr (map as_decoded l)
    | VMap m => DMap (map (fun kv => (fst kv, as_decoded (snd kv))) m)
    end.
End Read.
