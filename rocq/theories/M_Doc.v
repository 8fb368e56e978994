(** JSON documents as encoding/json sees them.
    Simplifications: a document is a tree, not text (text level escaping is the subject of M_JSONText);
    a timestamp and a base64 byte string are leaves that carry the value they denote; numbers are integers or
    opaque literals; dynamic Go values (interface{}) inside components are identified with the document they
    encode to, so nil is JNull. *)
From Verif Require Import Base.

Inductive jdoc : Type :=
| JNull
| JBool (b : bool)
| JInt (z : Z)
| JReal (lit : bytes)
| JStr (s : bytes)
| JTime (ns : Z)           (* RFC 3339 text; nanoseconds since the zero time.Time *)
| JB64 (b : bytes)         (* base64 text *)
| JArr (l : list jdoc)
| JObj (m : list (bytes * jdoc)).

(** Go map[string]V: None is the nil map, Some a sorted association list. *)
Notation gomap V := (option (list (bytes * V))).
(** Go slice: None is the nil slice. *)
Notation goslice V := (option (list V)).

(** Members of a struct that are written, in order: [None] is an omitted member (omitempty). *)
Fixpoint members (l : list (bytes * option jdoc)) : list (bytes * jdoc) :=
  match l with
  | [] => []
  | (k, Some d) :: l' => (k, d) :: members l'
  | (_, None) :: l' => members l'
  end.

(** omitempty for the field types used: string, int, bool, pointer, interface, map, slice. *)
Definition oe_str (s : bytes) : option jdoc := match s with [] => None | _ => Some (JStr s) end.
Definition oe_int (z : Z) : option jdoc := if Z.eqb z 0 then None else Some (JInt z).
Definition oe_bool (b : bool) : option jdoc := if b then Some (JBool true) else None.
Definition oe_dyn (d : jdoc) : option jdoc := match d with JNull => None | _ => Some d end.
Definition oe_map (m : gomap jdoc) : option jdoc :=
  match m with Some (e :: m') => Some (JObj (e :: m')) | _ => None end.
Definition oe_slice {A} (enc : A -> jdoc) (l : goslice A) : option jdoc :=
  match l with Some (x :: l') => Some (JArr (map enc (x :: l'))) | _ => None end.
Definition oe_ptr {A} (enc : A -> jdoc) (o : option A) : option jdoc := option_map enc o.
(** A pointer inside a slice or map: nil is null. *)
Definition enc_ptr {A} (enc : A -> jdoc) (o : option A) : jdoc := match o with Some a => enc a | None => JNull end.

(** ASCII case folding, as encoding/json uses for struct member names. Simplification: the two non-ASCII folds
    (Kelvin sign, long s) are not modelled. *)
Definition lower_byte (c : byte) : byte := if (65 <=? c)%N && (c <=? 90)%N then (c + 32)%N else c.
Definition fold_name (s : bytes) : bytes := map lower_byte s.

(** Which of the struct members [names] receives the document key [k]: an exact match, else the first that
    matches up to case. *)
Definition route (names : list bytes) (k : bytes) : option bytes :=
  if existsb (beqb k) names then Some k
  else find (fun n => beqb (fold_name n) (fold_name k)) names.
(** The last value routed to member [n]. Simplification: with duplicate keys only the last value counts. *)
Fixpoint routed (names : list bytes) (n : bytes) (o : list (bytes * jdoc)) : option jdoc :=
  match o with
  | [] => None
  | (k, d) :: o' =>
      match routed names n o' with
      | Some d' => Some d'
      | None => match route names k with
                | Some n' => if beqb n n' then Some d else None
                | None => None
                end
      end
  end.

(** Decoding of one member; null and absence leave the zero value. *)
Definition dtype_error {A} : res A := Err (EMsg "json: cannot unmarshal value into Go struct field").
Definition d_str (o : option jdoc) : res bytes :=
  match o with None | Some JNull => Ok [] | Some (JStr s) => Ok s | _ => dtype_error end.
Definition d_int (o : option jdoc) : res Z :=
  match o with None | Some JNull => Ok 0%Z | Some (JInt z) => Ok z | _ => dtype_error end.
Definition d_bool (o : option jdoc) : res bool :=
  match o with None | Some JNull => Ok false | Some (JBool b) => Ok b | _ => dtype_error end.
Definition d_dyn (o : option jdoc) : res jdoc := Ok (match o with None => JNull | Some d => d end).
Definition d_time (o : option jdoc) : res Z :=
  match o with None | Some JNull => Ok 0%Z | Some (JTime t) => Ok t | _ => dtype_error end.
Definition d_b64 (o : option jdoc) : res (option bytes) :=
  match o with None | Some JNull => Ok None | Some (JB64 b) => Ok (Some b) | _ => dtype_error end.
(** map[string]interface{}: the members become the map, later duplicates winning. *)
Definition to_map {V} (o : list (bytes * V)) : list (bytes * V) :=
  fold_left (fun m kv => map_set (fst kv) (snd kv) m) o [].
Definition d_map (o : option jdoc) : res (gomap jdoc) :=
  match o with None | Some JNull => Ok None | Some (JObj m) => Ok (Some (to_map m)) | _ => dtype_error end.
Fixpoint mapM {A B} (f : A -> res B) (l : list A) : res (list B) :=
  match l with
  | [] => Ok []
  | x :: l' => match f x with
               | Ok y => match mapM f l' with Ok ys => Ok (y :: ys) | Err e => Err e | Panic => Panic | OutOfFuel => OutOfFuel end
               | Err e => Err e | Panic => Panic | OutOfFuel => OutOfFuel
               end
  end.
Definition d_slice {A} (dec : jdoc -> res A) (o : option jdoc) : res (goslice A) :=
  match o with
  | None | Some JNull => Ok None
  | Some (JArr l) => match mapM dec l with Ok v => Ok (Some v) | Err e => Err e | Panic => Panic | OutOfFuel => OutOfFuel end
  | _ => dtype_error
  end.
(** map[string]V with a decoded value type. *)
Definition d_mapv {A} (dec : jdoc -> res A) (o : option jdoc) : res (gomap A) :=
  match o with
  | None | Some JNull => Ok None
  | Some (JObj m) =>
      match mapM (fun kv => match dec (snd kv) with Ok a => Ok (fst kv, a) | Err e => Err e | Panic => Panic | OutOfFuel => OutOfFuel end) m with
      | Ok v => Ok (Some (to_map v)) | Err e => Err e | Panic => Panic | OutOfFuel => OutOfFuel
      end
  | _ => dtype_error
  end.
(** A pointer: null is nil. *)
Definition d_ptr {A} (dec : jdoc -> res A) (o : option jdoc) : res (option A) :=
  match o with
  | None | Some JNull => Ok None
  | Some d => match dec d with Ok a => Ok (Some a) | Err e => Err e | Panic => Panic | OutOfFuel => OutOfFuel end
  end.
Definition dec_ptr {A} (dec : jdoc -> res A) (d : jdoc) : res (option A) := d_ptr dec (Some d).
Definition dec_str (d : jdoc) : res bytes := d_str (Some d).

Definition rbind {A B} (r : res A) (f : A -> res B) : res B :=
  match r with Ok a => f a | Err e => Err e | Panic => Panic | OutOfFuel => OutOfFuel end.
Notation "x <- r ;; f" := (rbind r (fun x => f)) (at level 61, r at next level, right associativity).

(** The pattern shared by the UnmarshalJSON methods: a string (or null) is a path reference, an object is decoded
    member by member. *)
Definition ref_or_object {A} (mkref : bytes -> A) (obj : list (bytes * jdoc) -> res A) (d : jdoc) : res A :=
  match d with
  | JStr s => Ok (mkref s)
  | JNull => Ok (mkref [])
  | JObj o => obj o
  | _ => dtype_error
  end.

(** reflect.DeepEqual on dynamic values, nil map and empty map being different.  Simplification: NaN, which is not
    equal to itself, cannot occur in a document. *)
Fixpoint jdoc_eqb (a b : jdoc) {struct a} : bool :=
  match a, b with
  | JNull, JNull => true
  | JBool x, JBool y => Bool.eqb x y
  | JInt x, JInt y => Z.eqb x y
  | JReal x, JReal y => beqb x y
  | JStr x, JStr y => beqb x y
  | JTime x, JTime y => Z.eqb x y
  | JB64 x, JB64 y => beqb x y
  | JArr x, JArr y =>
      (fix go x y := match x, y with
                     | [], [] => true
                     | a :: x', b :: y' => jdoc_eqb a b && go x' y'
                     | _, _ => false
                     end) x y
  | JObj x, JObj y =>
      (fix go x y := match x, y with
                     | [], [] => true
                     | (k, a) :: x', (k', b) :: y' => beqb k k' && jdoc_eqb a b && go x' y'
                     | _, _ => false
                     end) x y
  | _, _ => false
  end.
Definition opt_eqb {A} (eqb : A -> A -> bool) (a b : option A) : bool :=
  match a, b with None, None => true | Some x, Some y => eqb x y | _, _ => false end.
Fixpoint list_eqb {A} (eqb : A -> A -> bool) (a b : list A) : bool :=
  match a, b with [], [] => true | x :: a', y :: b' => eqb x y && list_eqb eqb a' b' | _, _ => false end.
Definition map_eqb {V} (eqb : V -> V -> bool) (a b : gomap V) : bool :=
  opt_eqb (list_eqb (fun x y => beqb (fst x) (fst y) && eqb (snd x) (snd y))) a b.
