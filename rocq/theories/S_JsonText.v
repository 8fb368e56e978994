(** JSON texts and the values they stand for, said by rules that do not mention the reader or the writer. *)
From Verif Require Import Base M_Decimal M_Utf8.

(** Blank space between tokens. *)
Definition blank (w : bytes) : Prop := Forall (fun c => c = 32%N \/ c = 10%N \/ c = 13%N \/ c = 9%N) w.

(** A hexadecimal digit and its value. *)
Definition hexval (c : N) (v : N) : Prop :=
  (48 <= c <= 57 /\ v = c - 48 \/ 97 <= c <= 102 /\ v = c - 97 + 10 \/ 65 <= c <= 70 /\ v = c - 65 + 10)%N.

(** The short escapes: the character after the backslash and the character meant. *)
Definition short_escape (e c : N) : Prop :=
  (e = 98 /\ c = 8 \/ e = 102 /\ c = 12 \/ e = 110 /\ c = 10 \/ e = 114 /\ c = 13 \/ e = 116 /\ c = 9 \/
   (e = 34 \/ e = 92 \/ e = 47) /\ c = e)%N.

(** [jchars s t]: t, between quotes, stands for the bytes s. *)
Inductive jchars : bytes -> bytes -> Prop :=
| jc_nil : jchars [] []
| jc_plain : forall c s t, c <> 34%N -> c <> 92%N -> jchars s t -> jchars (c :: s) (c :: t)
| jc_short : forall e c s t, short_escape e c -> jchars s t -> jchars (c :: s) (92%N :: e :: t)
| jc_u : forall a b c d va vb vc vd s t, hexval a va -> hexval b vb -> hexval c vc -> hexval d vd ->
    let r := (va * 4096 + vb * 256 + vc * 16 + vd)%N in
    ~ (55296 <= r <= 57343)%N -> jchars s t ->
    jchars (encode_rune r ++ s) (92%N :: 117%N :: a :: b :: c :: d :: t).

(** Text between quotes, whatever the escapes mean. *)
Inductive quoted : bytes -> Prop :=
| qu_nil : quoted []
| qu_plain : forall c t, c <> 34%N -> c <> 92%N -> quoted t -> quoted (c :: t)
| qu_escape : forall e t, quoted t -> quoted (92%N :: e :: t).
(** [outside doc s]: s is the part of doc from some position that is not inside a quoted string. *)
Inductive outside : bytes -> bytes -> Prop :=
| out_here : forall s, outside s s
| out_char : forall c t s, c <> 34%N -> outside t s -> outside (c :: t) s
| out_string : forall a t s, quoted a -> outside t s -> outside (34%N :: a ++ 34%N :: t) s.
(** [misspelled doc]: outside of strings a word starts like null, true or false but is neither that word
    nor cut off by the end of the document. *)
Definition misspelled (doc : bytes) : Prop :=
  exists s lit, outside doc s /\ In lit [bs "null"; bs "true"; bs "false"] /\
    (exists c t u, s = c :: t /\ lit = c :: u) /\ (forall r, s <> lit ++ r) /\ (forall r, lit <> s ++ r).

(** [int_text z t]: t is the number z in decimal, perhaps with a minus sign. *)
Definition int_text (z : Z) (t : bytes) : Prop :=
  exists ds, ds <> [] /\ Forall (fun c => (48 <= c <= 57)%N) ds /\
    (t = ds /\ z = Z.of_N (dec_val ds) \/ t = 45%N :: ds /\ z = (- Z.of_N (dec_val ds))%Z).
Definition fits_int64 (z : Z) : Prop := (-9223372036854775808 <= z <= 9223372036854775807)%Z.

Section Text.
  Variable F : Type.
  (** Which decimal texts stand for which floating point numbers. *)
  Variable float_text : F -> bytes -> Prop.
  Notation gval := (gval F).

  (** Objects: later pairs replace earlier ones with the same key. *)
  Definition object_of (kvs : list (bytes * gval)) : gval :=
    VMap (fold_left (fun m kv => map_set (fst kv) (snd kv) m) kvs []).

  (** [jtext v t]: t is a JSON text of v.  [jtail]: the elements after the first, each with the comma
      before it, and blanks at the end; [jptail]: the same for key-value pairs. *)
  Inductive jtext : gval -> bytes -> Prop :=
  | jt_null : jtext VNil (bs "null")
  | jt_true : jtext (VBool true) (bs "true")
  | jt_false : jtext (VBool false) (bs "false")
  | jt_int : forall z t, fits_int64 z -> int_text z t -> jtext (VInt z) t
  | jt_float : forall f t, float_text f t -> jtext (VFloat f) t
  | jt_str : forall s t, jchars s t -> jtext (VStr s) (34%N :: t ++ [34%N])
  | jt_arr0 : forall w, blank w -> jtext (VArr []) (91%N :: w ++ [93%N])
  | jt_arr : forall v vs w t r, blank w -> jtext v t -> jtail vs r ->
      jtext (VArr (v :: vs)) (91%N :: w ++ t ++ r ++ [93%N])
  | jt_obj0 : forall w, blank w -> jtext (VMap []) (123%N :: w ++ [125%N])
  | jt_obj : forall kv kvs w t r, blank w -> jpair kv t -> jptail kvs r ->
      jtext (object_of (kv :: kvs)) (123%N :: w ++ t ++ r ++ [125%N])
  with jtail : list gval -> bytes -> Prop :=
  | jl_nil : forall w, blank w -> jtail [] w
  | jl_cons : forall v vs w1 w2 t r, blank w1 -> blank w2 -> jtext v t -> jtail vs r ->
      jtail (v :: vs) (w1 ++ 44%N :: w2 ++ t ++ r)
  with jpair : bytes * gval -> bytes -> Prop :=
  | jp_intro : forall k kt v t w1 w2, jchars k kt -> blank w1 -> blank w2 -> jtext v t ->
      jpair (k, v) (34%N :: kt ++ 34%N :: w1 ++ 58%N :: w2 ++ t)
  with jptail : list (bytes * gval) -> bytes -> Prop :=
  | jpl_nil : forall w, blank w -> jptail [] w
  | jpl_cons : forall kv kvs w1 w2 t r, blank w1 -> blank w2 -> jpair kv t -> jptail kvs r ->
      jptail (kv :: kvs) (w1 ++ 44%N :: w2 ++ t ++ r).
  (** A document: an array of the values, or an object with the pairs in this order. *)
  Inductive jdoc_array : list gval -> bytes -> Prop :=
  | jda_nil : forall w1 w2, blank w1 -> blank w2 -> jdoc_array [] (w1 ++ 91%N :: w2 ++ [93%N])
  | jda_cons : forall v vs w1 w2 t r, blank w1 -> blank w2 -> jtext v t -> jtail vs r ->
      jdoc_array (v :: vs) (w1 ++ 91%N :: w2 ++ t ++ r ++ [93%N]).
  Inductive jdoc_object : list (bytes * gval) -> bytes -> Prop :=
  | jdo_nil : forall w1 w2, blank w1 -> blank w2 -> jdoc_object [] (w1 ++ 123%N :: w2 ++ [125%N])
  | jdo_cons : forall kv kvs w1 w2 t r, blank w1 -> blank w2 -> jpair kv t -> jptail kvs r ->
      jdoc_object (kv :: kvs) (w1 ++ 123%N :: w2 ++ t ++ r ++ [125%N]).

  (** [jbad t]: a text containing an integer too large for int64, not as the first element of an array. *)
  Inductive jbad : bytes -> Prop :=
  | jb_int : forall z t, int_text z t -> ~ fits_int64 z -> jbad t
  | jb_arr : forall v w t r, blank w -> jtext v t -> jbad_tail r -> jbad (91%N :: w ++ t ++ r)
  | jb_obj : forall w t, blank w -> jbad_pair t -> jbad (123%N :: w ++ t)
  | jb_obj2 : forall kv w t r, blank w -> jpair kv t -> jbad_ptail r -> jbad (123%N :: w ++ t ++ r)
  with jbad_tail : bytes -> Prop :=
  | jbl_here : forall w1 w2 t, blank w1 -> blank w2 -> jbad t -> jbad_tail (w1 ++ 44%N :: w2 ++ t)
  | jbl_next : forall v w1 w2 t r, blank w1 -> blank w2 -> jtext v t -> jbad_tail r ->
      jbad_tail (w1 ++ 44%N :: w2 ++ t ++ r)
  with jbad_pair : bytes -> Prop :=
  | jbp_intro : forall k kt t w1 w2, jchars k kt -> blank w1 -> blank w2 -> jbad t ->
      jbad_pair (34%N :: kt ++ 34%N :: w1 ++ 58%N :: w2 ++ t)
  with jbad_ptail : bytes -> Prop :=
  | jbpl_here : forall w1 w2 t, blank w1 -> blank w2 -> jbad_pair t -> jbad_ptail (w1 ++ 44%N :: w2 ++ t)
  | jbpl_next : forall kv w1 w2 t r, blank w1 -> blank w2 -> jpair kv t -> jbad_ptail r ->
      jbad_ptail (w1 ++ 44%N :: w2 ++ t ++ r).
End Text.

Scheme jtext_mut := Minimality for jtext Sort Prop
  with jtail_mut := Minimality for jtail Sort Prop
  with jpair_mut := Minimality for jpair Sort Prop
  with jptail_mut := Minimality for jptail Sort Prop.
Combined Scheme json_text_ind from jtext_mut, jtail_mut, jpair_mut, jptail_mut.
Scheme jbad_mut := Minimality for jbad Sort Prop
  with jbad_tail_mut := Minimality for jbad_tail Sort Prop
  with jbad_pair_mut := Minimality for jbad_pair Sort Prop
  with jbad_ptail_mut := Minimality for jbad_ptail Sort Prop.
Combined Scheme json_bad_ind from jbad_mut, jbad_tail_mut, jbad_pair_mut, jbad_ptail_mut.
