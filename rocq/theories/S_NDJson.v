(** JSON texts by the rules of RFC 8259, what they stand for as Go values, and streams of lines. *)
From Verif Require Import Base M_Decimal M_Utf8 S_Utf8 S_JsonText S_JsonBack.

(** Number literals. *)
Definition digits (t : bytes) : Prop := Forall (fun c => (48 <= c <= 57)%N) t.
Definition int_part (t : bytes) : Prop :=
  t = [48%N] \/ exists c r, t = c :: r /\ (49 <= c <= 57)%N /\ digits r.
Definition frac_part (t : bytes) : Prop := t = [] \/ exists r, t = 46%N :: r /\ r <> [] /\ digits r.
Definition exp_part (t : bytes) : Prop :=
  t = [] \/ exists e g r, t = e :: g ++ r /\ (e = 101 \/ e = 69)%N /\ (g = [] \/ g = [43%N] \/ g = [45%N]) /\ r <> [] /\ digits r.
Definition strict_number (t : bytes) : Prop :=
  exists g i f e, t = g ++ i ++ f ++ e /\ (g = [] \/ g = [45%N]) /\ int_part i /\ frac_part f /\ exp_part e.

(** Escapes \uXXXX. *)
Definition u_escape (r : N) (t : bytes) : Prop :=
  exists a b c d va vb vc vd, t = [92%N; 117%N; a; b; c; d] /\ hexval a va /\ hexval b vb /\ hexval c vc /\ hexval d vd /\
    r = (va * 4096 + vb * 256 + vc * 16 + vd)%N.
Definition high_half (r : N) : Prop := (55296 <= r <= 56319)%N.
Definition low_half (r : N) : Prop := (56320 <= r <= 57343)%N.

(** [schars s t]: t, between quotes, stands for the text s.  Ill-formed bytes and lone surrogate halves
    stand for U+FFFD. *)
Inductive schars : bytes -> bytes -> Prop :=
| sc_nil : schars [] []
| sc_rune : forall r s t, scalar r -> (32 <= r)%N -> r <> 34%N -> r <> 92%N -> schars s t ->
    schars (encode_rune r ++ s) (encode_rune r ++ t)
| sc_bad : forall c s t, (forall r u, scalar r -> c :: t <> encode_rune r ++ u) -> schars s t ->
    schars (encode_rune 65533 ++ s) (c :: t)
| sc_short : forall e c s t, short_escape e c -> schars s t -> schars (c :: s) (92%N :: e :: t)
| sc_u : forall r u s t, u_escape r u -> ~ high_half r -> ~ low_half r -> schars s t ->
    schars (encode_rune r ++ s) (u ++ t)
| sc_pair : forall r1 r2 u1 u2 s t, u_escape r1 u1 -> high_half r1 -> u_escape r2 u2 -> low_half r2 -> schars s t ->
    schars (encode_rune ((r1 - 55296) * 1024 + (r2 - 56320) + 65536)%N ++ s) (u1 ++ u2 ++ t)
| sc_lone : forall r u s t, u_escape r u -> high_half r \/ low_half r ->
    ~ (high_half r /\ exists r2 u2 t2, u_escape r2 u2 /\ low_half r2 /\ t = u2 ++ t2) -> schars s t ->
    schars (encode_rune 65533 ++ s) (u ++ t).

Section Text.
  Variable F : Type.
  Variable fmt_float : F -> option bytes.
  Variable parse_float : bytes -> option F.
  Notation gval := (gval F).

  (** [stext d v t]: t is a JSON text, nested at most d deep, of v.  All numbers are floats. *)
  Inductive stext : nat -> gval -> bytes -> Prop :=
  | st_null : forall d, stext d VNil (bs "null")
  | st_true : forall d, stext d (VBool true) (bs "true")
  | st_false : forall d, stext d (VBool false) (bs "false")
  | st_num : forall d f t, strict_number t -> parse_float t = Some f -> stext d (VFloat f) t
  | st_str : forall d s t, schars s t -> stext d (VStr s) (34%N :: t ++ [34%N])
  | st_arr0 : forall d w, blank w -> stext (S d) (VArr []) (91%N :: w ++ [93%N])
  | st_arr : forall d v vs w t r, blank w -> stext d v t -> stail d vs r ->
      stext (S d) (VArr (v :: vs)) (91%N :: w ++ t ++ r ++ [93%N])
  | st_obj0 : forall d w, blank w -> stext (S d) (VMap []) (123%N :: w ++ [125%N])
  | st_obj : forall d kv kvs w t r, blank w -> spair d kv t -> sptail d kvs r ->
      stext (S d) (object_of F (kv :: kvs)) (123%N :: w ++ t ++ r ++ [125%N])
  with stail : nat -> list gval -> bytes -> Prop :=
  | sl_nil : forall d w, blank w -> stail d [] w
  | sl_cons : forall d v vs w1 w2 t r, blank w1 -> blank w2 -> stext d v t -> stail d vs r ->
      stail d (v :: vs) (w1 ++ 44%N :: w2 ++ t ++ r)
  with spair : nat -> bytes * gval -> bytes -> Prop :=
  | spr_intro : forall d k kt v t w1 w2, schars k kt -> blank w1 -> blank w2 -> stext d v t ->
      spair d (k, v) (34%N :: kt ++ 34%N :: w1 ++ 58%N :: w2 ++ t)
  with sptail : nat -> list (bytes * gval) -> bytes -> Prop :=
  | spl_nil : forall d w, blank w -> sptail d [] w
  | spl_cons : forall d kv kvs w1 w2 t r, blank w1 -> blank w2 -> spair d kv t -> sptail d kvs r ->
      sptail d (kv :: kvs) (w1 ++ 44%N :: w2 ++ t ++ r).
  (** A line, without or with its line break. *)
  Definition sline (d : nat) (v : gval) (l : bytes) : Prop :=
    exists w1 t w2, blank w1 /\ blank w2 /\ stext d v t /\ l = w1 ++ t ++ w2.

  (** How deep a value is nested. *)
  Inductive deep : nat -> gval -> Prop :=
  | dp_nil : forall d, deep d VNil
  | dp_bool : forall d b, deep d (VBool b)
  | dp_int : forall d z, deep d (VInt z)
  | dp_float : forall d f, deep d (VFloat f)
  | dp_str : forall d s, deep d (VStr s)
  | dp_bytes : forall d s, deep d (VBytes s)
  | dp_arr : forall d l, Forall (deep d) l -> deep (S d) (VArr l)
  | dp_map : forall d m, Forall (fun kv => deep d (snd kv)) m -> deep (S d) (VMap m).

  (** Formatting of floats: every float is written as a JSON number that parses to the same float. *)
  Definition strict_format : Prop := forall f t, fmt_float f = Some t -> strict_number t /\ parse_float t = Some f.

  (** [line_back v v']: reading the line of v gives v'. *)
  Inductive line_back : gval -> gval -> Prop :=
  | lb_nil : line_back VNil VNil
  | lb_bool : forall b, line_back (VBool b) (VBool b)
  | lb_int : forall z f, parse_float (itoa z) = Some f -> line_back (VInt z) (VFloat f)
  | lb_float : forall f, line_back (VFloat f) (VFloat f)
  | lb_str : forall s s', cleaned s s' -> line_back (VStr s) (VStr s')
  | lb_bytes : forall b t, base64 b t -> line_back (VBytes b) (VStr t)
  | lb_arr : forall l l', Forall2 line_back l l' -> line_back (VArr l) (VArr l')
  | lb_map : forall m m', Forall2 (fun kv kv' => cleaned (fst kv) (fst kv') /\ line_back (snd kv) (snd kv')) m m' ->
      line_back (VMap m) (object_of F m').
End Text.

Scheme stext_mut := Minimality for stext Sort Prop
  with stail_mut := Minimality for stail Sort Prop
  with spair_mut := Minimality for spair Sort Prop
  with sptail_mut := Minimality for sptail Sort Prop.
Combined Scheme strict_text_ind from stext_mut, stail_mut, spair_mut, sptail_mut.

(** A stream is lines, each ended by a line break, and a rest without one. *)
Definition line (l : bytes) : Prop := ~ In 10%N l.
Definition stream (lines : list bytes) (rest : bytes) : bytes := flat_map (fun l => l ++ [10%N]) lines ++ rest.
