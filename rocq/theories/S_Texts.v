(** Which texts stand for which values of a type. *)
From Verif Require Import Base S_Vals M_Vals M_Texts S_Utf8 S_JsonText S_JsonBack S_NDJson.

Definition true_texts : list bytes := [bs "1"; bs "t"; bs "T"; bs "true"; bs "TRUE"; bs "True"].
Definition false_texts : list bytes := [bs "0"; bs "f"; bs "F"; bs "false"; bs "FALSE"; bs "False"].

Section Stands.
  Variable F : Type.
  Variable parse_float : bytes -> option F.
  Variable depth : nat.
  Notation gval := (gval F).
  (** [stands t s x]: as a text of type t, s stands for x.  Arrays and objects are not told apart. *)
  Inductive stands : N -> bytes -> iface F -> Prop :=
  | sd_string : forall s, stands tString s (IStr s)
  | sd_number : forall s f, parse_float s = Some f -> stands tNumber s (IFloat f)
  | sd_integer : forall s z, integer_text s z -> int64 z -> stands tInteger s (IInt64 z)
  | sd_true : forall s, In s true_texts -> stands tBoolean s (IBool true)
  | sd_false : forall s, In s false_texts -> stands tBoolean s (IBool false)
  | sd_array : forall t s l, t = tArray \/ t = tObject -> sline F parse_float depth (VArr l) s -> stands t s (IArr l)
  | sd_object : forall t s m, t = tArray \/ t = tObject -> sline F parse_float depth (VMap m) s -> stands t s (IMap m).

  (** [written t x]: values that have a text of type t.  Anything has one as an array or an object. *)
  Variable fmt_json : F -> option bytes.
  Inductive written : N -> iface F -> Prop :=
  | wn_string : forall s, written tString (IStr s)
  | wn_number : forall f, written tNumber (IFloat f)
  | wn_integer : forall z, written tInteger (IInt z)
  | wn_boolean : forall b, written tBoolean (IBool b)
  | wn_json : forall t x, t = tArray \/ t = tObject -> ~ refused F fmt_json (seen F x) -> written t x.

  (** [again t x x']: the text of x as a t stands for x'. *)
  Inductive again : N -> iface F -> iface F -> Prop :=
  | ag_string : forall s, again tString (IStr s) (IStr s)
  | ag_number : forall f, again tNumber (IFloat f) (IFloat f)
  | ag_integer : forall z, int64 z -> again tInteger (IInt z) (IInt64 z)
  | ag_boolean : forall b, again tBoolean (IBool b) (IBool b)
  | ag_array : forall t l l', t = tArray \/ t = tObject -> line_back F parse_float (VArr l) (VArr l') -> deep F depth (VArr l) -> again t (IArr l) (IArr l')
  | ag_object : forall t m m', t = tArray \/ t = tObject -> line_back F parse_float (VMap m) (VMap m') -> deep F depth (VMap m) -> again t (IMap m) (IMap m').
End Stands.
