(** What the cells of a CSV row stand for. *)
From Verif Require Import Base S_Vals S_JsonBack S_NDJson S_Csv.

Section Cells.
  Variable F : Type.
  Variable parse_float : bytes -> option F.
  Variable depth : nat.
  Notation sline := (sline F parse_float depth).

  (** Texts that suit the type of their column. *)
  Inductive typed : bytes -> bytes -> gval F -> Prop :=
  | ty_number : forall s f, parse_float s = Some f -> typed (bs "number") s (VFloat f)
  | ty_integer : forall s z, integer_text s z -> int64 z -> typed (bs "integer") s (VInt z)
  | ty_true : forall s, In s [bs "1"; bs "t"; bs "T"; bs "true"; bs "TRUE"; bs "True"] -> typed (bs "boolean") s (VBool true)
  | ty_false : forall s, In s [bs "0"; bs "f"; bs "F"; bs "false"; bs "FALSE"; bs "False"] -> typed (bs "boolean") s (VBool false)
  | ty_object : forall s m, sline (VMap m) s -> typed (bs "object") s (VMap m)
  | ty_object_null : forall s, sline VNil s -> typed (bs "object") s (VMap [])
  | ty_array : forall s l, sline (VArr l) s -> typed (bs "array") s (VArr l)
  | ty_array_null : forall s, sline VNil s -> typed (bs "array") s (VArr [])
  | ty_null : forall s, typed (bs "null") s VNil.
  (** A cell is its value of that type, or else its text. *)
  Definition cell_value (ty s : bytes) (v : gval F) : Prop :=
    typed ty s v \/ (forall v', ~ typed ty s v') /\ v = VStr s.
  (** The values of a row; with more cells than columns all are texts. *)
  Inductive cell_values : list bytes -> list bytes -> list (gval F) -> Prop :=
  | cv_nil : forall types, cell_values types [] []
  | cv_cons : forall ty types s cells v vs, cell_value ty s v -> cell_values types cells vs ->
      cell_values (ty :: types) (s :: cells) (v :: vs).
  Definition row_value (types fs : list bytes) (vs : list (gval F)) : Prop :=
    (length fs <= length types)%nat /\ cell_values types fs vs \/ (length types < length fs)%nat /\ vs = map VStr fs.

  (** What a call of ReadEntry returns for an answer. *)
  Inductive shows (types : list bytes) : answer -> res (entry F) -> Prop :=
  | sh_row : forall fs vs, row_value types fs vs -> shows types (Row fs) (Ok (mkEntry 0 [] (VArr vs)))
  | sh_end : shows types End (Err EOF)
  | sh_bare : shows types (Flaw BareQuote) (Err (EMsg "parse error: bare quote in non-quoted-field"))
  | sh_stray : shows types (Flaw StrayQuote) (Err (EMsg "parse error: extraneous or missing quote in quoted-field"))
  | sh_source : forall e, shows types (Flaw (Source e)) (Err e)
  | sh_count : shows types Count (Err (EMsg "record: wrong number of fields")).

  (** Values that suit a column, and what is read back. *)
  Variable fmt_plain : F -> bytes.
  Variable fmt_json : F -> option bytes.
  Inductive own_type : bytes -> gval F -> gval F -> Prop :=
  | ow_integer : forall z, int64 z -> own_type (bs "integer") (VInt z) (VInt z)
  | ow_number : forall f, parse_float (fmt_plain f) = Some f -> own_type (bs "number") (VFloat f) (VFloat f)
  | ow_boolean : forall b, own_type (bs "boolean") (VBool b) (VBool b)
  | ow_text : forall ty s, ~ In ty (map bs ["integer"; "number"; "boolean"; "object"; "array"; "null"]%string) -> own_type ty (VStr s) (VStr s)
  | ow_null : own_type (bs "null") VNil VNil
  | ow_array : forall l v, line_back F parse_float (VArr l) v -> deep F depth (VArr l) -> ~ refused F fmt_json (VArr l) -> own_type (bs "array") (VArr l) v
  | ow_object : forall m v, line_back F parse_float (VMap m) v -> deep F depth (VMap m) -> ~ refused F fmt_json (VMap m) -> own_type (bs "object") (VMap m) v.
End Cells.
