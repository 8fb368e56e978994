(** What a spreadsheet should hold. *)
From Verif Require Import Base M_Decimal M_JsonWrite.

Section Spec.
  Variable F : Type.
  Variable fmt_plain : F -> bytes.
  Variable fmt_json : F -> option bytes.
  (** The text of a cell; there is none for bytes and for lists and objects without a JSON text. *)
  Inductive cell_is : gval F -> bytes -> Prop :=
  | ci_nil : cell_is VNil []
  | ci_int : forall z, cell_is (VInt z) (itoa z)
  | ci_float : forall f, cell_is (VFloat f) (fmt_plain f)
  | ci_bool : forall b, cell_is (VBool b) (bs (if b : bool then "true" else "false"))
  | ci_str : forall s, cell_is (VStr s) s
  | ci_arr : forall l t, marshal F fmt_json [] [] [] (VArr l) = Some t -> cell_is (VArr l) t
  | ci_map : forall m t, marshal F fmt_json [] [] [] (VMap m) = Some t -> cell_is (VMap m) t.
  Definition row_is (e : entry F) (row : list bytes) : Prop :=
    exists vs, e_val e = VArr vs /\ Forall2 cell_is vs row.
  (** The rows of the entries that have one. *)
  Inductive taken : list (entry F) -> list (list bytes) -> Prop :=
  | tk_end : taken [] []
  | tk_row : forall e row es rows, row_is e row -> taken es rows -> taken (e :: es) (row :: rows)
  | tk_skip : forall e es rows, (forall row, ~ row_is e row) -> taken es rows -> taken (e :: es) rows.
  (** Which sheet a configuration names, if it does. *)
  Inductive names_sheet : option (list (bytes * gval F)) -> bytes -> Prop :=
  | ns_none : names_sheet None (bs "Sheet1")
  | ns_absent : forall m, map_get (bs "sheetName") m = None \/ map_get (bs "sheetName") m = Some VNil \/ map_get (bs "sheetName") m = Some (VStr []) ->
      names_sheet (Some m) (bs "Sheet1")
  | ns_named : forall m s, map_get (bs "sheetName") m = Some (VStr s) -> s <> [] -> names_sheet (Some m) s.
  Definition bad_sheet (config : option (list (bytes * gval F))) : Prop :=
    exists m v, config = Some m /\ map_get (bs "sheetName") m = Some v /\ v <> VNil /\ forall s, v <> VStr s.
End Spec.
(** The text in column c of row r of a table, counted from 0. *)
Definition at_cell (rows : list (list bytes)) (c r : nat) : option bytes :=
  match nth_error rows r with Some row => nth_error row c | None => None end.
