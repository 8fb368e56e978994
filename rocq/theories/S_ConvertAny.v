(** Conversions between any two formats: what a format can store, and chains of conversions. *)
From Verif Require Import Base M_Bufio S_JsonBack M_Cbor S_Cbor M_CsvText S_Csv S_CsvCells S_NDJson M_Tabular M_Csv M_Xlsx S_Xlsx M_Formats M_Convert S_Convert S_ConvertCsv S_Calculate.

Section Storable.
  Variable parse_float : bytes -> option N.
  Variable fmt_plain : N -> bytes.
  Variable fmt_json : N -> option bytes.
  Variable depth : nat.
  Variable keep : bytes -> bytes.
  Variable order : jmap -> jmap.
  Notation own_type := (own_type N parse_float depth fmt_plain fmt_json).
  Notation cell_text := (cell_text N fmt_plain fmt_json).

  (** A row has one cell for each column, each of the type of its column. *)
  Definition own_cells (types : list bytes) (v v' : gval N) (also : list (gval N) -> Prop) : Prop :=
    exists cells cells', v = VArr cells /\ v' = VArr cells' /\ length cells = length types /\
      Forall2 (fun tv c' => own_type (fst tv) (snd tv) c') (combine types cells) cells' /\ also cells.
  (** Cells of a table have no carriage returns, and a row has some text or more than one cell. *)
  Definition table_row (cells : list (gval N)) : Prop := Forall (fun c => ~ In 13%N (cell_text c)) cells /\ blank_row (map cell_text cells) = false.
  (** Cells of a sheet are kept by the library, and a row has some cells and not too many. *)
  Definition sheet_row (cells : list (gval N)) : Prop :=
    cells <> [] /\ (Z.of_nat (length cells) <= 17576)%Z /\ forall c t, In c cells -> cell_is N fmt_plain fmt_json c t -> keep t = t.

  (** [storable out vs vs']: a body in the format of out can store the values vs, and they are read as vs'. *)
  Inductive storable (out : shape) (vs vs' : list (gval N)) : Prop :=
  | so_json : typed out fJSON (bs "array") -> known (sh_compression out) -> Forall2 (comes_back N fmt_json) vs vs' -> storable out vs vs'
  | so_cbor : typed out fCBOR (bs "array") -> known (sh_compression out) -> Forall wf_value vs -> (N.of_nat (length vs) < 2 ^ 44)%N ->
      forallb readable vs = true -> vs' = vs -> storable out vs vs'
  | so_lines : typed out fNDJSON (bs "array") -> known (sh_compression out) ->
      Forall2 (fun v v' => line_back N parse_float v v' /\ deep N depth v /\ ~ refused N fmt_json v) vs vs' -> storable out vs vs'
  | so_table : forall cols types, table_shape order out cols types -> valid_delim (separator out) = true -> known (sh_compression out) ->
      (csv_header (says out) = true -> blank_row (titles cols) = false /\ Forall (fun f => ~ In 13%N f) (titles cols)) ->
      Forall2 (fun v v' => own_cells types v v' table_row) vs vs' -> storable out vs vs'
  | so_sheet : forall types name, sheet_shape order out types name -> Forall2 (fun v v' => own_cells types v v' sheet_row) vs vs' -> storable out vs vs'.

  (** [stored_along vs l vs']: each structure of l can store what was read from the one before. *)
  Inductive stored_along : list (gval N) -> list shape -> list (gval N) -> Prop :=
  | sa_end : forall vs, stored_along vs [] vs
  | sa_next : forall vs out vs1 l vs', storable out vs vs1 -> stored_along vs1 l vs' -> stored_along vs (out :: l) vs'.
End Storable.

Section Chain.
  (** A conversion of whole bodies; what is too much for a given fuel does not count. *)
  Variable convert : nat -> shape -> shape -> src -> res bytes.
  Definition becomes (a b : shape) (s : src) (out : bytes) : Prop := exists f0, forall fuel, (f0 <= fuel)%nat -> convert fuel a b s = Ok out.
  (** [chain a s l b s']: converting s, a body of structure a, to each structure of l in turn ends with s', a body of
      structure b.  Every result is read back from some source, in pieces of any sizes. *)
  Inductive chain : shape -> src -> list shape -> shape -> src -> Prop :=
  | ch_end : forall a s, chain a s [] a s
  | ch_next : forall a s b out s1 l c s', becomes a b s out -> s_rem s1 = out -> s_fin s1 = EOF -> chain b s1 l c s' -> chain a s (b :: l) c s'.
End Chain.
