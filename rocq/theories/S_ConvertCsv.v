(** Vocabulary for conversions from and to tables of comma-separated values. *)
From Verif Require Import Base M_Bufio M_Tabular M_Formats M_CsvText M_Convert S_Csv.

(** The arrays a list of values begins with. *)
Fixpoint leading_rows (vs : list (gval N)) : list (list (gval N)) :=
  match vs with
  | VArr l :: r => l :: leading_rows r
  | _ => []
  end.
(** The rows before the first answer that is none. *)
Fixpoint before_refusal (l : list answer) : list (list bytes) :=
  match l with
  | Row fs :: r => fs :: before_refusal r
  | _ => []
  end.

Section Shape.
  Variable order : jmap -> jmap.
  (** A structure for tables, with its columns and the first type of each. *)
  Definition table_shape (sh : shape) (cols : list (column (F:=N))) (types : list bytes) : Prop :=
    structure_data_format (sh_format sh) = fCSV /\ (exists ps, columns_from_schema order (some_map (sh_schema sh)) = Ok (cols, ps)) /\
    Forall2 (fun cl t => exists ts, c_type cl = t :: ts) cols types.
End Shape.
(** What the configuration says; one that cannot be read says nothing. *)
Definition says (sh : shape) : csv_options := match new_csv_options (sh_config sh) with Ok o => o | _ => mkCSV false false 0 false end.
Definition separator (sh : shape) : N := if Z.eqb (csv_sep (says sh)) 0 then 44%N else Z.to_N (csv_sep (says sh)).
Definition head_row (sh : shape) (cols : list (column (F:=N))) : list (list bytes) := if csv_header (says sh) then [titles cols] else [].
(** The answers to the rows of a table: the first row gives the number of cells, unless any number is allowed, and
    is not data if there are titles. *)
Definition data_answers (sh : shape) (rows : list (list bytes)) : list answer :=
  let l := counted (if csv_variadic (says sh) then -1 else 0) rows in if csv_header (says sh) then tl l else l.

Section Content.
  Variable unpack : bytes -> src -> res src.
  Variable pack : bytes -> bytes -> bytes.
  (** The source holds data, compressed as the structure says, and ends there. *)
  Definition whole (comp : bytes) (s : src) (data : bytes) : Prop :=
    (comp = [] /\ s_rem s = data /\ s_fin s = EOF) \/
    exists f s', parse_compression comp = Some f /\ unpack f s = Ok s' /\ s_rem s' = data /\ s_fin s' = EOF.
  Definition lossless_end : Prop := forall f b s, s_rem s = pack f b -> s_fin s = EOF ->
    exists s', unpack f s = Ok s' /\ s_rem s' = b /\ s_fin s' = EOF.
End Content.
