(** Model of Structure.RequiresTabularSchema. *)
From Verif Require Import Base M_Formats.

(** structure.go:148-150: the spelling is compared, not the format it stands for. *)
Definition requires_tabular_schema (format : bytes) : bool :=
  beqb format (format_string fCSV) || beqb format (format_string fXLSX).
