(** Specification of kinds, format names, option maps and file names. *)
From Verif Require Import Base M_Formats.

(** The seven formats and their names. *)
Definition format_name (f : Z) (n : bytes) : Prop :=
  (f = fUnknown /\ n = bs "") \/ (f = fCSV /\ n = bs "csv") \/ (f = fJSON /\ n = bs "json") \/
  (f = fNDJSON /\ n = bs "ndjson") \/ (f = fCBOR /\ n = bs "cbor") \/ (f = fXML /\ n = bs "xml") \/
  (f = fXLSX /\ n = bs "xlsx").

(** Names accepted for a format: the name, the name after a dot, and the jsonl alias. *)
Definition accepted_name (s : bytes) (f : Z) : Prop :=
  exists n, (format_name f n \/ (f = fNDJSON /\ n = bs "jsonl")) /\ (s = n \/ (n <> [] /\ s = cDOT :: n)).

(** Compression names and the format they stand for. *)
Definition compression_name (s c : bytes) : Prop :=
  (s = [] /\ c = []) \/ ((s = bs "gzip" \/ s = bs "gz") /\ c = bs "gzip") \/
  ((s = bs "zst" \/ s = bs "zstd") /\ c = bs "zst").

(** A CSV option map is well typed when each known key is absent, nil or of the right type. *)
Definition is_bool_or_unset {F} (v : option (gval F)) : Prop :=
  v = None \/ v = Some VNil \/ exists b, v = Some (VBool b).
Definition is_char_or_unset {F} (v : option (gval F)) : Prop :=
  v = None \/ v = Some VNil \/ exists c, v = Some (VStr [c]).
Definition csv_map_well_typed {F} (m : list (bytes * gval F)) : Prop :=
  is_bool_or_unset (map_get (bs "headerRow") m) /\ is_bool_or_unset (map_get (bs "lazyQuotes") m) /\
  is_bool_or_unset (map_get (bs "variadicFields") m) /\ is_char_or_unset (map_get (bs "separator") m).
(** What an option map says about a flag. *)
Definition says_true {F} (k : bytes) (m : list (bytes * gval F)) : Prop := map_get k m = Some (VBool true).
