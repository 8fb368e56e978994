(** Bodies whose structure was detected: what a reader should give. *)
From Verif Require Import Base M_Bufio M_Doc M_Components M_Convert S_Csv S_Stream S_Detect.

(** The structure of a dataset says nothing that matters to a reader, except perhaps the format f. *)
Definition unsaid (st : option structure) (f : bytes) : Prop :=
  forall x, st = Some x -> (st_format x = [] \/ st_format x = f) /\ st_compression x = [] /\ st_schema x = None /\ st_format_config x = None.

Section Reads.
  Variable open : shape -> src -> res ereader.
  Variable step : nat -> ereader -> res (entry N) * ereader.
  (** Any reader of the bytes T, however they are delivered, gives these values and then the end. *)
  Definition reads (sh : shape) (T : bytes) (vs : list (gval N)) : Prop := forall s, s_rem s = T -> s_fin s = EOF ->
    exists f0 es, map e_val es = vs /\ forall fuel, (f0 <= fuel)%nat -> exists r r', open sh s = Ok r /\ yields (step fuel) r es EOF r'.
  (** Any reader of T ends with an error that is not the end. *)
  Definition fails (sh : shape) (T : bytes) : Prop := forall s, s_rem s = T -> s_fin s = EOF ->
    exists f0, forall fuel, (f0 <= fuel)%nat -> exists r es e r', open sh s = Ok r /\ yields (step fuel) r es e r' /\ e <> EOF.
End Reads.

(** A cell that does not begin with white space. *)
Definition unspaced (f : bytes) : Prop := forall b, In b blanks -> ~ begins (M_Utf8.encode_rune b) f.
(** The rows of a table that are more than an empty line. *)
Definition full_rows (rows : list (list bytes)) : list (list bytes) := filter (fun r => negb (blank_row r)) rows.
(** [looked_at w rest sample]: of the rows after the first, those up to the one that is the 2001st with w cells. *)
Definition looked_at (w : nat) (rest sample : list (list bytes)) : Prop :=
  exists later, rest = sample ++ later /\ (later = [] \/ (length (filter (fits w) sample) = 2001)%nat).
(** The type of a column that is made from what its cells look like; text if there are no cells. *)
Definition read_type (looks : bytes -> N -> Prop) (cells : list bytes) (ty : bytes) : Prop :=
  exists t, column_type looks cells t /\ ty = match t with Some t => type_name t | None => bs "string" end.

From Verif Require Import S_JsonText L_JsonRead M_Cbor S_Cbor S_NDJson.
Section Documents.
  Variable parse_float : bytes -> option N.
  Variable depth : nat.
  (** [document f T vs]: T is a whole document of the format f that is no table, with the values vs. *)
  Inductive document : bytes -> bytes -> list (gval N) -> Prop :=
  | do_json : forall vs T, jdoc_array N (float_reads N parse_float) vs T -> document (bs "json") T vs
  | do_json_object : forall kvs T, jdoc_object N (float_reads N parse_float) kvs T -> document (bs "json") T (map snd kvs)
  | do_cbor : forall vs, Forall wf_value vs -> (N.of_nat (length vs) < 2 ^ 44)%N -> forallb readable vs = true -> document (bs "cbor") (cbor_encode (VArr vs)) vs
  | do_cbor_object : forall m, wf_value (VMap m) -> map_get [] m = None -> forallb readable_pair m = true -> document (bs "cbor") (cbor_encode (VMap m)) (map snd m)
  | do_lines : forall lines vs, Forall line lines -> Forall2 (fun v l => sline N parse_float depth v (l ++ [10%N])) vs lines -> document (bs "ndjson") (stream lines []) vs.
End Documents.
