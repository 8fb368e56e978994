(** What detecting a structure finds, without reference to the model's loops. *)
From Verif Require Import Base M_Bufio M_Decimal M_Utf8 M_Doc M_Components M_Detect S_Utf8 S_Csv.

(** ** Reading a body *)
(** Reads with buffers of the given sizes until the first error. *)
Fixpoint drained (sizes : list nat) (r : reader) : bytes * option err :=
  match sizes with
  | [] => ([], None)
  | k :: ks => match reader_read k r with
               | (d, Some e, _) => (d, Some e)
               | (d, None, r') => let '(d', e) := drained ks r' in (d ++ d', e)
               end
  end.
(** [holds r T fin]: reading r gives T, some of it with every read, and then the error fin. *)
Definition holds (r : reader) (T : bytes) (fin : err) : Prop := forall sizes, Forall (fun k => 0 < k)%nat sizes ->
  match drained sizes r with
  | (d, None) => (exists rest, T = d ++ rest) /\ (length sizes <= length d)%nat
  | (d, Some e) => d = T /\ e = fin
  end.

(** ** Structures: what is set stays, the rest is filled. *)
Definition filled_str (old guess new : bytes) : Prop := (old <> [] /\ new = old) \/ (old = [] /\ new = guess).
Definition filled_map (old guess new : gomap jdoc) : Prop := (exists m, old = Some m /\ new = old) \/ (old = None /\ new = guess).
Definition fills (old guess new : structure) : Prop :=
  filled_str (st_format old) (st_format guess) (st_format new) /\
  filled_str (st_compression old) (st_compression guess) (st_compression new) /\
  filled_map (st_schema old) (st_schema guess) (st_schema new) /\
  (st_format new = st_format guess -> filled_map (st_format_config old) (st_format_config guess) (st_format_config new)) /\
  (st_format new <> st_format guess -> st_format_config new = st_format_config old) /\
  st_checksum new = st_checksum old /\ st_depth new = st_depth old /\ st_encoding new = st_encoding old /\
  st_err_count new = st_err_count old /\ st_entries new = st_entries old /\ st_length new = st_length old /\
  st_path new = st_path old /\ st_qri new = st_qri old /\ st_strict new = st_strict old.
(** A structure that says enough to read the data. *)
Definition enough (st : structure) : Prop :=
  st_format st <> [] /\ st_schema st <> None /\
  (st_format st = bs "csv" \/ st_format st = bs "xlsx" -> st_format_config st <> None).

(** ** JSON and CBOR *)
Definition json_blank (c : N) : Prop := c = 32%N \/ c = 9%N \/ c = 10%N \/ c = 13%N.
(** The first byte that is not blank. *)
Definition opens_with (T : bytes) (c : N) : Prop := exists w r, T = w ++ c :: r /\ Forall json_blank w /\ ~ json_blank c.
Definition type_only (t : bytes) : list (bytes * jdoc) := [(bs "type", JStr t)].
Inductive json_kind (T : bytes) : res (list (bytes * jdoc)) -> Prop :=
| jk_array : opens_with T 91 -> json_kind T (Ok (type_only (bs "array")))
| jk_object : opens_with T 123 -> json_kind T (Ok (type_only (bs "object")))
| jk_other : forall c e, opens_with T c -> c <> 91%N -> c <> 123%N -> json_kind T (Err e)
| jk_blank : forall e, Forall json_blank T -> json_kind T (Err e).
(** CBOR: the three high bits of the first byte are the major type. *)
Inductive cbor_kind : bytes -> res (list (bytes * jdoc)) -> Prop :=
| ck_array : forall c r, (c / 32 = 4)%N -> cbor_kind (c :: r) (Ok (type_only (bs "array")))
| ck_object : forall c r, (c / 32 = 5)%N -> cbor_kind (c :: r) (Ok (type_only (bs "object")))
| ck_other : forall c r e, (c / 32 <> 4)%N -> (c / 32 <> 5)%N -> cbor_kind (c :: r) (Err e)
| ck_none : forall e, cbor_kind [] (Err e).

(** ** CSV *)
(** White space around a cell. *)
Definition all_blanks : list N := 10%N :: blanks.
Definition spaces_text (p : bytes) : Prop := exists rs, Forall (fun r => In r all_blanks) rs /\ p = flat_map encode_rune rs.
Definition trims (s t : bytes) : Prop := exists p q, s = p ++ t ++ q /\ spaces_text p /\ spaces_text q /\
  forall b, In b all_blanks -> ~ (exists x, t = encode_rune b ++ x) /\ ~ (exists x, t = x ++ encode_rune b).

(** The rows that are looked at: until 2001 of them have w cells, or all. *)
Definition fits (w : nat) (row : list bytes) : bool := (length row =? w)%nat.
Inductive sampled (w : nat) : list answer -> list (list bytes) -> option flaw -> Prop :=
| sa_all : forall rows l, (length (filter (fits w) rows) <= 2000)%nat -> sampled w (map Row rows ++ End :: l) rows None
| sa_full : forall rows row a l, length (filter (fits w) rows) = 2000%nat -> length row = w ->
    sampled w (map Row (rows ++ [row]) ++ a :: l) (rows ++ [row]) None
| sa_flaw : forall rows f l, (length (filter (fits w) rows) <= 2000)%nat -> sampled w (map Row rows ++ Flaw f :: l) rows (Some f).

Fixpoint times (t : N) (l : list N) : nat := match l with [] => 0 | x :: r => (if N.eqb x t then 1 else 0) + times t r end.
(** The most frequent number, the least of them if there are several. *)
Definition commonest (l : list N) (t : N) : Prop :=
  In t l /\ forall u, (times u l <= times t l)%nat /\ (times u l = times t l -> (t <= u)%N).

Section Csv.
  Variable F : Type.
  Variable parse_float : bytes -> option F.
  Variable var_name : bytes -> bytes.
  (** What a cell looks like: the number of its type. *)
  Variable looks : bytes -> N -> Prop.
  Variable int_like : bytes -> Prop.
  (** A header cell, without the space around it, is neither empty, nor a number, nor a truth value. *)
  Definition name_like (t : bytes) : Prop :=
    t <> [] /\ t <> bs "true" /\ t <> bs "false" /\ ~ int_like t /\ parse_float t = None.
  Definition header_guess (h : list bytes) (b : bool) : Prop :=
    (b = true /\ Forall (fun s => exists t, trims s t /\ name_like t) h) \/
    (b = false /\ Exists (fun s => exists t, trims s t /\ ~ name_like t) h).
  (** The type found for the cells of a column; none if there are no cells. *)
  Definition column_type (cells : list bytes) (t : option N) : Prop :=
    exists l, Forall2 looks cells l /\ match t with None => l = [] | Some t => commonest l t end.
  (** One column of the schema. *)
  Definition member (k : bytes) (v : option bytes) : list (bytes * jdoc) := match v with Some v => [(k, JStr v)] | None => [] end.
  Definition type_name (t : N) : bytes :=
    nth (N.to_nat t) [[]; bs "null"; bs "integer"; bs "number"; bs "boolean"; bs "string"; bs "object"; bs "array"; []] [].
  Inductive field_spec (title : bytes) (cells : list bytes) : jdoc -> Prop :=
  | fs_intro : forall title' t, cleaned title title' -> column_type cells t ->
      field_spec title cells (JObj (member (bs "title") (match title' with [] => None | _ => Some title' end) ++
                                    member (bs "type") (option_map type_name t))).
  Definition csv_doc (fields : list jdoc) : list (bytes * jdoc) :=
    [(bs "items", JObj [(bs "items", JArr fields); (bs "type", JStr (bs "array"))]); (bs "type", JStr (bs "array"))].
  Definition csv_config (header variadic : bool) : list (bytes * jdoc) :=
    (if header then [(bs "headerRow", JBool true)] else []) ++ [(bs "lazyQuotes", JBool true)] ++
    (if variadic then [(bs "variadicFields", JBool true)] else []).
  (** The cells of column i. *)
  Definition column (i : nat) (rows : list (list bytes)) (cells : list bytes) : Prop :=
    Forall2 (fun row s => nth_error row i = Some s) rows cells.
  (** A column is named after its header cell, or numbered from 1. *)
  Definition titled (header : bool) (i : nat) (s : bytes) : bytes :=
    if header then var_name s else bs "field_" ++ itoa (Z.of_nat (S i)).
  (** [csv_found l schema config]: what the answers l of the text say. *)
  Inductive csv_found : list answer -> res (list (bytes * jdoc)) -> list (bytes * jdoc) -> Prop :=
  | cf_none : forall l, csv_found (End :: l) (Err EOF) (csv_config false false)
  | cf_fails : forall e l, csv_found (Flaw (Source e) :: l) (Err e) (csv_config false false)
  | cf_breaks : forall h l b rows f, header_guess h b -> sampled (length h) l rows (Some f) ->
      csv_found (Row h :: l) (Err (EMsg "error reading csv file")) (csv_config b (existsb (fun r => negb (fits (length h) r)) rows))
  | cf_table : forall h l b rows fields, header_guess h b -> sampled (length h) l rows None -> length fields = length h ->
      (forall i s, nth_error h i = Some s -> exists cells d,
         column i ((if b then [] else [h]) ++ filter (fits (length h)) rows) cells /\
         field_spec (titled b i s) cells d /\ nth_error fields i = Some d) ->
      csv_found (Row h :: l) (Ok (csv_doc fields)) (csv_config b (existsb (fun r => negb (fits (length h) r)) rows)).

  (** ** Any format: what the bytes T of a body that ends with fin say: the format configuration and the schema. *)
  Inductive guess_of (T : bytes) (fin : err) : bytes -> gomap jdoc -> list (bytes * jdoc) -> Prop :=
  | gu_json : forall m, json_kind T (Ok m) -> guess_of T fin (bs "json") None m
  | gu_cbor : forall m, cbor_kind T (Ok m) -> guess_of T fin (bs "cbor") None m
  | gu_ndjson : guess_of T fin (bs "ndjson") None (type_only (bs "array"))
  | gu_xlsx : guess_of T fin (bs "xlsx") None (type_only (bs "array"))
  | gu_csv : forall t l m cfg, tidy fin T t -> answers true true (bs ",") fin (-1) t l -> csv_found l (Ok m) cfg ->
      guess_of T fin (bs "csv") (Some cfg) m.
End Csv.
(** A structure with nothing but these. *)
Definition bare_structure (format comp : bytes) (cfg : gomap jdoc) (schema : list (bytes * jdoc)) : structure :=
  mkStructure [] comp 0 [] 0 0 format cfg 0 [] [] (Some schema) false.
(** The same dataset but for the structure. *)
Definition same_but_structure (a b : dataset) : Prop :=
  ds_body_file a = ds_body_file b /\ ds_body a = ds_body b /\ ds_body_bytes a = ds_body_bytes b /\ ds_body_path a = ds_body_path b /\
  ds_commit a = ds_commit b /\ ds_id a = ds_id b /\ ds_meta a = ds_meta b /\ ds_name a = ds_name b /\ ds_path a = ds_path b /\
  ds_peername a = ds_peername b /\ ds_previous a = ds_previous b /\ ds_profile a = ds_profile b /\ ds_readme a = ds_readme b /\
  ds_num_versions a = ds_num_versions b /\ ds_qri a = ds_qri b /\ ds_stats a = ds_stats b /\ ds_transform a = ds_transform b /\ ds_viz a = ds_viz b.
