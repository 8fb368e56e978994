(** What a valid dataset, a valid name, a batch and a table of equal rows are. *)
From Verif Require Import Base M_Doc M_Formats M_Components S_Formats S_Utf8 S_JsonText S_JsonBack S_NDJson S_Csv.
Notation length := List.length.

(** A title of at most 100 bytes. *)
Definition good_commit (c : commit) : Prop := (length (cm_title c) <= 100)%nat.
(** The format is one of the names data formats have, and there is a schema. *)
Definition good_structure (s : structure) : Prop :=
  (exists f, accepted_name (st_format s) f /\ f <> fUnknown) /\ exists m, st_schema s = Some m.
Definition good_dataset (d : dataset) : Prop :=
  (exists c, ds_commit d = Some c /\ good_commit c) /\ forall s, ds_structure d = Some s -> good_structure s.

(** Letters, digits and underscores, the first a letter. *)
Definition letters : bytes := bs "abcdefghijklmnopqrstuvwxyzABCDEFGHIJKLMNOPQRSTUVWXYZ".
Definition word_chars : bytes := letters ++ bs "0123456789_".
Definition good_name (s : bytes) : Prop :=
  exists c r, s = c :: r /\ In c letters /\ (forall x, In x r -> In x word_chars) /\ (length s <= 144)%nat.

(** How many entries are checked together: 5000. *)
Definition per_batch : nat := N.to_nat 5000.
(** [batches n l bs]: l cut into pieces of n, the last possibly shorter, none empty. *)
Inductive batches {A : Type} (n : nat) : list A -> list (list A) -> Prop :=
| ba_none : batches n [] []
| ba_last : forall b, b <> [] -> (length b <= n)%nat -> batches n b [b]
| ba_more : forall b l bs, length b = n -> l <> [] -> batches n l bs -> batches n (b ++ l) (b :: bs).

Section Docs.
  Variable F : Type.
  Variable fmt_float : F -> option bytes.
  Variable parse_float : bytes -> option F.

  (** A batch that can be written: no value without JSON; in an object, keys that differ and are not empty. *)
  Definition writable (obj : bool) (b : list (entry F)) : Prop :=
    Forall (fun e => ~ refused F fmt_float (e_val e)) b /\
    (obj = true -> Forall (fun e => e_key e <> []) b /\ NoDup (map e_key b)).
  (** The document a batch is checked as: an array of the values, or an object of the pairs, as read back
      from JSON. *)
  Inductive batch_doc : bool -> list (entry F) -> gval F -> Prop :=
  | bd_array : forall b vs, Forall2 (fun e v => line_back F parse_float (e_val e) v) b vs -> batch_doc false b (VArr vs)
  | bd_object : forall b kvs,
      Forall2 (fun e kv => cleaned (e_key e) (fst kv) /\ line_back F parse_float (e_val e) (snd kv)) b kvs ->
      batch_doc true b (object_of F kvs).
End Docs.

(** Line endings: CR LF is one line break, other CRs stay, except one at the end of a text. *)
Inductive unix_text (fin : err) : bytes -> bytes -> Prop :=
| un_nil : unix_text fin [] []
| un_keep : forall c s o, c <> 13%N -> unix_text fin s o -> unix_text fin (c :: s) (c :: o)
| un_crlf : forall s o, unix_text fin s o -> unix_text fin (13%N :: 10%N :: s) (10%N :: o)
| un_cr : forall s o, ~ begins [10%N] s -> s <> [] \/ fin <> EOF -> unix_text fin s o -> unix_text fin (13%N :: s) (13%N :: o)
| un_last : fin = EOF -> unix_text fin [13%N] [].
(** A comma separated text, read strictly and with white space before cells left out, of rows of equal
    width, at least one, and nothing else. *)
Definition equal_rows (fin : err) (d : bytes) (rows : list (list bytes)) : Prop :=
  exists t, unix_text fin d t /\ answers false true [44%N] fin (-1) t (map Row rows ++ [End]) /\
  rows <> [] /\ exists w, Forall (fun r => length r = w) rows.
