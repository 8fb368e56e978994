(** C87: which structures need a schema that describes a table. *)
From Verif Require Import Base M_Bufio M_Sink M_Json M_JsonWrite M_Cbor M_Columns M_Tabular S_Tabular M_CsvText M_Csv M_NDJson M_Xlsx M_Formats S_Formats P_Formats M_Stream M_Convert M_Requires.
From Verif Require P_Tabular P_Convert.

(** A schema that describes a table; no schema describes none. *)
Definition describes_table (schema : option jmap) : Prop := exists sch items, schema = Some sch /\ P_Tabular.table_schema sch items.

(** The names that require one are those of CSV and XLSX. *)
Theorem requires_iff : forall format, requires_tabular_schema format = true <-> exists f, format_name f format /\ (f = fCSV \/ f = fXLSX).
Proof.
  intros format. unfold requires_tabular_schema. rewrite orb_true_iff, !beqb_eq. unfold format_name. split.
  - intros [->| ->]; [exists fCSV|exists fXLSX]; auto 20.
  - intros [f [H [-> | ->]]]; decompose [or and] H; subst; try discriminate; auto.
Qed.

Section Requires.
  Variable load : bytes -> res book.
  Variable sheet_key : bytes -> bytes.
  Variable order : jmap -> jmap.
  Variables size wsize dsize : nat.
  Variable unpack : bytes -> src -> res src.
  Notation new_entry_reader := (new_entry_reader load sheet_key order size dsize unpack).
  Notation new_entry_writer := (new_entry_writer sheet_key order wsize).

  Lemma no_columns : forall schema, ~ describes_table schema -> exists e, columns_from_schema order (some_map schema) = Err e.
  Proof.
    intros schema H. apply P_Tabular.columns_error. intros items Ht. apply H.
    destruct schema as [m|]; [exists m, items; auto|]. destruct Ht as [Ht _]. discriminate Ht.
  Qed.
  Lemma csv_or_xlsx : forall format, structure_data_format format = fCSV \/ structure_data_format format = fXLSX -> forall sh s k, sh_format sh = format ->
    ~ describes_table (sh_schema sh) ->
    (exists e, new_entry_reader sh s = Err e) /\ (exists e, new_entry_writer sh k = Err e).
  Proof.
    intros format Hf sh s k <- Ht. destruct (no_columns _ Ht) as [e He].
    unfold M_Convert.new_entry_reader, M_Convert.new_entry_writer. destruct Hf as [->| ->]; cbn [Z.eqb fCSV fXLSX fCBOR fJSON].
    - change (Z.eqb fCSV fCBOR) with false. change (Z.eqb fCSV fJSON) with false. change (Z.eqb fCSV fCSV) with true. cbn iota.
      unfold open_csv, make_csv, new_csv_reader, new_csv_writer. rewrite He. split; eexists; reflexivity.
    - change (Z.eqb fXLSX fCBOR) with false. change (Z.eqb fXLSX fJSON) with false. change (Z.eqb fXLSX fCSV) with false. change (Z.eqb fXLSX fXLSX) with true. cbn iota.
      unfold open_xlsx, make_xlsx, new_xlsx_reader, new_xlsx_writer. rewrite He.
      destruct (s_fin s); destruct (sh_compression sh); split; eexists; reflexivity.
  Qed.
  (** Without such a schema there is neither a reader nor a writer, whatever the source. *)
  Theorem required_schema : forall sh s k, requires_tabular_schema (sh_format sh) = true -> ~ describes_table (sh_schema sh) ->
    (exists e, new_entry_reader sh s = Err e) /\ (exists e, new_entry_writer sh k = Err e).
  Proof.
    intros sh s k Hr. apply requires_iff in Hr. destruct Hr as [f [Hn Hf]]. apply (csv_or_xlsx (sh_format sh)); [|reflexivity].
    assert (E : structure_data_format (sh_format sh) = f).
    { unfold structure_data_format. rewrite (proj2 (data_format_accepts_exactly (sh_format sh) f)); [reflexivity|]. exists (sh_format sh). auto. }
    rewrite E. assumption.
  Qed.
  (** The formats of the other names that are known take a schema that describes no table: of a list. *)
  Theorem unrequired_schema : forall f format sch k, format_name f format -> f = fJSON \/ f = fNDJSON \/ f = fCBOR ->
    map_get (bs "type") sch = Some (VStr (bs "array")) ->
    requires_tabular_schema format = false /\
    (forall config s, exists r, new_entry_reader (mkShape format [] (Some sch) config) s = Ok r) /\
    (forall config, exists w, new_entry_writer (mkShape format [] (Some sch) config) k = Ok w).
  Proof.
    intros f format sch k Hn Hf Ht.
    assert (G : get_top_level_type (Some sch) = Ok (bs "array")).
    { unfold get_top_level_type. rewrite Ht. reflexivity. }
    unfold format_name in Hn.
    destruct Hf as [->|[->| ->]]; decompose [or and] Hn; try discriminate; subst; (split; [reflexivity|]);
      (split; [intros config s; match goal with |- exists r, _ ?sh _ = _ => set (X := sh) end|intros config; match goal with |- exists r, _ ?sh _ = _ => set (X := sh) end]).
    - change (new_entry_reader X s) with (open_json size unpack X s). unfold open_json. cbn [sh_schema X required rthen]. rewrite G. eexists; reflexivity.
    - change (new_entry_writer X k) with (make_json [] X k). unfold make_json. cbn [sh_schema X required rthen]. rewrite G. eexists; reflexivity.
    - change (new_entry_reader X s) with (open_nd dsize unpack X s). unfold open_nd. cbn [sh_schema X required rthen]. rewrite G. eexists; reflexivity.
    - change (new_entry_writer X k) with (make_nd X k). eexists; reflexivity.
    - change (new_entry_reader X s) with (open_cbor unpack X s). unfold open_cbor. cbn [sh_schema X required rthen]. rewrite G. eexists; reflexivity.
    - change (new_entry_writer X k) with (make_cbor X). unfold make_cbor. cbn [sh_schema X required rthen]. rewrite G. eexists; reflexivity.
  Qed.
  (** Spellings that stand for CSV or XLSX and do not say that they require one do so all the same. *)
  Theorem requires_told_refuted : exists sh, requires_tabular_schema (sh_format sh) = false /\
    map_get (bs "type") (some_map (sh_schema sh)) = Some (VStr (bs "array")) /\
    forall s k, (exists e, new_entry_reader sh s = Err e) /\ (exists e, new_entry_writer sh k = Err e).
  Proof.
    exists (mkShape (bs ".csv") [] (Some [(bs "type", VStr (bs "array"))]) None). split; [reflexivity|]. split; [reflexivity|].
    intros s k. apply (csv_or_xlsx (bs ".csv")); [now left|reflexivity|].
    intros [sch [items [E [_ [m [H _]]]]]]. injection E; intros; subst. discriminate H.
  Qed.
End Requires.

Definition row_schema : jmap := [(bs "items", VMap [(bs "items", VArr [VMap [(bs "type", VStr (bs "string"))]])]); (bs "type", VStr (bs "array"))].
Example required_schema_ex :
  requires_tabular_schema (bs "xlsx") = true /\ ~ describes_table (Some [(bs "type", VStr (bs "array"))]) /\ describes_table (Some row_schema) /\
  exists r, new_entry_reader (fun _ => Panic) (fun k => k) (fun m => m) 16 16 (fun _ s => Ok s) (mkShape (bs "csv") [] (Some row_schema) None) (mkSrc [] EOF []) = Ok r.
Proof.
  split; [reflexivity|]. split; [|split].
  - intros [sch [items [E [_ [m [H _]]]]]]. injection E; intros; subst. discriminate H.
  - exists row_schema, [VMap [(bs "type", VStr (bs "string"))]]. split; [reflexivity|]. split; [reflexivity|]. eexists; split; reflexivity.
  - eexists. reflexivity.
Qed.

Print Assumptions requires_iff.
Print Assumptions required_schema.
Print Assumptions unrequired_schema.
Print Assumptions requires_told_refuted.
