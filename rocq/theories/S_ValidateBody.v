(** Bodies that are objects, and values that look the same to a validator. *)
From Verif Require Import Base M_Bufio S_JsonText S_JsonBack L_JsonRead M_Cbor S_Cbor S_NDJson M_Formats M_Convert S_Convert S_ConvertCsv.

Section Pairs.
  Variable parse_float : bytes -> option N.
  Variable unpack : bytes -> src -> res src.
  (** [holds_pairs sh s kvs]: the source s is a JSON or CBOR body with the pairs kvs. *)
  Inductive holds_pairs (sh : shape) (s : src) : list (bytes * gval N) -> Prop :=
  | hp_json : forall doc kvs, typed sh fJSON (bs "object") -> content unpack (sh_compression sh) s doc ->
      jdoc_object N (float_reads N parse_float) kvs doc -> holds_pairs sh s kvs
  | hp_cbor : forall m, typed sh fCBOR (bs "object") -> whole unpack (sh_compression sh) s (cbor_encode (VMap m)) ->
      wf_value (VMap m) -> map_get [] m = None -> forallb readable_pair m = true -> holds_pairs sh s m.

  (** The schema is one of arrays. *)
  Definition of_arrays (sh : shape) : Prop := exists m, sh_schema sh = Some m /\ map_get (bs "type") m = Some (VStr (bs "array")).
  Definition of_objects (sh : shape) : Prop := exists m, sh_schema sh = Some m /\ map_get (bs "type") m = Some (VStr (bs "object")).
  (** The same JSON: an integer and the float of its digits, bytes and their base 64. *)
  Definition same_json (v v' : gval N) : Prop := exists w, line_back N parse_float v w /\ line_back N parse_float v' w.
  (** A value that can be written as JSON and read again. *)
  Definition checkable (fmt_json : N -> option bytes) (depth : nat) (v : gval N) : Prop :=
    exists d, depth = S d /\ deep N d v /\ ~ refused N fmt_json v.
End Pairs.
