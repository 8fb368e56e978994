(** The structure of a dataset as dsio.NewEntryReader sees it. *)
From Verif Require Import Base M_Doc M_Components M_Convert.

Section Shape.
  Variable parse_float : bytes -> option N.
  (** structure.go:29-77: the maps Schema and FormatConfig hold interface{} values.  Simplification: an integer stays one,
      where a decoded document has a float64; times and byte slices, which no such map holds, become nil. *)
  Fixpoint doc_value (d : jdoc) : gval N :=
    match d with
    | JNull => VNil
    | JBool b => VBool b
    | JInt z => VInt z
    | JReal t => match parse_float t with Some f => VFloat f | None => VNil end
    | JStr s => VStr s
    | JTime _ | JB64 _ => VNil
    | JArr l => VArr (map doc_value l)
    | JObj m => VMap (map (fun kv => (fst kv, doc_value (snd kv))) m)
    end.
  Definition doc_map (m : list (bytes * jdoc)) : list (bytes * gval N) := map (fun kv => (fst kv, doc_value (snd kv))) m.
  (** The fields NewEntryReader (dsio/dsio.go:52-75) and the readers it makes look at. *)
  Definition shape_of (st : structure) : shape :=
    mkShape (st_format st) (st_compression st) (option_map doc_map (st_schema st)) (option_map doc_map (st_format_config st)).
End Shape.
