(** Validation of a body: the reader that dsio.NewEntryReader makes for it (dsio/dsio.go:30-45) handed to
    validate.EntryReader (validate/data.go:37-96).  [compile] is the outcome of Structure.JSONSchema (structure.go:103-118)
    and [check] what jsonschema.Schema.Validate finds in a document; the reader's Structure method returns the structure it
    was made with. *)
From Verif Require Import Base M_Bufio M_Stream M_Xlsx M_Formats M_Convert M_Validate.

Section ValidateBody.
  Variable E : Type.
  Variable parse_float : bytes -> option N.
  Variable fmt_json : N -> option bytes.
  Variable depth : nat.
  Variable surrogate : bytes.
  Variable load : bytes -> res book.
  Variable sheet_key : bytes -> bytes.
  Variable order : jmap -> jmap.
  Variables size osize dsize : nat.
  Variable unpack : bytes -> src -> res src.
  Variable compile : option jmap -> res unit.
  Variable check : option jmap -> gval N -> list E.

  Definition validate_body (fuel : nat) (sh : shape) (s : src) : res (list E) :=
    rthen (new_entry_reader load sheet_key order size dsize unpack sh s) (fun r =>
      fst (entry_reader N ereader E fmt_json parse_float depth (check (sh_schema sh)) fuel (compile (sh_schema sh)) (sh_schema sh)
             (read_step parse_float depth surrogate osize fuel) r)).
End ValidateBody.
