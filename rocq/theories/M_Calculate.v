(** Model of Calculate, dsstats/stats.go:34-48: the statistics of the body of a dataset. *)
From Verif Require Import Base M_Bufio M_Float M_Stream M_Stats M_Xlsx M_Formats M_Convert.

Section Calculate.
  Variable parse_float : bytes -> option N.
  Variable depth : nat.
  Variable surrogate : bytes.
  Variable load : bytes -> res book.
  Variable sheet_key : bytes -> bytes.
  Variable order : jmap -> jmap.
  Variables size osize dsize : nat.
  Variable unpack : bytes -> src -> res src.
  Variable estimate : list bytes -> Z.
  Variable top_keys : list bytes -> list (bytes * Z).
  (** The float64 that the readers' models name by a number. *)
  Variable float : N -> f64.

  Fixpoint as_val (v : gval N) : val :=
    match v with
    | VNil => VNil | VBool b => VBool b | VInt z => VInt z | VFloat n => VFloat (float n) | VStr s => VStr s | VBytes s => VBytes s
    | VArr l => VArr (map as_val l)
    | VMap m => VMap (map (fun kv => (fst kv, as_val (snd kv))) m)
    end.
  Definition as_entry (e : entry N) : entry f64 := mkEntry (e_index e) (e_key e) (as_val (e_val e)).
  (** ReadEntry of the reader that NewEntryReader made *)
  Definition entry_step (fuel : nat) (r : ereader) : res (entry f64) * ereader :=
    let '(x, r') := read_step parse_float depth surrogate osize fuel r in (rthen x (fun e => Ok (as_entry e)), r').
  Definition calculate_dataset (fuel : nat) (body : option src) (st : option shape) : res (option (list (list (bytes * val)))) :=
    match body with
    | None => Err (EMsg "stats: dataset has no body file")
    | Some s =>
      match st with
      | None => Err (EMsg "stats: dataset is missing structure")
      | Some sh =>
        rthen (new_entry_reader load sheet_key order size dsize unpack sh s) (fun r => fst (calculate estimate top_keys fuel (entry_step fuel) r))
      end
    end.
End Calculate.
