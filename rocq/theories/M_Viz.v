(** Model of dsviz/render.go.  Package html/template is a parameter: what a template text is compiled to is a
    program that asks for body entries and ends with an output or an error. *)
From Verif Require Import Base M_Decimal M_Bufio M_Stream M_Tee M_Preview.

(** dsviz/render.go:221-231 *)
Definition kilobyte : Z := 2 ^ 10.
Definition megabyte : Z := 2 ^ 20.
Definition gigabyte : Z := 2 ^ 30.
Definition terabyte : Z := 2 ^ 40.
Definition petabyte : Z := 2 ^ 50.
(** dsviz/render.go:234-268, printByteInfo; n is an int64. *)
Definition print_byte_info (l : Z) : bytes :=
  let '(name, value) :=
    if (petabyte <=? l)%Z then (bs "PB", Z.quot l petabyte)
    else if (terabyte <=? l)%Z then (bs "TB", Z.quot l terabyte)
    else if (gigabyte <=? l)%Z then (bs "GB", Z.quot l gigabyte)
    else if (megabyte <=? l)%Z then (bs "MB", Z.quot l megabyte)
    else if (kilobyte <=? l)%Z then (bs "KB", Z.quot l kilobyte)
    else (bs "byte", l) in
  let name := if Z.eqb value 1 then name else name ++ bs "s" in
  itoa value ++ bs " " ++ name.

Section Viz.
  Variables F Str St : Type.
  (** dsviz/render.go:107-137, isType; values of other Go types are not modelled. *)
  Definition is_type (v : gval F) (eq : bytes) : res bool :=
    if beqb eq (bs "string") then Ok (match v with VStr _ => true | _ => false end)
    else if beqb eq (bs "object") then Ok (match v with VMap _ => true | _ => false end)
    else if beqb eq (bs "array") then Ok (match v with VArr _ => true | _ => false end)
    else if beqb eq (bs "boolean") then Ok (match v with VBool _ => true | _ => false end)
    else if beqb eq (bs "number") then Ok (match v with VFloat _ => true | VInt _ => true | _ => false end)
    else Err (EMsg "invalid type comparison value").

  (** dsviz/render.go:197-213, the loop of readEntries over any reader. *)
  Fixpoint entries_loop {S : Type} (fuel : nat) (rd : S -> res (entry F) * S) (is_obj : bool) (obj : list (bytes * gval F)) (array : list (gval F)) (s : S)
      : res (gval F) * S :=
    match fuel with
    | O => (OutOfFuel, s)
    | Datatypes.S fuel' =>
        match rd s with
        | (Ok e, s') =>
            if is_obj then entries_loop fuel' rd is_obj (map_set (e_key e) (e_val e) obj) array s'
            else entries_loop fuel' rd is_obj obj (array ++ [e_val e]) s'
        | (Err e, s') => if is_eof_text e then (Ok (if is_obj then VMap obj else VArr array), s') else (Err e, s')
        | (Panic, s') => (Panic, s')
        | (OutOfFuel, s') => (OutOfFuel, s')
        end
    end.
  (** dsviz/render.go:187-219, readEntries; [schema] is that of reader.Structure(). *)
  Definition read_entries {S : Type} (fuel : nat) (rd : S -> res (entry F) * S) (schema : option (list (bytes * gval F))) (s : S) : res (gval F) * S :=
    match get_top_level_type schema with
    | Ok tlt => entries_loop fuel rd (beqb tlt (bs "object")) [] [] s
    | Err e => (Err e, s)
    | Panic => (Panic, s)
    | OutOfFuel => (OutOfFuel, s)
    end.

  Variable schema_of : Str -> option (list (bytes * gval F)).
  Variable open : Str -> prog (res St).
  Variable step : St -> prog (res (entry F) * St).
  (** qfs.File FileName: the last part of the path *)
  Variable file_name : bytes -> bytes.
  Notation rd := (read_entry F St step (tee_read file_read)).
  (** dsviz/render.go:155-185, bodyEntries: the outcome, and the body file afterwards.  The new body file is
      the buffer of the tee.  Reading a nil body file panics. *)
  Definition body_entries (fuel : nat) (st : option Str) (body : option pfile) (offset limit : Z) : res (gval F) * option pfile :=
    match st, body with
    | None, _ => (Err (EMsg "can't get_body. dataset has no structure component"), body)
    | Some _, None => (Panic, None)
    | Some st, Some f =>
        let on t := Some (mkPfile (pf_path f) (pf_size f) t) in
        match run (tee_read file_read) (open st) (pf_content f, []) with
        | (Ok s, t) =>
            let '(x, (r, buf)) :=
              if (0 <=? offset)%Z && (0 <=? limit)%Z then
                let '(x, p) := read_entries fuel (paged_read rd) (schema_of st) (mkPaged (s, t) limit offset) in (x, snd (pg_r p))
              else let '(x, s') := read_entries fuel rd (schema_of st) (s, t) in (x, snd s') in
            match x with
            | Ok v => (Ok v, Some (mkPfile (file_name (pf_path f)) None (FBuf buf)))
            | x => (x, on r)
            end
        | (Err e, (r, _)) => (Err (EWrap "error allocating data reader" 0 e), on r)
        | (Panic, (r, _)) => (Panic, on r)
        | (OutOfFuel, (r, _)) => (OutOfFuel, on r)
        end
    end.

  (** A template at work: a call of bodyEntries (allBodyEntries is offset 0, limit -1) whose value goes into
      the rest, or the end.  An error of a function ends the execution with that error. *)
  Inductive tmpl : Type :=
  | TEnd (out : res bytes)
  | TBody (offset limit : Z) (next : gval F -> tmpl).
  Fixpoint run_tmpl (fuel : nat) (st : option Str) (t : tmpl) (body : option pfile) : res bytes * option pfile :=
    match t with
    | TEnd out => (out, body)
    | TBody offset limit next =>
        match body_entries fuel st body offset limit with
        | (Ok v, body) => run_tmpl fuel st (next v) body
        | (Err e, body) => (Err e, body)
        | (Panic, body) => (Panic, body)
        | (OutOfFuel, body) => (OutOfFuel, body)
        end
    end.

  (** The parts of a dataset used here: the format of its viz component (None: no component) and its script
      file, the structure, the body file. *)
  Record viz_ds : Type := mkViz { vz_format : option bytes; vz_script : option pfile; vz_str : option Str; vz_body : option pfile }.
  (** What the texts of templates do; vizDataset (139-147), a round trip through JSON, succeeds or not. *)
  Variable compile : bytes -> res tmpl.
  Variable viz_dataset : res unit.
  (** dsviz/render.go:37-104, renderHTML, and 23-31, Render: the file made, and the dataset afterwards. *)
  Definition render (fuel : nat) (sizes : nat -> nat) (d : viz_ds) : res pfile * viz_ds :=
    match vz_format d with
    | None => (Err (EMsg "no viz component"), d)
    | Some format =>
        if negb (beqb format (bs "html")) then (Err (EMsg "render format must be 'html'"), d)
        else
          match vz_script d with
          | None => (Panic, d)
          | Some f =>
              match M_Tee.read_all (tee_read file_read) fuel sizes (pf_content f, []) with
              | None => (OutOfFuel, d)
              | Some (_, Some e, (r, _)) =>
                  (Err (EWrap "reading template data" 0 e), mkViz (vz_format d) (Some (mkPfile (pf_path f) (pf_size f) r)) (vz_str d) (vz_body d))
              | Some (text, None, (_, buf)) =>
                  let script := Some (mkPfile (file_name (pf_path f)) None (FBuf buf)) in
                  let on body := mkViz (vz_format d) script (vz_str d) body in
                  match viz_dataset with
                  | Ok _ =>
                      match compile text with
                      | Ok t =>
                          match run_tmpl fuel (vz_str d) t (vz_body d) with
                          | (Ok out, body) => (Ok (mkPfile (bs "index.html") None (FBuf out)), on body)
                          | (Err e, body) => (Err e, on body)
                          | (Panic, body) => (Panic, on body)
                          | (OutOfFuel, body) => (OutOfFuel, on body)
                          end
                      | Err e => (Err (EWrap "parsing template" 0 e), on (vz_body d))
                      | Panic => (Panic, on (vz_body d))
                      | OutOfFuel => (OutOfFuel, on (vz_body d))
                      end
                  | Err e => (Err e, on (vz_body d))
                  | Panic => (Panic, on (vz_body d))
                  | OutOfFuel => (OutOfFuel, on (vz_body d))
                  end
              end
          end
    end.
End Viz.
Arguments TEnd {F} _.
Arguments TBody {F} _ _ _.
