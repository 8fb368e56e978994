(** Model of dsio/streams.go, dsio/entry.go, dsio/tracked_reader.go and the loops of dsio/dsio.go.
    An EntryReader is any state machine [S -> res entry * S]; an EntryWriter any state machine
    [W -> entry -> option err * W]. *)
From Verif Require Import Base.

Section Stream.
  Context {F S W C : Type}.

  (** dsio/dsio.go:29-36, EntryReader.ReadEntry. *)
  Definition reader := S -> res (entry F) * S.
  (** dsio/dsio.go:18-26, EntryWriter.WriteEntry. *)
  Definition writer := W -> entry F -> option err * W.

  (** dsio/streams.go:11-15 *)
  Record paged : Type := mkPaged { pg_r : S; pg_limit : Z; pg_offset : Z }.

  (** dsio/streams.go:26-32: for r.Offset > 0 { read; on error return; r.Offset-- }.
      [n] is the number of iterations left, max 0 Offset. *)
  Fixpoint paged_skip (rd : reader) (n : nat) (s : S) : option (res (entry F)) * S * nat :=
    match n with
    | O => (None, s, O)
    | Datatypes.S n' =>
        match rd s with
        | (Ok _, s') => paged_skip rd n' s'
        | (r, s') => (Some r, s', n)
        end
    end.

  (** dsio/streams.go:25-38, PagedReader.ReadEntry. *)
  Definition paged_read (rd : reader) (p : paged) : res (entry F) * paged :=
    match paged_skip rd (Z.to_nat (pg_offset p)) (pg_r p) with
    | (Some r, s', n) => (r, mkPaged s' (pg_limit p) (Z.of_nat n))
    | (None, s', _) =>
        let off := Z.min (pg_offset p) 0 in
        if Z.eqb (pg_limit p) 0 then (Err EOF, mkPaged s' 0 off)
        else let '(r, s'') := rd s' in (r, mkPaged s'' (pg_limit p - 1) off)
    end.

  (** dsio/streams.go:47-61, Copy. *)
  Fixpoint copy (fuel : nat) (rd : reader) (wr : writer) (s : S) (w : W) : res unit * S * W :=
    match fuel with
    | O => (OutOfFuel, s, w)
    | Datatypes.S fuel' =>
        match rd s with
        | (Ok e, s') =>
            match wr w e with
            | (None, w') => copy fuel' rd wr s' w'
            | (Some er, w') => (Err (EWrap "error writing value to buffer" 0 er), s', w')
            end
        | (Err EOF, s') => (Ok tt, s', w)
        | (Err er, s') => (Err (EWrap "row iteration error" 0 er), s', w)
        | (Panic, s') => (Panic, s', w)
        | (OutOfFuel, s') => (OutOfFuel, s', w)
        end
    end.

  (** dsio/dsio.go:174-187, ReadAllArray; [i] is the loop counter. *)
  Fixpoint read_all_array (fuel : nat) (rd : reader) (i : Z) (acc : list (gval F)) (s : S)
      : res (list (gval F)) * S :=
    match fuel with
    | O => (OutOfFuel, s)
    | Datatypes.S fuel' =>
        match rd s with
        | (Ok e, s') => read_all_array fuel' rd (i + 1) (acc ++ [e_val e]) s'
        | (Err er, s') => if is_eof_text er then (Ok acc, s') else (Err (EWrap "entry" (i + 1) er), s')
        | (Panic, s') => (Panic, s')
        | (OutOfFuel, s') => (OutOfFuel, s')
        end
    end.

  (** dsio/dsio.go:157-170, ReadAllObject. *)
  Fixpoint read_all_object (fuel : nat) (rd : reader) (i : Z) (acc : list (bytes * gval F)) (s : S)
      : res (list (bytes * gval F)) * S :=
    match fuel with
    | O => (OutOfFuel, s)
    | Datatypes.S fuel' =>
        match rd s with
        | (Ok e, s') => read_all_object fuel' rd (i + 1) (map_set (e_key e) (e_val e) acc) s'
        | (Err er, s') => if is_eof_text er then (Ok acc, s') else (Err (EWrap "row" (i + 1) er), s')
        | (Panic, s') => (Panic, s')
        | (OutOfFuel, s') => (OutOfFuel, s')
        end
    end.

  (** dsio/dsio.go:127-140, GetTopLevelType.  [schema] is None for a nil map. *)
  Definition get_top_level_type (schema : option (list (bytes * gval F))) : res bytes :=
    match schema with
    | None => Err (EMsg "a schema object is required")
    | Some m =>
        match map_get (bs "type") m with
        | Some (VStr t) =>
            if negb (beqb t (bs "array")) && negb (beqb t (bs "object"))
            then Err (EMsg "invalid schema. root must be either an array or object type")
            else Ok t
        | _ => Err (EMsg "schema top level 'type' value must be either 'array' or 'object'")
        end
    end.

  (** dsio/dsio.go:143-153, ReadAll. *)
  Definition read_all (fuel : nat) (rd : reader) (schema : option (list (bytes * gval F))) (s : S)
      : res (gval F) * S :=
    match get_top_level_type schema with
    | Ok tlt =>
        if beqb tlt (bs "object") then
          match read_all_object fuel rd 0 [] s with
          | (Ok m, s') => (Ok (VMap m), s') | (Err e, s') => (Err e, s')
          | (Panic, s') => (Panic, s') | (OutOfFuel, s') => (OutOfFuel, s')
          end
        else
          match read_all_array fuel rd 0 [] s with
          | (Ok l, s') => (Ok (VArr l), s') | (Err e, s') => (Err e, s')
          | (Panic, s') => (Panic, s') | (OutOfFuel, s') => (OutOfFuel, s')
          end
    | Err e => (Err (EWrap "getting top level type" 0 e), s)
    | Panic => (Panic, s)
    | OutOfFuel => (OutOfFuel, s)
    end.

  (** dsio/entry.go:25-47, EachEntry with a stateful callback [fn]. *)
  Fixpoint each_entry (fuel : nat) (rd : reader) (fn : C -> Z -> entry F -> option err * C)
      (num : Z) (s : S) (c : C) : res unit * S * C :=
    match fuel with
    | O => (OutOfFuel, s, c)
    | Datatypes.S fuel' =>
        match rd s with
        | (Ok e, s') =>
            match fn c num e with
            | (None, c') => each_entry fuel' rd fn (num + 1) s' c'
            | (Some er, c') => if is_eof_text er then (Ok tt, s', c') else (Err er, s', c')
            end
        | (Err er, s') =>
            if is_eof_text er then (Ok tt, s', c) else (Err (EWrap "error reading row" num er), s', c)
        | (Panic, s') => (Panic, s', c)
        | (OutOfFuel, s') => (OutOfFuel, s', c)
        end
    end.

End Stream.
Arguments reader : clear implicits.
Arguments writer : clear implicits.
Arguments paged : clear implicits.

(** dsio/dsio.go:191-230, ConvertFile, for an already chosen writer and reader (the format dispatch and
    pretty printing choice of lines 194-208 are the parameters [mkw] and [mkr]).  The error of Copy
    (line 223) is assigned and then never looked at. *)
Definition convert_file {F S W : Type} (fuel : nat)
    (mkw : res W) (wr : writer F W) (close : W -> option err * W) (bytes_of : W -> bytes)
    (mkr : res S) (rd : reader F S) (limit offset : Z) (all : bool) : res bytes :=
  match mkw with
  | Ok w =>
      match mkr with
      | Ok s =>
          let out (c : res unit * W) :=
            match c with
            | (Panic, _) => Panic
            | (OutOfFuel, _) => OutOfFuel
            | (_, w') =>
                match close w' with
                | (None, w'') => Ok (bytes_of w'')
                | (Some er, _) => Err (EWrap "error closing row buffer" 0 er)
                end
            end in
          if all then let '(x, _, w') := copy fuel rd wr s w in out (x, w')
          else let '(x, _, w') := copy fuel (paged_read rd) wr (mkPaged s limit offset) w in out (x, w')
      | Err e => Err (EWrap "creating entry reader" 0 e)
      | Panic => Panic
      | OutOfFuel => OutOfFuel
      end
  | Err e => Err e
  | Panic => Panic
  | OutOfFuel => OutOfFuel
  end.

(** dsio/tracked_reader.go:6-26: wraps any io.Reader, here a state machine that for a buffer length returns
    the bytes put into the buffer and an optional error. *)
Section Tracked.
  Context {R : Type}.
  Record tracked : Type := mkTracked { tr_read : Z; tr_r : R }.
  Definition tracked_new (r : R) : tracked := mkTracked 0 r.
  Definition tracked_step (rd : nat -> R -> bytes * option err * R) (k : nat) (t : tracked)
      : bytes * option err * tracked :=
    let '(d, e, r') := rd k (tr_r t) in
    (d, e, mkTracked (tr_read t + Z.of_nat (length d)) r').
  Fixpoint tracked_calls (rd : nat -> R -> bytes * option err * R) (ks : list nat) (t : tracked)
      : list (bytes * option err) * tracked :=
    match ks with
    | [] => ([], t)
    | k :: ks' =>
        let '(d, e, t') := tracked_step rd k t in
        let '(rs, t'') := tracked_calls rd ks' t' in ((d, e) :: rs, t'')
    end.
  (** The same calls made directly on the wrapped reader. *)
  Fixpoint direct_calls (rd : nat -> R -> bytes * option err * R) (ks : list nat) (r : R)
      : list (bytes * option err) * R :=
    match ks with
    | [] => ([], r)
    | k :: ks' =>
        let '(d, e, r') := rd k r in
        let '(rs, r'') := direct_calls rd ks' r' in ((d, e) :: rs, r'')
    end.
End Tracked.
Arguments tracked : clear implicits.
