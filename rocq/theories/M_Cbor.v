(** Model of dsio/cbor.go (CBORReader, CBORWriter) and of the part of github.com/ugorji/go/codec that the writer uses.
    Go's byte slices returned by bufio.Reader.Peek alias the reader's buffer.  The reader hands such a slice to its caller
    only for a CBOR byte string (cbor.go:278-283); everywhere else it copies or decodes at once.  Programs are therefore
    parametric in a type [X] of slice identities. *)
From Verif Require Import Base M_Bufio M_Decimal.

(** ** Programs over a buffered reader that can keep the slice a Peek returned *)
Inductive sprog (X A : Type) : Type :=
| SRet (a : A)
| SReadByte (k : res byte -> sprog X A)
| SPeek (n : Z) (k : X -> bytes -> option err -> sprog X A)
| SDiscard (n : Z) (k : sprog X A).
Arguments SRet {X A} _.
Arguments SReadByte {X A} _.
Arguments SPeek {X A} _ _.
Arguments SDiscard {X A} _ _.
Fixpoint sbind {X A B : Type} (p : sprog X A) (f : A -> sprog X B) : sprog X B :=
  match p with
  | SRet a => f a
  | SReadByte k => SReadByte (fun r => sbind (k r) f)
  | SPeek n k => SPeek n (fun x d e => sbind (k x d e) f)
  | SDiscard n k => SDiscard n (sbind k f)
  end.
(** "v, err := p; if err != nil return err" *)
Definition rbind {X A B : Type} (p : sprog X (res A)) (f : A -> sprog X (res B)) : sprog X (res B) :=
  sbind p (fun r => match r with Ok a => f a | Err e => SRet (Err e) | Panic => SRet Panic | OutOfFuel => SRet OutOfFuel end).
(** The same program with one fixed slice identity, as a program of M_Bufio. *)
Fixpoint plain {X A : Type} (x : X) (p : sprog X A) : prog A :=
  match p with
  | SRet a => PRet a
  | SReadByte k => PReadByte (fun r => plain x (k r))
  | SPeek n k => PPeek n (fun d e => plain x (k x d e))
  | SDiscard n k => PDiscard n (plain x k)
  end.

(** ** Values the reader produces *)
(** A float64 is its 64-bit pattern.  [CBytes (Some x) s] aliases slice [x], whose contents were [s] when it was taken;
    [CBytes None s] owns its bytes. *)
Inductive cval (X : Type) : Type :=
| CNil
| CBool (b : bool)
| CInt (z : Z)
| CFloat (bits : N)
| CStr (s : bytes)
| CBytes (x : option X) (s : bytes)
| CArr (l : list (cval X))
| CMap (m : list (bytes * cval X)).
Arguments CNil {X}.
Arguments CBool {X} _.
Arguments CInt {X} _.
Arguments CFloat {X} _.
Arguments CStr {X} _.
Arguments CBytes {X} _ _.
Arguments CArr {X} _.
Arguments CMap {X} _.

(** The value with its byte strings as [look] sees them now. *)
Fixpoint observe {X : Type} (look : X -> bytes -> bytes) (v : cval X) : gval N :=
  match v with
  | CNil => VNil
  | CBool b => VBool b
  | CInt z => VInt z
  | CFloat b => VFloat b
  | CStr s => VStr s
  | CBytes None s => VBytes s
  | CBytes (Some x) s => VBytes (look x s)
  | CArr l => VArr (map (observe look) l)
  | CMap m => VMap (map (fun kv => (fst kv, observe look (snd kv))) m)
  end.
(** The value as it was when its parts were read. *)
Definition as_read {X : Type} (v : cval X) : gval N := observe (fun _ s => s) v.

(** ** Reader *)
(** binary.BigEndian.Uint64 on up to eight bytes padded with zeros (cbor.go:413-416, 425-428) *)
Definition be_value (d : bytes) : N := fold_left (fun a c => a * 256 + c)%N d 0%N.
(** Conversion uint64 to int64 *)
Definition wrap_int64 (n : N) : Z := if (n <? 2 ^ 63)%N then Z.of_N n else (Z.of_N n - 2 ^ 64)%Z.
(** make([]interface{}, 0, length) panics when 16*length exceeds the address space (2^48 bytes).
    Simplification: running out of memory below that limit is not modelled. *)
Definition max_slice_cap : Z := (2 ^ 44)%Z.

Section Reader.
  Context {X : Type}.
  Notation P A := (sprog X (res A)).

  (** cbor.go:432-442, readBytes.  The Discard cannot fail after a successful Peek. *)
  Definition read_bytes (num : Z) : P (X * bytes) :=
    SPeek num (fun x d e => match e with Some er => SRet (Err er) | None => SDiscard num (SRet (Ok (x, d))) end).
  (** cbor.go:408-417, readIntBytes *)
  Definition read_int_bytes (num : Z) : P Z := rbind (read_bytes num) (fun xd => SRet (Ok (wrap_int64 (be_value (snd xd))))).
  (** cbor.go:420-429, readFloatBytes: shorter floats are padded with zeros, not converted. *)
  Definition read_float_bytes (num : Z) : P (cval X) := rbind (read_bytes num) (fun xd => SRet (Ok (CFloat (be_value (snd xd))))).
  (** cbor.go:390-405, getVarLenInt; [b] is the whole initial byte. *)
  Definition get_var_len_int (b : N) : P Z :=
    let a := (b mod 32)%N in
    if (a <? 24)%N then SRet (Ok (Z.of_N a))
    else if (a =? 24)%N then read_int_bytes 1
    else if (a =? 25)%N then read_int_bytes 2
    else if (a =? 26)%N then read_int_bytes 4
    else if (a =? 27)%N then read_int_bytes 8
    else SRet (Err (EMsg "Could not decode variable length int")).
  (** cbor.go:317-327, readIndefiniteSequenceBreak *)
  Definition read_break : P bool :=
    SPeek 1 (fun _ d e => match e with
      | Some _ => SRet (Ok false)
      | None => match d with c :: _ => if N.eqb c 255 then SDiscard 1 (SRet (Ok true)) else SRet (Ok false) | [] => SRet Panic end
      end).
  (** r.rdr.ReadByte() *)
  Definition read_byte_p : P N := SReadByte (fun r => SRet r).
  (** cbor.go:330-340, readLengthPrefixedBytes *)
  Definition read_prefixed (b : N) : P (X * bytes) := rbind (get_var_len_int b) read_bytes.
  (** cbor.go:174-195, readStringKey *)
  Definition read_string_key : P bytes :=
    rbind read_byte_p (fun b =>
      if negb (N.eqb (b / 32) 3) then SRet (Err (EMsg "expected string for key"))
      else rbind (read_prefixed b) (fun xd => SRet (Ok (snd xd)))).
  (** cbor.go:224-239 and 241-256: the loop that concatenates the chunks of an indefinite byte or text string.
      The chunk's major type is not looked at. *)
  Fixpoint read_chunks (fuel : nat) (acc : bytes) : P bytes :=
    match fuel with
    | O => SRet OutOfFuel
    | S f => rbind read_break (fun brk =>
        if brk : bool then SRet (Ok acc)
        else rbind read_byte_p (fun b => rbind (read_prefixed b) (fun xd => read_chunks f (acc ++ snd xd))))
    end.

  (** cbor.go:204-313, readValue after the initial byte [b]; the arguments read the chunks of an indefinite string, an array
      and a map of a given length. *)
  Definition read_item (chs : P bytes) (arr : Z -> P (list (cval X))) (mp : Z -> P (list (bytes * cval X))) (b : N) : P (cval X) :=
    if (b <? 28)%N then rbind (get_var_len_int b) (fun z => SRet (Ok (CInt z)))
    else if ((32 <=? b) && (b <? 56))%N then SRet (Ok (CInt (- (Z.of_N b - 31))%Z))
    else if (b =? 246)%N then SRet (Ok CNil)
    else if (b =? 244)%N then SRet (Ok (CBool false))
    else if (b =? 245)%N then SRet (Ok (CBool true))
    else if (b =? 249)%N then read_float_bytes 2
    else if (b =? 250)%N then read_float_bytes 4
    else if (b =? 251)%N then read_float_bytes 8
    else if (b =? 95)%N then rbind chs (fun s => SRet (Ok (CBytes None s)))
    else if (b =? 127)%N then rbind chs (fun s => SRet (Ok (CStr s)))
    else if (b =? 159)%N then rbind (arr (-1)%Z) (fun l => SRet (Ok (CArr l)))
    else if (b =? 191)%N then rbind (mp (-1)%Z) (fun m => SRet (Ok (CMap m)))
    else
      let t := (b / 32)%N in
      if (t =? 3)%N then rbind (read_prefixed b) (fun xd => SRet (Ok (CStr (snd xd))))
      else if (t =? 2)%N then rbind (read_prefixed b) (fun xd => SRet (Ok (CBytes (Some (fst xd)) (snd xd))))
      else if (t =? 4)%N then rbind (get_var_len_int b) (fun n =>
        if (n >? max_slice_cap)%Z then SRet Panic else rbind (arr n) (fun l => SRet (Ok (CArr l))))
      else if (t =? 5)%N then rbind (get_var_len_int b) (fun n => rbind (mp n) (fun m => SRet (Ok (CMap m))))
      else if (t =? 6)%N then SRet (Ok CNil)
      else if (t =? 7)%N then SRet (Ok CNil)
      else SRet (Err (EMsg "unknown cbor tag")).

  (** cbor.go:198-314 readValue, 343-364 readArray, 367-387 readMap *)
  Fixpoint read_value (fuel : nat) : P (cval X) :=
    match fuel with
    | O => SRet OutOfFuel
    | S f => rbind read_byte_p (read_item (read_chunks f []) (fun n => read_array f n []) (fun n => read_map f n []))
    end
  with read_array (fuel : nat) (n : Z) (acc : list (cval X)) : P (list (cval X)) :=
    match fuel with
    | O => SRet OutOfFuel
    | S f =>
        if (n =? 0)%Z then SRet (Ok acc)
        else rbind (if (n =? -1)%Z then read_break else SRet (Ok false)) (fun brk =>
          if brk : bool then SRet (Ok acc)
          else rbind (read_value f) (fun v => read_array f (if (n >? 0)%Z then n - 1 else n)%Z (acc ++ [v])))
    end
  with read_map (fuel : nat) (n : Z) (acc : list (bytes * cval X)) : P (list (bytes * cval X)) :=
    match fuel with
    | O => SRet OutOfFuel
    | S f =>
        if (n =? 0)%Z then SRet (Ok acc)
        else rbind (if (n =? -1)%Z then read_break else SRet (Ok false)) (fun brk =>
          if brk : bool then SRet (Ok acc)
          else rbind read_string_key (fun k => rbind (read_value f) (fun v =>
            read_map f (if (n >? 0)%Z then n - 1 else n)%Z (map_set k v acc))))
    end.

  (** cbor.go:149-171, readTopLevel *)
  Definition read_top_level : P (N * Z) :=
    rbind read_byte_p (fun b =>
      let t := (b / 32)%N in
      if negb (N.eqb t 4) && negb (N.eqb t 5) then SRet (Err (EMsg "invalid top level type"))
      else if (b mod 32 =? 31)%N then SRet (Ok (t, (-1)%Z))
      else rbind (get_var_len_int b) (fun n => SRet (Ok (t, n)))).

  (** cbor.go:16-23, the reader's own state: rowsRead, length; whether topLevel == cborBaseMap is a parameter [obj]. *)
  Record cbor_state := mkCbor { cr_rows : Z; cr_len : Z }.
  Definition cbor_start : cbor_state := mkCbor 0 0.
  Record centry := mkCentry { ce_index : Z; ce_key : bytes; ce_val : cval X }.

  (** cbor.go:85-103, ReadEntry after the top level: outcome and new state. *)
  Definition cbor_read_body (fuel : nat) (obj : bool) (st : cbor_state) : sprog X (res centry * cbor_state) :=
    sbind (rbind (if (cr_len st =? -1)%Z then read_break else SRet (Ok false)) (fun brk =>
      if brk : bool then SRet (Err EOF)
      else rbind (if obj : bool then read_string_key else SRet (Ok [])) (fun k =>
        rbind (read_value fuel) (fun v => SRet (Ok (mkCentry (if obj then 0 else cr_rows st) k v))))))
      (fun r => SRet (r, match r with Ok _ => mkCbor (cr_rows st + 1) (cr_len st) | _ => st end)).
  (** cbor.go:70-104, ReadEntry.  Returning early keeps rowsRead, so the top level is read again by the next call;
      length is kept once read. *)
  Definition cbor_read_entry (fuel : nat) (obj : bool) (st : cbor_state) : sprog X (res centry * cbor_state) :=
    if (cr_rows st =? 0)%Z then
      sbind read_top_level (fun r => match r with
        | Ok (t, n) => if Bool.eqb (N.eqb t 5) obj then cbor_read_body fuel obj (mkCbor 0 n)
                       else SRet (Err (EMsg "Top-level type did not match"), st)
        | Err e => SRet (Err e, st)
        | Panic => SRet (Panic, st)
        | OutOfFuel => SRet (OutOfFuel, st)
        end)
    else cbor_read_body fuel obj st.

  (** Calling ReadEntry until it fails, as ReadAll does: the entries and the final outcome. *)
  Fixpoint cbor_read_loop (n fuel : nat) (obj : bool) (st : cbor_state) : sprog X (list centry * res unit) :=
    match n with
    | O => SRet ([], OutOfFuel)
    | S n' => sbind (cbor_read_entry fuel obj st) (fun '(r, st') => match r with
        | Ok e => sbind (cbor_read_loop n' fuel obj st') (fun '(es, out) => SRet (e :: es, out))
        | Err e => SRet ([], Err e)
        | Panic => SRet ([], Panic)
        | OutOfFuel => SRet ([], OutOfFuel)
        end)
    end.
End Reader.
Arguments mkCentry {X} _ _ _.
Arguments ce_index {X} _.
Arguments ce_key {X} _.
Arguments ce_val {X} _.
Arguments centry X : clear implicits.

(** bufio.NewReader: default buffer size (cbor.go:58). *)
Definition cbor_buf_size : nat := N.to_nat 4096.
(** The entry handed to the caller, with byte strings as they were when read. *)
Definition entry_read {X : Type} (e : centry X) : entry N := mkEntry (ce_index e) (ce_key e) (as_read (ce_val e)).
(** A new reader on a source, read until ReadEntry fails.  The fuel suffices for every input (P_Cbor). *)
Definition cbor_read_all (obj : bool) (s : src) : list (entry N) * res unit :=
  let k := length (s_rem s) in
  let '(es, out) := fst (run_buf (plain tt (cbor_read_loop (S k) (S (2 * k)) obj cbor_start)) (new_bufr cbor_buf_size s)) in
  (map entry_read es, out).

(** ** Writer *)
(** [n] in [k] big-endian bytes *)
Fixpoint be_bytes (k : nat) (n : N) : bytes :=
  match k with O => [] | S k => be_bytes k (n / 256) ++ [(n mod 256)%N] end.
(** codec: encUint, the shortest head for a length or integer; [major] is the major type (0-7). *)
Definition cbor_head (major n : N) : bytes :=
  if (n <? 24)%N then [(major * 32 + n)%N]
  else if (n <? 2 ^ 8)%N then (major * 32 + 24)%N :: be_bytes 1 n
  else if (n <? 2 ^ 16)%N then (major * 32 + 25)%N :: be_bytes 2 n
  else if (n <? 2 ^ 32)%N then (major * 32 + 26)%N :: be_bytes 4 n
  else (major * 32 + 27)%N :: be_bytes 8 n.
(** codec.Encoder.Encode with CborHandle{Canonical: true}: definite lengths, map keys in ascending byte order
    (maps are kept sorted), floats in eight bytes. *)
Fixpoint cbor_encode (v : gval N) : bytes :=
  match v with
  | VNil => [246%N]
  | VBool b => [if b then 245%N else 244%N]
  | VInt z => if (z <? 0)%Z then cbor_head 1 (Z.to_N (-1 - z)) else cbor_head 0 (Z.to_N z)
  | VFloat b => 251%N :: be_bytes 8 b
  | VStr s => cbor_head 3 (N.of_nat (length s)) ++ s
  | VBytes s => cbor_head 2 (N.of_nat (length s)) ++ s
  | VArr l => cbor_head 4 (N.of_nat (length l)) ++ flat_map cbor_encode l
  | VMap m => cbor_head 5 (N.of_nat (length m)) ++
      flat_map (fun kv => cbor_head 3 (N.of_nat (length (fst kv))) ++ fst kv ++ cbor_encode (snd kv)) m
  end.

(** cbor.go:446-454, CBORWriter; [cw_obj] is tlt == "object". *)
Record cbor_writer := mkCw { cw_obj : bool; cw_arr : list (gval N); cw_map : list (bytes * gval N) }.
(** cbor.go:457-486, NewCBORWriter *)
Definition new_cbor_writer (obj : bool) : cbor_writer := mkCw obj [] [].
(** cbor.go:494-513, WriteEntry *)
Definition cbor_write_entry (w : cbor_writer) (e : entry N) : option err * cbor_writer :=
  if cw_obj w then
    match e_key e with
    | [] => (Some (EMsg "Key cannot be empty"), w)
    | _ => match map_get (e_key e) (cw_map w) with
           | Some _ => (Some (EMsg "key already written"), w)
           | None => (None, mkCw (cw_obj w) (cw_arr w) (map_set (e_key e) (e_val e) (cw_map w)))
           end
    end
  else (None, mkCw (cw_obj w) (cw_arr w ++ [e_val e]) (cw_map w)).
(** A history of WriteEntry calls: what each returned, and the writer afterwards. *)
Fixpoint cbor_write_all (w : cbor_writer) (es : list (entry N)) : list (option err) * cbor_writer :=
  match es with
  | [] => ([], w)
  | e :: r => let '(o, w') := cbor_write_entry w e in let '(os, w2) := cbor_write_all w' r in (o :: os, w2)
  end.
(** cbor.go:517-535, Close: the bytes written to the destination. *)
Definition cbor_close (w : cbor_writer) : bytes :=
  cbor_encode (if cw_obj w then VMap (cw_map w) else VArr (cw_arr w)).
