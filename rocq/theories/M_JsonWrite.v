(** Model of the JSON entry writer, dsio/json.go:491-671, and of the parts of encoding/json it uses. *)
From Verif Require Import Base M_Decimal M_Utf8 M_Sink.

(** encoding/json string encoding (encodeState.string with HTML escaping, called by Marshal). *)
Definition hex_char (n : N) : N := if (n <? 10)%N then (48 + n)%N else (87 + n)%N.
Definition html_safe (c : N) : bool :=
  (32 <=? c)%N && negb (N.eqb c 34) && negb (N.eqb c 92) && negb (N.eqb c 60) && negb (N.eqb c 62) && negb (N.eqb c 38).
Definition quote_ascii (c : N) : bytes :=
  if html_safe c then [c]
  else if N.eqb c 34 || N.eqb c 92 then [92%N; c]
  else if N.eqb c 10 then [92%N; 110%N]
  else if N.eqb c 13 then [92%N; 114%N]
  else if N.eqb c 9 then [92%N; 116%N]
  else [92; 117; 48; 48; hex_char (c / 16); hex_char (c mod 16)]%N.
(** The escapes for U+FFFD, which stands for an ill-formed byte, and for the line separators U+2028 and U+2029. *)
Definition esc_fffd : bytes := [92; 117; 102; 102; 102; 100]%N.
Definition esc_2028 : bytes := [92; 117; 50; 48; 50; 56]%N.
Definition esc_2029 : bytes := [92; 117; 50; 48; 50; 57]%N.
Fixpoint quote_loop (n : nat) (s : bytes) : bytes :=
  match n with
  | O => []
  | S n' =>
      match s with
      | [] => []
      | c :: t =>
          if (c <? 128)%N then quote_ascii c ++ quote_loop n' t
          else match decode_rune s with
               | None => esc_fffd ++ quote_loop n' t
               | Some (r, k) =>
                   if N.eqb r 8232 then esc_2028 ++ quote_loop n' (skipn k s)
                   else if N.eqb r 8233 then esc_2029 ++ quote_loop n' (skipn k s)
                   else firstn k s ++ quote_loop n' (skipn k s)
               end
      end
  end.
Definition quote (s : bytes) : bytes := 34%N :: quote_loop (length s) s ++ [34%N].

(** base64.StdEncoding, used by encoding/json for byte slices. *)
Definition b64_char (n : N) : N :=
  if (n <? 26)%N then (65 + n)%N
  else if (n <? 52)%N then (97 + (n - 26))%N
  else if (n <? 62)%N then (48 + (n - 52))%N
  else if N.eqb n 62 then 43%N else 47%N.
Fixpoint b64 (s : bytes) : bytes :=
  match s with
  | [] => []
  | [a] => [b64_char (a / 4); b64_char (a mod 4 * 16); 61; 61]%N
  | [a; b] => [b64_char (a / 4); b64_char (a mod 4 * 16 + b / 16); b64_char (b mod 16 * 4); 61]%N
  | a :: b :: c :: t =>
      [b64_char (a / 4); b64_char (a mod 4 * 16 + b / 16); b64_char (b mod 16 * 4 + c / 64); b64_char (c mod 64)]%N ++ b64 t
  end.

Section Write.
  Variable F : Type.
  (** The text encoding/json writes for a float64; [None] for NaN and the infinities. *)
  Variable fmt_float : F -> option bytes.
  Notation gval := (gval F).

  Definition err_unsupported : err := EMsg "json: unsupported value".

  (** json.Marshal and json.MarshalIndent of the values an entry can hold.  [sp] follows a colon, [nl] is
      the line break at the current depth and [ind] what each level adds to it; all three are empty for
      Marshal.  Go indents in a second pass over the compact bytes; here both passes are one.
      Simplifications: maps are lists sorted by key, as Marshal writes them; a nil slice, which Marshal
      writes as null, does not occur. *)
  Fixpoint marshal (sp ind : bytes) (nl : bytes) (v : gval) : option bytes :=
    match v with
    | VNil => Some (bs "null")
    | VBool true => Some (bs "true")
    | VBool false => Some (bs "false")
    | VInt z => Some (itoa z)
    | VFloat f => fmt_float f
    | VStr s => Some (quote s)
    | VBytes b => Some (34%N :: b64 b ++ [34%N])
    | VArr l =>
        match l with
        | [] => Some [91%N; 93%N]
        | v :: t =>
            match marshal sp ind (nl ++ ind) v with
            | None => None
            | Some a =>
                match (fix go (l : list gval) : option bytes :=
                         match l with
                         | [] => Some []
                         | v :: t => match marshal sp ind (nl ++ ind) v, go t with
                                     | Some a, Some b => Some (44%N :: nl ++ ind ++ a ++ b)
                                     | _, _ => None
                                     end
                         end) t with
                | Some b => Some (91%N :: nl ++ ind ++ a ++ b ++ nl ++ [93%N])
                | None => None
                end
            end
        end
    | VMap m =>
        match m with
        | [] => Some [123%N; 125%N]
        | (k, v) :: t =>
            match marshal sp ind (nl ++ ind) v with
            | None => None
            | Some a =>
                match (fix go (l : list (bytes * gval)) : option bytes :=
                         match l with
                         | [] => Some []
                         | (k, v) :: t => match marshal sp ind (nl ++ ind) v, go t with
                                     | Some a, Some b => Some (44%N :: nl ++ ind ++ quote k ++ 58%N :: sp ++ a ++ b)
                                     | _, _ => None
                                     end
                         end) t with
                | Some b => Some (123%N :: nl ++ ind ++ quote k ++ 58%N :: sp ++ a ++ b ++ nl ++ [125%N])
                | None => None
                end
            end
        end
    end.

  (** json.Marshal(v), and append([]byte(indent), json.MarshalIndent(v, indent, indent)...) when an
      indent is set (valBytes, dsio/json.go:586-592, 606-611, 618-624). *)
  Definition encode (indent : bytes) (v : gval) : option bytes :=
    match indent with
    | [] => marshal [] [] [] v
    | _ => match marshal [32%N] indent (10%N :: indent) v with Some t => Some (indent ++ t) | None => None end
    end.

  (** JSONWriter, dsio/json.go:493-501; the schema, the structure and the wrapped compressor are left out. *)
  Record jwriter : Type := mkJw {
    jw_obj : bool;
    jw_indent : bytes;
    jw_rows : nat;
    jw_keys : list bytes;
    jw_sink : sink
  }.

  (** valBytes, dsio/json.go:584-631: the bytes or an error, and the keys written. *)
  Definition val_bytes (w : jwriter) (e : entry F) : (bytes + err) * list bytes :=
    if negb (jw_obj w) then
      (match encode (jw_indent w) (e_val e) with Some t => inl t | None => inr err_unsupported end, jw_keys w)
    else
      match e_key e with
      | [] => (inr (EMsg "entry key cannot be empty"), jw_keys w)
      | _ =>
          if existsb (beqb (e_key e)) (jw_keys w) then (inr (EMsg "key already written"), jw_keys w)
          else
            let keys := e_key e :: jw_keys w in
            match encode (jw_indent w) (e_val e) with
            | Some t => (inl (jw_indent w ++ quote (e_key e) ++ 58%N :: t), keys)
            | None => (inr err_unsupported, keys)
            end
      end.

  Definition pretty (w : jwriter) : bool := match jw_indent w with [] => false | _ => true end.

  (** WriteEntry, dsio/json.go:550-582. *)
  Definition json_write_entry (w : jwriter) (e : entry F) : option err * jwriter :=
    let done k keys := mkJw (jw_obj w) (jw_indent w) (S (jw_rows w)) keys k in
    let '(x, k) := if Nat.eqb (jw_rows w) 0 then sink_write [if jw_obj w then 123%N else 91%N] (jw_sink w)
                   else (None, jw_sink w) in
    match x with
    | Some e => (Some (EWrap "error writing initial" 0 e), done k (jw_keys w))
    | None =>
        let '(d, keys) := val_bytes w e in
        match d with
        | inr e => (Some e, done k keys)
        | inl data =>
            let enc := (if Nat.eqb (jw_rows w) 0 then [] else [44%N]) ++ (if pretty w then [10%N] else []) in
            let '(x, k) := sink_write (enc ++ data) k in
            (x, done k keys)
        end
    end.

  (** A history of WriteEntry calls: what each returned, and the writer afterwards. *)
  Fixpoint json_write_all (w : jwriter) (es : list (entry F)) : list (option err) * jwriter :=
    match es with
    | [] => ([], w)
    | e :: r => let '(o, w') := json_write_entry w e in let '(os, w2) := json_write_all w' r in (o :: os, w2)
    end.

  (** Close, dsio/json.go:635-671; [closer] is what closing the wrapped compressor returns. *)
  Definition json_close (closer : option err) (w : jwriter) : option err * jwriter :=
    let on k := mkJw (jw_obj w) (jw_indent w) (jw_rows w) (jw_keys w) k in
    if Nat.eqb (jw_rows w) 0 then
      let '(x, k) := sink_write (if jw_obj w then [123; 125]%N else [91; 93]%N) (jw_sink w) in
      match x with
      | Some e => (Some (EWrap "error writing empty closure" 0 e), on k)
      | None => (closer, on k)
      end
    else
      let k := if pretty w then snd (sink_write [10%N] (jw_sink w)) else jw_sink w in
      let '(x, k) := sink_write [if jw_obj w then 125%N else 93%N] k in
      match x with
      | Some e => (Some (EWrap "error closing writer" 0 e), on k)
      | None => (closer, on k)
      end.

  (** NewJSONWriter and NewJSONPrettyWriter, dsio/json.go:504-542, on a destination. *)
  Definition new_jwriter (obj : bool) (indent : bytes) (k : sink) : jwriter := mkJw obj indent 0 [] k.

  (** Everything a program does with a writer: the results of the WriteEntry calls, of Close, and what
      arrived at the destination. *)
  Definition json_write (obj : bool) (indent : bytes) (k : sink) (closer : option err) (es : list (entry F))
    : list (option err) * option err * bytes :=
    let '(os, w) := json_write_all (new_jwriter obj indent k) es in
    let '(c, w) := json_close closer w in
    (os, c, k_out (jw_sink w)).
End Write.
