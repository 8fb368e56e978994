(** Model of dsio/replacecr/replace_cr.go. *)
From Verif Require Import Base M_Bufio.

(** dsio/replacecr/replace_cr.go:57: (err == nil && pk[0] != '\n') || (err != nil && err.Error() == "EOF") *)
Definition cr_should_insert (pk : bytes) (e : option err) : bool :=
  match e with
  | None => match pk with c :: _ => negb (N.eqb c cLF) | [] => false end
  | Some x => is_eof_text x
  end.

Definition cons_out (l : bytes) (r : bytes * option err) : bytes * option err := (l ++ fst r, snd r).

(** dsio/replacecr/replace_cr.go:38-65, the loop of Read.  [slots] is lenP - n, the free slots of p. *)
Fixpoint cr_loop (slots : nat) : prog (bytes * option err) :=
  match slots with
  | O => PRet ([], None)                                   (* n == lenP *)
  | S slots' =>
      PReadByte (fun r =>
        match r with
        | Ok c =>
            match slots' with
            | S slots'' =>                                 (* n < lenP-1 *)
                if N.eqb c cCR then
                  PPeek 1 (fun pk e =>
                    if cr_should_insert pk e
                    then pbind (cr_loop slots'') (fun r => PRet (cons_out [cCR; cLF] r))
                    else pbind (cr_loop slots') (fun r => PRet (cons_out [cCR] r)))
                else pbind (cr_loop slots') (fun r => PRet (cons_out [c] r))
            | O => pbind (cr_loop slots') (fun r => PRet (cons_out [c] r))
            end
        | Err e => PRet ([], Some e)
        | Panic => PRet ([], None)
        | OutOfFuel => PRet ([], None)
        end)
  end.

(** crlfReplaceReader.Read(p) with len(p) = lenP; len 0 returns (0, nil) which is cr_loop 0. *)
Definition cr_read (lenP : nat) : prog (bytes * option err) := cr_loop lenP.

(** A consumer calling Read with buffers of the given sizes, one after the other. *)
Fixpoint cr_reads (sizes : list nat) (b : bufr) : list (bytes * option err) * bufr :=
  match sizes with
  | [] => ([], b)
  | k :: sizes' =>
      let '(r, b') := run_buf (cr_read k) b in
      let '(rs, b'') := cr_reads sizes' b' in
      (r :: rs, b'')
  end.

(** replacecr.ReaderWithSize(data, size) (Reader is size 4096), read with the given buffer sizes. *)
Definition cr_session (size : nat) (data : bytes) (fin : err) (sched : list (nat * bool))
    (sizes : list nat) : list (bytes * option err) * bufr :=
  cr_reads sizes (new_bufr size (mkSrc data fin sched)).
