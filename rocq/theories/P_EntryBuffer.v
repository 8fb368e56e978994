(** C78: an EntryBuffer gives back what was written to it. *)
From Coq Require Import ZArith Lia.
From Verif Require Import Base M_Decimal M_Bufio L_Bufio M_Sink M_Json M_JsonWrite S_JsonBack S_JsonText L_JsonRead L_JsonBuf M_Cbor S_Cbor P_Cbor M_Columns M_Tabular M_CsvText M_Csv M_NDJson S_NDJson
  P_NDJson M_Xlsx M_Formats M_Stream S_Stream M_Convert S_Convert L_Convert P_Convert P_ConvertCsv M_EntryBuffer S_EntryBuffer L_EntryBuffer L_EntryBufferJson L_EntryBufferAlone.

Section EntryBuffer.
  Variable parse_float : bytes -> option N.
  Variable fmt_plain : N -> bytes.
  Variable fmt_json : N -> option bytes.
  Variable depth : nat.
  Variable surrogate : bytes.
  Variable save : book -> bytes.
  Variable load : bytes -> res book.
  Variables sheet_key keep : bytes -> bytes.
  Variable order : jmap -> jmap.
  Variables size osize wsize dsize : nat.
  Variable unpack : bytes -> src -> res src.
  Variable pack : bytes -> bytes -> bytes.
  Notation open := (new_entry_reader load sheet_key order size dsize unpack).
  Notation make := (new_entry_writer sheet_key order wsize).
  Notation buffer := (new_entry_buffer load sheet_key order size wsize dsize unpack pack).
  Notation rstep fuel := (read_step parse_float depth surrogate osize fuel).
  Notation wstep := (write_step fmt_plain fmt_json sheet_key keep wsize).
  Notation cstep := (close_step save).
  Notation run fuel := (eb_run parse_float fmt_plain fmt_json depth surrogate save sheet_key keep osize wsize pack fuel).

  Lemma answered_writes : forall x es os, length os = length es -> answered x (map CWrite es) os = map Wrote os.
  Proof. induction es as [|e es IH]; intros [|o os] H; try discriminate; [reflexivity|]. cbn in *. now rewrite IH by congruence. Qed.
  Lemma put_length : forall es w, length (fst (put wstep w es)) = length es.
  Proof.
    induction es as [|e es IH]; intros w; [reflexivity|]. cbn [put]. destruct (wstep w e) as [x w1]. specialize (IH w1).
    destruct (put wstep w1 es) as [os w2]. cbn in *. now rewrite IH.
  Qed.
  Lemma written_writes : forall es, written (map CWrite es) = es.
  Proof. induction es as [|e es IH]; [reflexivity|]. cbn. now rewrite IH. Qed.
  Lemma buffer_parts : forall sh b, buffer sh = Ok b -> exists r w, open sh (of_buffer []) = Ok r /\ make sh good_sink = Ok w /\ b = mkEb (feed (sent pack w) r) w.
  Proof.
    intros sh b H. unfold new_entry_buffer in H. change (mkSrc [] EOF []) with (of_buffer []) in H. destruct (open sh (of_buffer [])) as [r| | |]; try discriminate.
    cbn [rthen] in H. destruct (make sh good_sink) as [w| | |]; try discriminate. injection H as <-. eauto.
  Qed.

  (** Whatever the format, except a workbook: writing, closing and then reading a buffer is writing and closing a writer, and
      then reading what it wrote with a reader.  Before the first read Bytes returns all that was written. *)
  Theorem buffer_after_close : forall sh b, sh_compression sh = [] -> not_xlsx sh -> buffer sh = Ok b ->
    exists w, make sh good_sink = Ok w /\ forall es, let '(os, w1) := put wstep w es in let '(x, w2) := cstep w1 in
      exists r, open sh (of_buffer (dest_bytes pack w2)) = Ok r /\ forall fuel n,
        run fuel b (map CWrite es ++ CClose :: repeat CRead n) = map Wrote os ++ Closed x :: map Read (take (rstep fuel) n r) /\
        run fuel b (map CWrite es ++ [CClose; CBytes]) = map Wrote os ++ [Closed x; Holds (dest_bytes pack w2)].
  Proof.
    intros sh b Hc Hx Hb. destruct (buffer_parts _ _ Hb) as [r [w [Hr [Hw ->]]]]. exists w. split; [assumption|]. intros es.
    pose proof (make_unclosed _ _ _ _ _ Hc Hw) as Hu.
    pose proof (put_length es w) as Hl. pose proof (put_unclosed fmt_plain fmt_json sheet_key keep wsize pack es w Hu) as Hu1.
    assert (HP : forall fuel tail, run fuel (mkEb (feed (sent pack w) r) w) (map CWrite es ++ tail) =
      let '(os, w') := put wstep w es in map Wrote os ++ run fuel (mkEb (feed (sent pack w') r) w') tail).
    { intros fuel tail. rewrite (run_put _ _ _ _ _ _ _ _ _ _ _ (map CWrite es) fuel r w (Err EOF) tail).
      - rewrite written_writes. destruct (put wstep w es) as [os w']. rewrite answered_writes by exact Hl. reflexivity.
      - clear. induction es; constructor; [exact I|assumption].
      - assumption.
      - intros HI. apply in_map_iff in HI. destruct HI as [y [E _]]. discriminate. }
    destruct (put wstep w es) as [os w1]. cbn [snd] in Hu1. destruct (cstep w1) as [x w2] eqn:E.
    exists (feed (dest_bytes pack w2) r). split; [apply feed_open; assumption|]. intros fuel n. rewrite !HP. split.
    - rewrite run_close by assumption. rewrite E. reflexivity.
    - cbn [eb_run]. unfold eb_call. cbn [eb_w eb_r]. pose proof (close_grows save pack w1 Hu1) as G. rewrite E in *. cbn [snd] in G. cbv zeta in G.
      rewrite feed_feed, <- G. cbn [eb_r]. repeat f_equal.
      clear -Hr Hx Hc. revert Hr. unfold new_entry_reader.
      destruct (Z.eqb_spec (structure_data_format (sh_format sh)) fXLSX) as [X|_]; [contradiction|].
      intros Hr. repeat match type of Hr with (if ?b then _ else _) = _ => destruct b end;
      unfold open_cbor, open_json, open_csv, open_nd in Hr; rewrite ?Hc in Hr; cbn [wrap_decompressor rthen] in Hr;
      repeat match type of Hr with
      | rthen ?x _ = _ => destruct x; cbn [rthen] in Hr; try discriminate
      | (if ?b then _ else _) = _ => destruct b; try discriminate
      end; try discriminate; injection Hr as <-; reflexivity.
  Qed.

  (** Lines: a queue under any calls, from the start. *)
  Theorem buffer_ndjson_queue : forall sh, strict_format N fmt_json parse_float -> typed sh fNDJSON (bs "array") -> sh_compression sh = [] ->
    exists b, buffer sh = Ok b /\ forall fuel cs, Forall (plain_call parse_float fmt_json depth) cs ->
      fifo (line_keeps parse_float fmt_json depth) (refused N fmt_json) 0 [] cs (run fuel b cs).
  Proof.
    intros sh Hf Ht Hc. destruct (typed_top _ _ _ Ht (or_introl eq_refl)) as [Hd [[m Hm] Hg]].
    eexists. split.
    - unfold new_entry_buffer, new_entry_reader, new_entry_writer. rewrite Hd. cbn [Z.eqb Pos.eqb fNDJSON fCBOR fJSON fCSV fXLSX].
      unfold open_nd, make_nd. rewrite Hm, Hg, Hc. cbn [rthen wrap_decompressor wrap_compressor]. reflexivity.
    - intros fuel cs HP. cbn [sent dest_bytes snd fst w_sink good_sink k_out feed].
      apply (nd_queue parse_float fmt_plain fmt_json depth surrogate save sheet_key keep osize wsize pack fuel Hf cs (Nat.max 16 dsize)
        (mkNd 0 _) (mkSink [] []) [] []); [assumption| | |constructor|reflexivity|reflexivity].
      + apply (new_bufr_ok dsize (mkSrc [] EOF [])).
      + split; reflexivity.
  Qed.

  (** JSON arrays: a queue, too, if the reader's buffer is at least a block. *)
  Definition kept (c : call) : Prop := match c with CWrite e => exists v, comes_back N fmt_json (e_val e) v | CRead => True | _ => False end.
  Theorem buffer_json_queue : forall sh cs tail, float_format N fmt_json parse_float -> typed sh fJSON (bs "array") -> sh_compression sh = [] ->
    (Z.to_nat block_size <= size)%nat -> Forall kept cs -> tail = [] \/ (exists k, tail = CClose :: repeat CRead k) ->
    exists b f0, buffer sh = Ok b /\ forall fuel, (f0 <= fuel)%nat -> tape (comes_back N fmt_json) 0 [] (cs ++ tail) (run fuel b (cs ++ tail)).
  Proof.
    intros sh cs tail Hf Ht Hc Hs HP HT. destruct (typed_top _ _ _ Ht (or_introl eq_refl)) as [Hd [[m Hm] Hg]].
    assert (HF : exists f0, forall fuel, (f0 <= fuel)%nat -> Forall (kept_call fmt_json fuel) cs).
    { clear -HP. induction HP as [|c cs Hk HP [f0 IH]]; [exists 0%nat; constructor|]. destruct c as [e| | |]; try contradiction.
      - exists (f0 + match marshal N fmt_json [] [] [] (e_val e) with Some t => 2 * length t | None => 0 end)%nat. intros fuel H. constructor; [|apply IH; lia].
        split; [exact Hk|]. intros t Et. rewrite Et in H. lia.
      - exists f0. intros fuel H. constructor; [exact I|auto]. }
    destruct HF as [f0 HF]. eexists _, f0. split.
    - unfold new_entry_buffer, new_entry_reader, new_entry_writer. rewrite Hd. cbn [Z.eqb Pos.eqb fNDJSON fCBOR fJSON fCSV fXLSX].
      unfold open_json, make_json. rewrite Hm, Hg, Hc. cbn [rthen wrap_decompressor wrap_compressor]. reflexivity.
    - intros fuel Hfu. cbn [sent dest_bytes snd fst new_jwriter jw_sink good_sink k_out feed j_buf j_prev].
      change (is_object (bs "array")) with false.
      apply (json_queue parse_float fmt_plain fmt_json depth surrogate save sheet_key keep osize wsize pack fuel Hf cs tail (Nat.max 16 size) _ false 0 [] []);
        try reflexivity; auto.
      + split; [|split].
        * split; [apply Nat.le_max_l|]. apply (new_bufr_ok size (mkSrc [] EOF [])).
        * split; [split; reflexivity|]. unfold new_bufr, more_buf. cbn [j_buf b_cap]. lia.
        * reflexivity.
      + split; [auto|]. intros _. reflexivity.
  Qed.

  (** CBOR: nothing can be read until the buffer is closed, and then everything. *)
  Lemma put_cbor : forall es w, cw_obj w = false -> put wstep (None, WCbor w []) es = (map (fun _ => None) es, (None, WCbor (mkCw false (cw_arr w ++ map e_val es) (cw_map w)) [])).
  Proof.
    induction es as [|e es IH]; intros [o a m] H; cbn in H; subst o; cbn [put map cw_arr cw_map]; [now rewrite app_nil_r|].
    unfold write_step. cbn [snd fst]. unfold cbor_write_entry. cbn [cw_obj cw_arr cw_map]. rewrite IH by reflexivity. cbn [cw_arr cw_map]. rewrite <- app_assoc. reflexivity.
  Qed.
  Lemma take_yields : forall fuel es r e r', yields (rstep fuel) r es e r' -> take (rstep fuel) (S (length es)) r = map Ok es ++ [Err e].
  Proof.
    intros fuel es r e r' H. induction H as [s e s' H|s x s1 es e s' H Hy IH]; cbn [length take map app] in *; rewrite H; [reflexivity|].
    rewrite IH. reflexivity.
  Qed.
  Theorem buffer_cbor_waits : forall sh, typed sh fCBOR (bs "array") -> sh_compression sh = [] ->
    exists b, buffer sh = Ok b /\ forall cs, Forall is_step cs ->
      let vs := map e_val (written cs) in let ok := longest readable vs in
      Forall wf_value vs -> (N.of_nat (length vs) < 2 ^ 44)%N ->
      exists x f0, (forallb readable vs = true -> x = EOF) /\ forall fuel, (f0 <= fuel)%nat ->
        run fuel b (cs ++ CClose :: repeat CRead (S (length ok))) =
        answered (Err EOF) cs (map (fun _ => None) (written cs)) ++ Closed None :: map Read (map Ok (array_entries 0 ok) ++ [Err x]).
  Proof.
    intros sh Ht Hc. destruct (typed_top _ _ _ Ht (or_introl eq_refl)) as [Hd [[m Hm] Hg]].
    eexists. split.
    - unfold new_entry_buffer, new_entry_reader, new_entry_writer. rewrite Hd. cbn [Z.eqb Pos.eqb fNDJSON fCBOR fJSON fCSV fXLSX].
      unfold open_cbor, make_cbor. rewrite Hm, Hg, Hc. cbn [rthen wrap_decompressor wrap_compressor]. reflexivity.
    - intros cs HS vs ok HW HL. change (is_object (bs "array")) with false.
      set (es := written cs) in *.
      pose proof (cbor_round_trip_array es EOF [] (proj1 (Forall_map e_val wf_value _) HW)) as T. cbv zeta in T. fold vs in T.
      assert (HL' : (N.of_nat (length es) < 2 ^ 44)%N) by (unfold vs in HL; rewrite map_length in HL; exact HL).
      specialize (T HL'). destruct (cbor_writer_array es) as [_ E0]. rewrite E0 in T. fold vs in T. fold ok in T.
      set (doc := cbor_encode (VArr vs)) in *.
      assert (HY : exists x, (forallb readable vs = true -> x = EOF) /\ forall fuel, (2 * length doc < fuel)%nat ->
        exists r', yields (rstep fuel) (RCbor false cbor_start (new_bufr cbor_buf_size (mkSrc doc EOF []))) (array_entries 0 ok) x r').
      { destruct (cbor_read_all false (mkSrc doc EOF [])) as [got o] eqn:EA. destruct T as [-> T].
        assert (X : exists x, o = Err x /\ (forallb readable vs = true -> x = EOF)).
        { destruct (forallb readable vs); [exists EOF; split; [exact T|reflexivity]|]. destruct T as [x [-> _]]. exists x. split; [reflexivity|discriminate]. }
        destruct X as [x [-> X]]. exists x. split; [exact X|]. intros fuel Hf.
        rewrite (cbor_read_fuel_irrelevant false _ (S (length doc)) fuel) in EA by (cbn [s_rem]; lia).
        destruct (run_buf (plain tt (cbor_read_loop (S (length doc)) fuel false cbor_start)) (new_bufr cbor_buf_size (mkSrc doc EOF []))) as [[es1 y] b'] eqn:E.
        cbn [fst] in EA. injection EA as <- ->. apply (cbor_yields parse_float depth surrogate osize) in E. exact E. }
      destruct HY as [x [Hx HY]]. exists x, (S (2 * length doc)). split; [exact Hx|]. intros fuel Hf.
      assert (Hu : unclosed (None, WCbor (new_cbor_writer false) [])) by (split; reflexivity).
      rewrite (run_put parse_float fmt_plain fmt_json depth surrogate save sheet_key keep osize wsize pack cs fuel _ _ (Err EOF) _ HS Hu).
      + fold es. rewrite put_cbor by reflexivity. f_equal.
        rewrite run_close by (split; reflexivity). unfold close_step. cbn [snd fst sent dest_bytes]. f_equal. f_equal.
        destruct (HY fuel ltac:(lia)) as [r' Hy]. rewrite <- (take_yields _ _ _ _ _ Hy).
        assert (LE : length (array_entries 0 ok) = length ok) by (rewrite <- (map_length e_val), array_vals; reflexivity). rewrite LE.
        cbn [new_cbor_writer cw_arr cw_map app]. unfold cbor_close. cbn [cw_obj cw_arr]. reflexivity.
      + intros _. split; [reflexivity|]. intros l. rewrite put_cbor by reflexivity. reflexivity.
  Qed.

  (** A workbook cannot be opened before it was written, nor can what a decompressor does not read. *)
  Theorem buffer_not_made : forall sh, (structure_data_format (sh_format sh) = fXLSX /\ (forall k, load [] <> Ok k)) \/
      (structure_data_format (sh_format sh) <> fXLSX /\ sh_compression sh <> [] /\ forall f s, parse_compression (sh_compression sh) = Some f -> unpack f (of_buffer []) <> Ok s) ->
    forall b, buffer sh <> Ok b.
  Proof.
    intros sh H b Hb. destruct (buffer_parts _ _ Hb) as [r [w [Hr _]]]. unfold new_entry_reader in Hr. destruct H as [[E HL]|[E [HC HU]]].
    - rewrite E in Hr. cbn [Z.eqb Pos.eqb fNDJSON fCBOR fJSON fCSV fXLSX] in Hr. unfold open_xlsx, of_buffer in Hr. cbn [s_fin s_rem] in Hr.
      unfold new_xlsx_reader in Hr.
      destruct (sh_compression sh); [|discriminate]. destruct (columns_from_schema order (some_map (sh_schema sh))) as [[cols ?]| | |]; try discriminate.
      destruct (first_types N cols); [|discriminate]. destruct (load []) as [k| | |]; try discriminate. exact (HL k eq_refl).
    - assert (W : forall s, wrap_decompressor unpack (sh_compression sh) (of_buffer []) <> Ok s).
      { intros s. destruct (sh_compression sh) as [|c l] eqn:EC; [contradiction|]. cbn [wrap_decompressor].
        destruct (parse_compression (c :: l)) as [f|]; [apply HU; reflexivity|discriminate]. }
      destruct (Z.eqb_spec (structure_data_format (sh_format sh)) fXLSX) as [X|_]; [contradiction|].
      unfold open_cbor, open_json, open_csv, open_nd in Hr.
      repeat match type of Hr with
      | (if ?b then _ else _) = _ => destruct b; try discriminate
      | rthen ?x _ = _ => destruct x eqn:?; cbn [rthen] in Hr; try discriminate
      end. all: exact (W _ eq_refl).
  Qed.
End EntryBuffer.
Print Assumptions buffer_after_close.
Print Assumptions buffer_ndjson_queue.
Print Assumptions buffer_json_queue.
Print Assumptions buffer_cbor_waits.
Print Assumptions buffer_not_made.

(** Concrete buffers, with the functions of P_Convert. *)
Definition demo_size : nat := Z.to_nat 4096.
Definition demo_buffer (sh : shape) : res ebuf := new_entry_buffer (fun _ => Err EOF) (fun n => n) (fun m => m) demo_size 16 16 demo_unpack demo_pack sh.
Definition demo_run (sh : shape) (cs : list call) : list reply :=
  match demo_buffer sh with
  | Ok b => eb_run demo_parse (fun _ => []) (fun _ => None) 8 (bs "?") (fun _ => []) (fun n => n) (fun s => s) 16 16 demo_pack 100 b cs
  | _ => []
  end.
Definition as_cbor_plain : shape := mkShape (bs "cbor") [] (Some [(bs "type", VStr (bs "array"))]) None.
Definition as_csv_plain : shape := mkShape (bs "csv") [] (Some (demo_schema [demo_col "id" "integer"; demo_col "name" "string"])) (Some [(bs "headerRow", VBool true)]).
Definition cw (v : gval N) : call := CWrite (mkEntry 0 [] v).
Definition got (i : Z) (v : gval N) : reply := Read (Ok (mkEntry i [] v)).

(** What is written to a buffer cannot always be read before the buffer is closed. *)
Theorem buffer_read_at_once_refuted : exists sh b v, demo_buffer sh = Ok b /\ wf_value v /\ readable v = true /\
  demo_run sh [cw v; CRead; CClose; CRead] = [Wrote None; Read (Err EOF); Closed None; got 0 v].
Proof. exists as_cbor_plain. eexists. exists (VBool true). repeat split. Qed.
(** Bytes is not all that is still to be read: a reader takes more from the buffer than it returns. *)
Theorem buffer_bytes_refuted : exists sh b v v', demo_buffer sh = Ok b /\
  demo_run sh [cw v; cw v'; CRead; CBytes; CRead] = [Wrote None; Wrote None; got 0 v; Holds []; got 1 v'].
Proof. exists as_lines. eexists. exists VNil, (VBool true). repeat split. Qed.
(** The enclosing array of a JSON body is not kept back until Close, as the comment on EntryBuffer says. *)
Theorem buffer_enclosing_kept_back_refuted : exists sh b v, demo_buffer sh = Ok b /\
  demo_run sh [cw v; CBytes; CClose; CBytes] = [Wrote None; Holds (bs "[true"); Closed None; Holds (bs "[true]")].
Proof. exists as_json. eexists. exists (VBool true). repeat split. Qed.
Print Assumptions buffer_read_at_once_refuted.
Print Assumptions buffer_bytes_refuted.
Print Assumptions buffer_enclosing_kept_back_refuted.

Example buffer_after_close_ex : demo_run as_csv_plain [cw (VArr [VInt 1; VStr (bs "x")]); cw VNil; CClose; CRead; CRead] =
    [Wrote None; Wrote (Some (EMsg "expected array value to write csv row")); Closed None; got 0 (VArr [VInt 1; VStr (bs "x")]); Read (Err EOF)] /\
  sh_compression as_csv_plain = [] /\ not_xlsx as_csv_plain.
Proof. split; [vm_compute; reflexivity|]. split; [reflexivity|discriminate]. Qed.
Example buffer_ndjson_queue_ex :
  let cs := [CRead; cw (VInt 7); cw (VFloat 3%N); CRead; CRead; CClose; cw VNil; cw (VBool true); CRead; CRead; CRead] in
  demo_run as_lines cs = [Read (Err EOF); Wrote None; Wrote (Some (EMsg "json: unsupported value")); got 0 (VFloat 1%N); Read (Err EOF); Closed None; Wrote None; Wrote None;
    got 1 VNil; got 2 (VBool true); Read (Err EOF)] /\ typed as_lines fNDJSON (bs "array").
Proof. split; [vm_compute; reflexivity|]. split; [reflexivity|]. eexists. split; reflexivity. Qed.
Example buffer_json_queue_ex :
  demo_run as_json [CRead; cw VNil; cw (VBool true); CRead; CRead; CRead; cw VNil; CClose; CRead; CRead; CRead] =
    [Read (Err (EMsg "Expected: opening array '['")); Wrote None; Wrote None; got 0 VNil; got 1 (VBool true); Read (Err (EMsg "Expected: separator ','"));
     Wrote None; Closed None; got 2 VNil; Read (Err EOF); Read (Err (EMsg "Expected: separator ','"))] /\ typed as_json fJSON (bs "array").
Proof. split; [vm_compute; reflexivity|]. split; [reflexivity|]. eexists. split; reflexivity. Qed.
Example buffer_cbor_waits_ex : demo_run as_cbor_plain [CRead; cw (VStr (bs "x")); CRead; cw (VInt (-30)); cw VNil; CRead; CClose; CRead] =
    [Read (Err EOF); Wrote None; Read (Err EOF); Wrote None; Wrote None; Read (Err EOF); Closed None; got 0 (VStr (bs "x"))] /\
  typed as_cbor_plain fCBOR (bs "array").
Proof. split; [vm_compute; reflexivity|]. split; [reflexivity|]. eexists. split; reflexivity. Qed.
Example buffer_not_made_ex : demo_buffer (mkShape (bs "xlsx") [] (sh_schema as_csv_plain) None) = Err EOF /\
  new_entry_buffer (fun _ => Err EOF) (fun n => n) (fun m => m) 16 16 16 (fun _ _ => Err (EMsg "unexpected EOF")) demo_pack as_cbor = Err (EMsg "unexpected EOF").
Proof. split; vm_compute; reflexivity. Qed.
(** The hypotheses of the two queues hold of such calls. *)
Example buffer_queue_calls : Forall (plain_call demo_parse (fun _ => None) 8) [CRead; cw VNil; cw (VFloat 3%N); CClose; cw (VBool true)] /\
  Forall (kept (fun _ => None)) [CRead; cw VNil; CRead; cw (VBool true)] /\ strict_format N (fun _ => None) demo_parse /\ float_format N (fun _ => None) demo_parse.
Proof.
  split; [|split; [|split]].
  - repeat apply Forall_cons; try exact I; try apply Forall_nil; cbn.
    + right. exists VNil. repeat split; try constructor. intros H. inversion H.
    + left. constructor. reflexivity.
    + right. exists (VBool true). repeat split; try constructor. intros H. inversion H.
  - repeat apply Forall_cons; try exact I; try apply Forall_nil; cbn; [exists VNil|exists (VBool true)]; constructor.
  - intros f t H. discriminate.
  - intros f t H. discriminate.
Qed.
