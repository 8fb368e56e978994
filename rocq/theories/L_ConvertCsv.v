(** Readers and writers of tables in conversions. *)
From Verif Require Import Base M_Bufio M_Utf8 M_Sink M_Columns M_Tabular M_CsvText M_Csv M_Xlsx M_Formats M_Stream S_Csv S_Stream M_Convert S_Convert S_ConvertCsv
  L_CsvText L_CsvOut L_Csv L_Stream L_Convert P_Convert.
From Verif Require P_Csv.

Lemma counted_length : forall rows w, (length (counted w rows) <= length rows)%nat.
Proof.
  induction rows as [|fs rows IH]; intros w; [cbn; lia|]. cbn [counted length]. destruct (blank_row fs); [specialize (IH w); lia|]. cbn [length].
  specialize (IH (if (w =? 0)%Z then Z.of_nat (length fs) else w)). lia.
Qed.
Lemma table_length : forall comma rows text, table_text comma rows text -> (length rows <= length text)%nat.
Proof. induction 1; cbn [length]; [lia|]. rewrite app_length. cbn [length]. lia. Qed.
Lemma before_length : forall l, (length (before_refusal l) <= length l)%nat.
Proof. induction l as [|[fs| |fl|] l IH]; cbn [before_refusal length]; lia. Qed.

Section ConvertCsv.
  Set Default Proof Using "All".
  Variable parse_float : bytes -> option N.
  Variable fmt_plain : N -> bytes.
  Variable fmt_json : N -> option bytes.
  Variable depth : nat.
  Variable surrogate : bytes.
  Variable save : book -> bytes.
  Variable load : bytes -> res book.
  Variables sheet_key keep : bytes -> bytes.
  Variable order : jmap -> jmap.
  Variables size osize wsize dsize : nat.
  Variable unpack : bytes -> src -> res src.
  Variable pack : bytes -> bytes -> bytes.
  Hypothesis wbig : (4 <= wsize)%nat.
  Hypothesis opos : (0 < osize)%nat.
  Notation new_entry_reader := (new_entry_reader load sheet_key order size dsize unpack).
  Notation read_step := (read_step parse_float depth surrogate osize).
  Notation write_step := (write_step fmt_plain fmt_json sheet_key keep wsize).
  Notation convert_writer := (convert_writer sheet_key order wsize).
  Notation close_step := (close_step save).
  Notation dest_bytes := (dest_bytes pack).
  Notation cell_text := (cell_text N fmt_plain fmt_json).
  Notation decode := (decode N parse_float depth).

  Lemma types_first : forall cols types, Forall2 (fun (cl : column (F:=N)) t => exists ts, c_type cl = t :: ts) cols types -> first_types N cols = Some types.
  Proof.
    intros cols types H. induction H as [|cl t cols types [ts E] H IH]; [reflexivity|]. cbn [first_types]. rewrite E, IH. reflexivity.
  Qed.

  (** The rows that get through. *)
  Lemma until_rows : forall c comma es b, valid_delim comma = true -> bw_ok wsize b -> good b ->
    exists b', write_until write_step (c, WCsv (mkWr comma b)) es = (c, WCsv (mkWr comma b')) /\ bw_ok wsize b' /\ good b' /\
      total b' = total b ++ table_out comma (map (map cell_text) (leading_rows (map e_val es))).
  Proof.
    intros c comma es b Hc. revert b. induction es as [|e es IH]; intros b Hb Hg.
    - exists b. cbn. rewrite app_nil_r. auto.
    - cbn [write_until map]. unfold M_Convert.write_step at 1. cbn [fst snd]. unfold csv_write_entry. cbn [wr_comma wr_out].
      destruct (e_val e) as [| | | | | |l|m] eqn:Ev; cbn [leading_rows];
        try (exists b; cbn; rewrite app_nil_r; auto; fail).
      destruct (write_op wsize wbig comma (map cell_text l) Hc b Hb) as [A G]. cbv beta in A, G.
      destruct (csv_write wsize comma b (map cell_text l)) as [x b1]. cbn [fst snd] in *.
      destruct A as [[A1 [A2 [A3 A4]]]|[er [A1 [A2 [A3 A4]]]]]; cbn [fst snd] in *; [|exfalso; apply A4; assumption]. subst x.
      destruct (IH b1 A2 (G Hg)) as [b' [E [B1 [B2 B3]]]]. exists b'. rewrite E. split; [reflexivity|]. split; [assumption|]. split; [assumption|].
      rewrite B3, A3, <- app_assoc. reflexivity.
  Qed.
  Lemma to_csv : forall out cols types, table_shape order out cols types -> valid_delim (separator out) = true -> known (sh_compression out) ->
    exists w, convert_writer out = Ok w /\ forall es, exists w' text, close_step (write_until write_step w es) = (None, w') /\
      delivered pack (sh_compression out) text (dest_bytes w') /\
      table_text (encode_rune (separator out)) (head_row out cols ++ map (map cell_text) (leading_rows (map e_val es))) text.
  Proof.
    intros out cols types [Hf [[ps Hcols] Ht]] V Hk. destruct (wrapped pack _ Hk) as [c [Hc Hd]].
    assert (W : exists b, convert_writer out = Ok (c, WCsv (mkWr (separator out) b)) /\ bw_ok wsize b /\ good b /\
      total b = table_out (separator out) (head_row out cols)).
    { unfold M_Convert.convert_writer, new_entry_writer. rewrite Hf. cbn [Z.eqb Pos.eqb fCBOR fJSON fCSV]. unfold make_csv, new_csv_writer.
      rewrite Hcols, (types_first _ _ Ht), Hc. unfold separator, head_row, says in *.
      assert (B : bw_ok wsize (mkBw [] None good_sink)) by (split; [reflexivity|cbn [w_buf length]; clear -wbig; lia]).
      destruct (new_csv_options (sh_config out)) as [o|e| |]; cbn [rthen csv_sep csv_header] in *;
        try (eexists; split; [reflexivity|split; [exact B|split; reflexivity]]).
      destruct (csv_header o); [|eexists; split; [reflexivity|split; [exact B|split; reflexivity]]].
      change cCOMMA with 44%N. eexists. split; [reflexivity|].
      destruct (write_op wsize wbig _ (titles cols) V _ B) as [[[A1 [A2 [A3 A4]]]|[e [A1 [A2 [A3 A4]]]]] G]; [|exfalso; apply A4; reflexivity].
      split; [assumption|]. split; [apply G; reflexivity|]. rewrite A3. cbn [table_out flat_map]. rewrite app_nil_r. reflexivity. }
    destruct W as [b [HW [Hb [Hg Htot]]]]. eexists. split; [exact HW|]. intros es.
    destruct (until_rows c (separator out) es b V Hb Hg) as [b' [E [B1 [B2 B3]]]]. rewrite E.
    unfold M_Convert.close_step. cbn [fst snd]. unfold csv_close. cbn [wr_out wr_comma]. eexists. eexists. split; [reflexivity|].
    split; [apply (Hd (WCsv _))|]. unfold M_Convert.dest_bytes. cbn [fst snd wr_out].
    destruct (flush_op wsize wbig b' B1) as [A G1]. pose proof (flush_empty wsize b' B1) as FE. destruct (bw_flush b') as [r b2]. cbn [fst snd] in *.
    destruct A as [[A1 [A2 [A3 A4]]]|[e [A1 [A2 [A3 A4]]]]]; cbn [fst snd] in *; [|exfalso; apply A4; assumption].
    subst r. specialize (FE eq_refl). unfold total in A3 at 1. rewrite FE, !app_nil_r in A3. rewrite A3, B3, Htot.
    replace (table_out (separator out) (head_row out cols) ++ table_out (separator out) (map (map cell_text) (leading_rows (map e_val es))))
      with (table_out (separator out) (head_row out cols ++ map (map cell_text) (leading_rows (map e_val es)))) by (unfold table_out; apply flat_map_app).
    apply table_out_text. assumption.
  Qed.

  Lemma opened_whole : forall comp s data, whole unpack comp s data -> exists s', wrap_decompressor unpack comp s = Ok s' /\ s_rem s' = data /\ s_fin s' = EOF.
  Proof.
    intros comp s data [[-> H]|[f [s' [Hp [Hu Hr]]]]]; [exists s; auto|]. exists s'. split; [|assumption].
    destruct comp; [discriminate|]. cbn [wrap_decompressor]. rewrite Hp. assumption.
  Qed.
  (** Why the reading of answers stops: at the end, or at a row that is refused. *)
  Definition stop_of (l : list answer) (e : err) : Prop :=
    ((exists data, l = map Row data) /\ e = EOF) \/ ((forall data, l <> map Row data) /\ is_eof_text e <> true).
  Lemma split_answers : forall l types n, (length l < n)%nat -> Forall (fun a => a = Count \/ exists fs, a = Row fs) l -> exists e rest,
    firstn n (map (fun a => row_res N parse_float depth types (answer_res a)) l ++ repeat (Err EOF) n) =
      map (fun x => Ok x) (map (fun fs => mkEntry 0 [] (VArr (decode types fs))) (before_refusal l)) ++ Err e :: rest /\ stop_of l e.
  Proof.
    induction l as [|a l IH]; intros types n Hn HA; (destruct n as [|n]; [cbn in Hn; lia|]).
    - cbn. do 2 eexists. split; [reflexivity|]. left. split; [exists []; reflexivity|reflexivity].
    - cbn [length] in Hn. replace (repeat (@Err (entry N) EOF) (S n)) with (repeat (@Err (entry N) EOF) n ++ [Err EOF]) by (clear; induction n as [|n IH]; [reflexivity|]; cbn [repeat app] in *; rewrite IH; reflexivity).
      rewrite app_assoc. cbn [map app firstn].
      assert (E : firstn n ((map (fun a => row_res N parse_float depth types (answer_res a)) l ++ repeat (Err EOF) n) ++ [Err EOF]) =
        firstn n (map (fun a => row_res N parse_float depth types (answer_res a)) l ++ repeat (Err EOF) n)).
      { rewrite firstn_app. replace (n - _)%nat with 0%nat by (rewrite app_length, repeat_length; lia). cbn [firstn]. apply app_nil_r. }
      rewrite E. inversion HA as [|? ? [->|[fs ->]] HA']; subst; cbn [answer_res row_res before_refusal map app].
      + do 2 eexists. split; [reflexivity|]. right. split; [intros [|d data]; discriminate|discriminate].
      + destruct (IH types n) as [e [rest [X Y]]]; [lia|assumption|]. rewrite X. do 2 eexists. split; [reflexivity|].
        destruct Y as [[[data ->] Y]|[Y1 Y2]]; [left; split; [exists (fs :: data); reflexivity|assumption]|].
        right. split; [|assumption]. intros [|d data]; [discriminate|]. intros Q. injection Q as _ Q. exact (Y1 data Q).
  Qed.
  Lemma counted_answers : forall rows w, Forall (fun a => a = Count \/ exists fs, a = Row fs) (counted w rows).
  Proof.
    induction rows as [|fs rows IH]; intros w; [constructor|]. cbn [counted]. destruct (blank_row fs); [apply IH|]. constructor; [|apply IH].
    destruct (_ || _); eauto.
  Qed.
  Lemma csv_calls_length : forall n c r, length (csv_calls N parse_float depth osize n c r) = n.
  Proof. induction n as [|n IH]; intros c r; [reflexivity|]. cbn [csv_calls]. destruct (csv_read_entry N parse_float depth osize c r). cbn [length]. rewrite IH. reflexivity. Qed.
  Lemma csv_source_end : forall in_ cols types s text rows fuel, table_shape order in_ cols types -> valid_delim (separator in_) = true ->
    whole unpack (sh_compression in_) s text -> table_text (encode_rune (separator in_)) rows text ->
    exists rows', Forall2 (Forall2 endings) rows rows' /\ exists r r' e, new_entry_reader in_ s = Ok r /\
      yields (read_step fuel) r (map (fun fs => mkEntry 0 [] (VArr (decode types fs))) (before_refusal (data_answers in_ rows'))) e r' /\ stop_of (data_answers in_ rows') e.
  Proof.
    intros in_ cols types s text rows fuel [Hf [[ps Hcols] Ht]] V Hw HT. destruct (opened_whole _ _ _ Hw) as [s' [Ho [Hs Hfin]]].
    assert (C : exists c, new_csv_reader N order (sh_format in_) (some_map (sh_schema in_)) (sh_config in_) = Ok c /\ cf_types c = types /\
      cf_comma c = separator in_ /\ cf_width c = (if csv_variadic (says in_) then -1 else 0)%Z /\ cf_header c = csv_header (says in_)).
    { unfold new_csv_reader. rewrite Hcols, (types_first _ _ Ht). unfold has_header_row. rewrite Hf. change (Z.eqb fCSV fCSV) with true. cbv iota.
      unfold parse_format_config_map. change (Z.eqb fCSV fCSV) with true. cbv iota. unfold separator, says.
      destruct (sh_config in_) as [m|]; [|eexists; split; [reflexivity|repeat split; reflexivity]].
      destruct (new_csv_options (Some m)) as [o|e| |]; (eexists; split; [reflexivity|repeat split; reflexivity]). }
    destruct C as [c [C1 [C2 [C3 [C4 C5]]]]].
    assert (R : forall n, exists rows', Forall2 (Forall2 endings) rows rows' /\ csv_read_all N parse_float depth size osize n c s' = table_results N parse_float depth c rows' n).
    { intros n. apply read_table; auto; [rewrite C3; assumption|rewrite C4; destruct (csv_variadic (says in_)); lia|rewrite C3, Hs; assumption]. }
    destruct (R (S (length rows))) as [rows' [R1 R2]]. exists rows'. split; [assumption|].
    unfold table_results in R2. rewrite C2, C4, C5 in R2.
    assert (EL : length rows' = length rows) by (symmetry; eapply P_Csv.Forall2_same_length; eassumption).
    assert (DL : (length (data_answers in_ rows') < S (length rows))%nat).
    { unfold data_answers. pose proof (counted_length rows' (if csv_variadic (says in_) then -1 else 0)) as CL.
      destruct (csv_header (says in_)); [destruct (counted _ rows'); cbn [tl length] in *; lia|lia]. }
    assert (DA : Forall (fun a => a = Count \/ exists fs, a = Row fs) (data_answers in_ rows')).
    { unfold data_answers. pose proof (counted_answers rows' (if csv_variadic (says in_) then -1 else 0)) as CA.
      destruct (csv_header (says in_)); [destruct CA; [constructor|assumption]|assumption]. }
    destruct (split_answers _ types _ DL DA) as [e [rest [X ST]]]. unfold data_answers in X at 1. cbv zeta in X.
    change (csv_read_all N parse_float depth size osize (S (length rows)) c s') with (csv_calls N parse_float depth osize (S (length rows)) c (csv_start size c s')) in R2.
    assert (Y : csv_calls N parse_float depth osize (S (length rows)) c (csv_start size c s') =
      map (fun x => Ok x) (map (fun fs => mkEntry 0 [] (VArr (decode types fs))) (before_refusal (data_answers in_ rows'))) ++ Err e :: rest).
    { rewrite R2. exact X. }
    pose proof (f_equal (@length _) Y) as YL. rewrite csv_calls_length, app_length, map_length in YL. cbn [length] in YL. rewrite YL in Y.
    destruct (csv_yields parse_float depth surrogate osize fuel c _ e rest _ Y) as [r' Hy].
    eexists _, r', e. split; [|split; [exact Hy|exact ST]]. unfold M_Convert.new_entry_reader. rewrite Hf. cbn [Z.eqb Pos.eqb fCSV fJSON fCBOR].
    unfold open_csv. rewrite C1. cbn [rthen]. rewrite Ho. reflexivity.
  Qed.
  Lemma csv_source : forall in_ cols types s text rows fuel, table_shape order in_ cols types -> valid_delim (separator in_) = true ->
    whole unpack (sh_compression in_) s text -> table_text (encode_rune (separator in_)) rows text ->
    exists rows', Forall2 (Forall2 endings) rows rows' /\ exists r r' e, new_entry_reader in_ s = Ok r /\
      yields (read_step fuel) r (map (fun fs => mkEntry 0 [] (VArr (decode types fs))) (before_refusal (data_answers in_ rows'))) e r'.
  Proof.
    intros in_ cols types s text rows fuel Hi V Hw HT. destruct (csv_source_end in_ cols types s text rows fuel Hi V Hw HT) as [rows' [R [r [r' [e [Hr [Hy _]]]]]]].
    exists rows'. split; [assumption|]. exists r, r', e. auto.
  Qed.
End ConvertCsv.
