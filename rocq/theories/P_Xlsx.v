(** C69: spreadsheet reader and writer. *)
From Verif Require Import Base M_Decimal M_Formats M_Columns M_Tabular M_Sink M_JsonWrite M_Csv S_Columns S_CsvCells S_JsonBack S_NDJson
  L_JsonMarshal L_JsonWriter L_NDJson P_Columns P_Csv M_Xlsx S_Xlsx L_Xlsx.
Notation length := List.length.

Section Xlsx.
  Variable F : Type.
  Variable parse_float : bytes -> option F.
  Variable fmt_plain : F -> bytes.
  Variable fmt_json : F -> option bytes.
  Variable depth : nat.
  Variable save : book -> bytes.
  Variable load : bytes -> res book.
  Variable sheet_key : bytes -> bytes.
  Variable keep : bytes -> bytes.
  Notation gval := (gval F).
  Notation cell_is := (cell_is F fmt_plain fmt_json).
  Notation row_is := (row_is F fmt_plain fmt_json).
  Notation taken := (taken F fmt_plain fmt_json).
  Notation row_value := (row_value F parse_float depth).
  Notation own_type := (own_type F parse_float depth fmt_plain fmt_json).
  Notation encode_string := (encode_string F fmt_plain fmt_json).
  Notation encode_strings := (encode_strings F fmt_plain fmt_json).
  Notation write_entry := (xlsx_write_entry F fmt_plain fmt_json sheet_key keep).
  Notation write_entries := (xlsx_write_entries F fmt_plain fmt_json sheet_key keep).
  Notation new_writer := (new_xlsx_writer F sheet_key).
  Notation new_reader := (new_xlsx_reader F load sheet_key).
  Notation calls := (xlsx_calls F parse_float depth).
  Notation close := (xlsx_close save).
  Notation holds := (holds keep).
  Notation names_sheet := (names_sheet F).
  Notation bad_sheet := (bad_sheet F).

  Lemma encode_string_iff : forall v t, encode_string v = Ok t <-> cell_is v t.
  Proof.
    intros v t. split.
    - destruct v as [|b|z|f|s|s|l|m]; cbn [M_Xlsx.encode_string]; intros H; try discriminate.
      + injection H as <-. constructor.
      + destruct b; injection H as <-; [apply (ci_bool _ _ _ true)|apply (ci_bool _ _ _ false)].
      + injection H as <-. constructor.
      + injection H as <-. constructor.
      + injection H as <-. constructor.
      + destruct (marshal F fmt_json [] [] [] (VArr l)) eqn:E; [|discriminate]. injection H as <-. constructor. exact E.
      + destruct (marshal F fmt_json [] [] [] (VMap m)) eqn:E; [|discriminate]. injection H as <-. constructor. exact E.
    - intros H. destruct H as [|z|f|b|s|l t E|m t E]; cbn [M_Xlsx.encode_string]; try reflexivity; [destruct b; reflexivity| |]; rewrite E; reflexivity.
  Qed.
  Lemma encode_strings_iff : forall vs ts, encode_strings vs = Ok ts <-> Forall2 cell_is vs ts.
  Proof.
    induction vs as [|v vs IH]; intros ts; cbn [M_Xlsx.encode_strings].
    - split; [intros H; injection H as <-; constructor|intros H; inversion H; reflexivity].
    - split.
      + destruct (encode_string v) as [t|e| |] eqn:E; try discriminate. destruct (encode_strings vs) as [us|e| |] eqn:E2; try discriminate.
        intros H. injection H as <-. constructor; [apply encode_string_iff; exact E|apply IH; reflexivity].
      + intros H. inversion H as [|? t ? us H1 H2]; subst. apply encode_string_iff in H1. apply IH in H2. rewrite H1, H2. reflexivity.
  Qed.
  Lemma write_entry_ok : forall w e row, row_is e row -> write_entry w e =
    (None, mkXw (xw_rows w + 1) (xw_sheet w) (set_cells sheet_key keep (xw_rows w) (xw_sheet w) 0 row (xw_book w)) (xw_dest w)).
  Proof. intros w e row (vs & E & H). unfold xlsx_write_entry. rewrite E. apply encode_strings_iff in H. rewrite H. reflexivity. Qed.
  Lemma write_entry_no : forall w e, (forall row, ~ row_is e row) -> exists x, write_entry w e = (Some x, w).
  Proof.
    intros w e H. unfold xlsx_write_entry. destruct (e_val e) as [| | | | | |vs|] eqn:E; try (eexists; reflexivity).
    destruct (encode_strings vs) as [row|x| |] eqn:E2; try (eexists; reflexivity). exfalso. apply (H row). exists vs. split; [exact E|]. apply encode_strings_iff. exact E2.
  Qed.
  Lemma row_dec : forall e, (exists row, row_is e row) \/ forall row, ~ row_is e row.
  Proof.
    intros e. unfold S_Xlsx.row_is. destruct (e_val e) as [| | | | | |vs|] eqn:E; try (right; intros row (vs & X & _); discriminate).
    destruct (encode_strings vs) as [row|x| |] eqn:E2; [left; exists row, vs; split; [reflexivity|apply encode_strings_iff; exact E2]|right..];
      intros row (vs' & X & H); injection X as <-; apply encode_strings_iff in H; congruence.
  Qed.
  Lemma taken_total : forall es, exists rows, taken es rows.
  Proof.
    induction es as [|e es (rows & IH)]; [exists []; constructor|]. destruct (row_dec e) as [(row & H)|H]; [exists (row :: rows); constructor; assumption|].
    exists rows. apply tk_skip; assumption.
  Qed.
  Lemma row_is_fun : forall e a b, row_is e a -> row_is e b -> a = b.
  Proof. intros e a b (va & Ea & Ha) (vb & Eb & Hb). rewrite Ea in Eb. injection Eb as <-. apply encode_strings_iff in Ha, Hb. congruence. Qed.
  Lemma entries_hold : forall es more, taken es more -> Forall (fun row => Z.of_nat (length row) <= 17576)%Z more ->
    forall w rows sh xs w', xw_rows w = Z.of_nat (length rows) -> map_get (sheet_key (xw_sheet w)) (xw_book w) = Some sh -> holds sh rows ->
    write_entries w es = (xs, w') ->
    Forall2 (fun e x => (exists row, row_is e row) <-> x = None) es xs /\ xw_dest w' = xw_dest w /\ xw_sheet w' = xw_sheet w /\
    exists sh', map_get (sheet_key (xw_sheet w)) (xw_book w') = Some sh' /\ holds sh' (rows ++ more).
  Proof.
    intros es more H. induction H as [|e row es more He Ht IH|e es more He Ht IH]; intros Hw w rows sh xs w' Hr Hb Hh E; cbn [xlsx_write_entries] in E.
    - injection E as <- <-. split; [constructor|]. split; [reflexivity|]. split; [reflexivity|]. exists sh. rewrite app_nil_r. auto.
    - inversion Hw as [|? ? W1 W2]; subst. rewrite (write_entry_ok _ _ _ He) in E.
      destruct (holds_add sheet_key keep (xw_sheet w) (xw_book w) sh rows row Hb Hh W1) as (sh1 & B1 & H1).
      set (w1 := mkXw (xw_rows w + 1) (xw_sheet w) (set_cells sheet_key keep (xw_rows w) (xw_sheet w) 0 row (xw_book w)) (xw_dest w)) in *.
      destruct (write_entries w1 es) as [ys w2] eqn:E2. injection E as <- <-.
      destruct (IH W2 w1 (rows ++ [row]) sh1 ys w2) as (R & D & Sh & sh2 & B2 & H2).
      + cbn. rewrite app_length. cbn [length]. lia.
      + cbn. rewrite Hr. exact B1.
      + exact H1.
      + exact E2.
      + split; [constructor; [split; [reflexivity|intros _; exists row; exact He]|exact R]|]. split; [exact D|]. split; [exact Sh|].
        exists sh2. split; [exact B2|]. rewrite <- app_assoc in H2. exact H2.
    - destruct (write_entry_no w e He) as (x & Ex). rewrite Ex in E. destruct (write_entries w es) as [ys w2] eqn:E2. injection E as <- <-.
      destruct (IH Hw w rows sh ys w2 Hr Hb Hh E2) as (R & D & Sh & sh2 & B2 & H2).
      split; [constructor; [split; [intros (row & X); destruct (He _ X)|discriminate]|exact R]|]. split; [exact D|]. split; [exact Sh|]. eauto.
  Qed.
  Lemma new_writer_inv : forall order comp schema config k w, new_writer order comp schema config k = Ok w ->
    xw_rows w = 0%Z /\ xw_dest w = k /\ map_get (sheet_key (xw_sheet w)) (xw_book w) = Some [] /\ comp = [] /\
    exists cols ps types s, columns_from_schema order schema = Ok (cols, ps) /\ first_types F cols = Some types /\
      parse_format_config_map fXLSX config = Ok (FXlsx s) /\ xw_sheet w = or_sheet1 s.
  Proof.
    intros order comp schema config k w H. unfold new_xlsx_writer in H. destruct comp; [|discriminate].
    destruct (columns_from_schema order schema) as [[cols ps]|e| |]; try discriminate. destruct (first_types F cols) as [types|] eqn:Et; [|discriminate].
    destruct (parse_format_config_map fXLSX config) as [c|e| |] eqn:Ec; try discriminate.
    assert (exists s, c = FXlsx s) as (s & ->).
    { unfold parse_format_config_map in Ec. cbn in Ec. destruct (new_xlsx_options config); try discriminate. injection Ec as <-. eauto. }
    injection H as <-. cbn [xw_rows xw_dest xw_sheet xw_book]. split; [reflexivity|]. split; [reflexivity|]. split; [|split; [reflexivity|]; exists cols, ps, types, s; auto].
    unfold new_sheet. destruct (map_get (sheet_key (or_sheet1 s)) (new_file sheet_key)) as [sh|] eqn:E; [|apply map_get_set_eq].
    unfold new_file in E. cbn [map_get] in E. unfold new_file. cbn [map_get]. 
    destruct (beqb (sheet_key (or_sheet1 s)) (sheet_key (bs "Sheet1"))); [reflexivity|discriminate].
  Qed.

  (** The sheet holds the texts of the accepted entries, row by row; nothing else, and nothing is written before
      Close. *)
  Theorem xlsx_cells : forall order comp schema config k w es xs w', new_writer order comp schema config k = Ok w ->
    write_entries w es = (xs, w') ->
    exists rows, taken es rows /\
      (Forall (fun row => Z.of_nat (length row) <= 17576)%Z rows ->
       Forall2 (fun e x => (exists row, row_is e row) <-> x = None) es xs /\ xw_dest w' = k /\
       exists sh, map_get (sheet_key (xw_sheet w)) (xw_book w') = Some sh /\
         forall c r, cell_at sh (c, r) = match c, r with S c, S r => option_map keep (at_cell rows c r) | _, _ => None end).
  Proof.
    intros order comp schema config k w es xs w' Hn E. destruct (taken_total es) as (rows & Ht). exists rows. split; [exact Ht|]. intros Hw.
    destruct (new_writer_inv _ _ _ _ _ _ Hn) as (R0 & D0 & B0 & _).
    destruct (entries_hold es rows Ht Hw w [] [] xs w') as (R & D & _ & sh & B & H); [rewrite R0; reflexivity|exact B0| |exact E|].
    - intros c r. destruct c; [reflexivity|]. destruct r; [reflexivity|]. unfold at_cell. destruct r; reflexivity.
    - split; [exact R|]. split; [congruence|]. exists sh. split; [exact B|exact H].
  Qed.

  (** Results of reading: the rows one by one, numbered from 0, and then the end. *)
  Fixpoint numbered (i : Z) (vss : list (list gval)) : list (res (entry F)) :=
    match vss with [] => [] | vs :: r => Ok (mkEntry i [] (VArr vs)) :: numbered (i + 1) r end.
  Lemma numbered_length : forall vss i, length (numbered i vss) = length vss.
  Proof. induction vss as [|vs vss IH]; intros i; [reflexivity|]. cbn [numbered length]. rewrite IH. reflexivity. Qed.
  Lemma calls_are : forall rows n i types, exists vss, Forall2 (row_value types) rows vss /\
    calls n (mkXr types rows i) = firstn n (numbered i vss ++ repeat (Err EOF) n).
  Proof.
    induction rows as [|row rows IH]; intros n i types.
    - exists []. split; [constructor|]. cbn [numbered app]. rewrite firstn_all2 by (rewrite repeat_length; lia).
      induction n as [|n IHn]; [reflexivity|]. cbn [M_Xlsx.xlsx_calls xlsx_read_entry xr_rows repeat]. f_equal. exact IHn.
    - destruct n as [|n].
      + destruct (IH 0%nat i types) as (vss & H & _). exists (decode F parse_float depth types row :: vss). split; [constructor; [apply csv_row; reflexivity|exact H]|reflexivity].
      + destruct (IH n (i + 1)%Z types) as (vss & H & E). exists (decode F parse_float depth types row :: vss).
        split; [constructor; [apply csv_row; reflexivity|exact H]|]. cbn [M_Xlsx.xlsx_calls xlsx_read_entry xr_rows xr_types xr_idx numbered app firstn].
        f_equal. rewrite E. clear. generalize (numbered (i + 1) vss). intros l. revert l. 
        assert (G : forall m k (l : list (res (entry F))), (m <= k)%nat -> firstn m (l ++ repeat (Err EOF) k) = firstn m (l ++ repeat (Err EOF) m)).
        { intros m k l Hk. rewrite !firstn_app. f_equal. assert (X : forall a b, (a <= b)%nat -> firstn a (repeat (@Err (entry F) EOF) b) = repeat (Err EOF) a).
          { induction a as [|a IHa]; intros b Hb; [reflexivity|]. destruct b as [|b]; [lia|]. cbn [repeat firstn]. f_equal. apply IHa. lia. }
          rewrite !X by lia. reflexivity. }
        intros l. symmetry. apply G. lia.
  Qed.
  Lemma types_length : forall cols types, first_types F cols = Some types -> Forall2 (fun cl t => exists ts, c_type cl = t :: ts) cols types.
  Proof.
    induction cols as [|c cols IH]; intros types H; cbn [first_types] in H; [injection H as <-; constructor|].
    destruct (c_type c) as [|t ts] eqn:E; [discriminate|]. destruct (first_types F cols) as [l|]; [|discriminate]. injection H as <-. constructor; [eauto|apply IH; reflexivity].
  Qed.
  (** What is written can be read. *)
  Theorem xlsx_round_trip : forall order comp schema config w es xs w' x w2 rows n cols ps,
    new_writer order comp schema config good_sink = Ok w -> columns_from_schema order schema = Ok (cols, ps) ->
    write_entries w es = (xs, w') -> close w' = (x, w2) -> load (save (xw_book w')) = Ok (xw_book w') ->
    taken es rows -> Forall (fun row => 0 < Z.of_nat (length row) <= 17576)%Z rows ->
    x = None /\ exists r types vss, new_reader order comp schema config (k_out (xw_dest w2)) = Ok r /\
      Forall2 (fun cl t => exists ts, c_type cl = t :: ts) cols types /\
      Forall2 (row_value types) (map (map keep) rows) vss /\ calls n r = firstn n (numbered 0 vss ++ repeat (Err EOF) n).
  Proof.
    intros order comp schema config w es xs w' x w2 rows n cols ps Hn Hcols E C L Ht Hw.
    destruct (new_writer_inv _ _ _ _ _ _ Hn) as (R0 & D0 & B0 & -> & cols' & ps' & types & s & C1 & C2 & C3 & C4). rewrite Hcols in C1. injection C1 as <- <-.
    destruct (entries_hold es rows Ht) with (w := w) (rows := @nil (list bytes)) (sh := @nil (place * bytes)) (xs := xs) (w' := w') as (R & D & S0 & sh & B & H);
      [eapply Forall_impl; [|exact Hw]; cbn; intros; lia|rewrite R0; reflexivity|exact B0| |exact E|].
    { intros c r. destruct c; [reflexivity|]. destruct r; [reflexivity|]. unfold at_cell. destruct r; reflexivity. }
    cbn [app] in H. unfold xlsx_close in C. rewrite D, D0 in C. unfold sink_write, good_sink in C. cbn [k_plan k_out app] in C. injection C as <- <-. split; [reflexivity|].
    cbn [xw_dest k_out]. destruct (calls_are (map (map keep) rows) n 0%Z types) as (vss & V & Ec). exists (mkXr types (map (map keep) rows) 0), types, vss.
    split; [|split; [apply types_length; exact C2|split; [exact V|exact Ec]]].
    unfold new_xlsx_reader. rewrite Hcols, C2, L, C3, <- C4, B. f_equal. f_equal. apply holds_rows; [exact H|].
    eapply Forall_impl; [|exact Hw]. cbn. intros a Ha ->. cbn in Ha. lia.
  Qed.
  (** Values of their columns' types come back, if the library keeps their texts. *)
  Definition own_row (types : list bytes) (e : entry F) (vs' : list gval) : Prop :=
    exists vs, e_val e = VArr vs /\ vs <> [] /\ Z.of_nat (length vs) <= 17576 /\ length vs = length types /\
      Forall2 (fun tv v' => own_type (fst tv) (snd tv) v') (combine types vs) vs' /\
      forall v t, In v vs -> cell_is v t -> keep t = t.
  Lemma own_cell : strict_format F fmt_json parse_float -> forall ty v v', own_type ty v v' -> exists t, cell_is v t /\ cell_value F parse_float depth ty t v'.
  Proof.
    intros Hf ty v v' H. exists (cell_text F fmt_plain fmt_json v). split; [|apply csv_own_type; assumption].
    destruct H as [z Hz|f H|b|ty s Hty| |l v Hb Hd Hr|m v Hb Hd Hr]; cbn [cell_text]; try constructor.
    - destruct b; [apply (ci_bool _ _ _ true)|apply (ci_bool _ _ _ false)].
    - destruct (marshal F fmt_json [] [] [] (VArr l)) as [t|] eqn:E; [reflexivity|exfalso; apply Hr, (marshal_refused F fmt_json (VArr l) [] [] []); assumption].
    - destruct (marshal F fmt_json [] [] [] (VMap m)) as [t|] eqn:E; [reflexivity|exfalso; apply Hr, (marshal_refused F fmt_json (VMap m) [] [] []); assumption].
  Qed.
  Theorem xlsx_values_back : strict_format F fmt_json parse_float ->
    forall order comp schema config w es xs w' x w2 cols ps types vss,
    new_writer order comp schema config good_sink = Ok w -> columns_from_schema order schema = Ok (cols, ps) ->
    Forall2 (fun cl t => exists ts, c_type cl = t :: ts) cols types ->
    write_entries w es = (xs, w') -> close w' = (x, w2) -> load (save (xw_book w')) = Ok (xw_book w') ->
    Forall2 (own_row types) es vss ->
    xs = map (fun _ => None) es /\ x = None /\ exists r, new_reader order comp schema config (k_out (xw_dest w2)) = Ok r /\
      calls (S (length es)) r = numbered 0 vss ++ [Err EOF].
  Proof.
    intros Hf order comp schema config w es xs w' x w2 cols ps types vss Hn Hcols Hty E C L Hv.
    assert (T : exists rows, taken es rows /\ Forall (fun row => 0 < Z.of_nat (length row) <= 17576)%Z rows /\ Forall2 (row_value types) (map (map keep) rows) vss /\
      length rows = length es /\ Forall (fun e => exists row, row_is e row) es).
    { clear - Hv Hf. induction Hv as [|e vs' es vss He Hv IH]; [exists []; repeat split; constructor|].
      destruct IH as (rows & I1 & I2 & I3 & I4 & I5). destruct He as (vs & E1 & E2 & E3 & E4 & E5 & E6).
      assert (Q : exists row, Forall2 cell_is vs row /\ length row = length vs /\ cell_values F parse_float depth types (map keep row) vs').
      { clear - E4 E5 E6 Hf. revert types vs' E4 E5. induction vs as [|v vs IH]; intros types vs' E4 E5.
        - destruct types; [|discriminate]. inversion E5; subst. exists []. repeat split; constructor.
        - destruct types as [|ty types]; [discriminate|]. cbn [combine] in E5. inversion E5 as [|? v' ? vs2 H1 H2]; subst. cbn [fst snd] in H1.
          destruct (IH (fun u t Hu => E6 u t (or_intror Hu)) types vs2) as (row & Q1 & Q2 & Q3); [cbn in E4; lia|exact H2|].
          destruct (own_cell Hf _ _ _ H1) as (t & T1 & T2). exists (t :: row). split; [constructor; assumption|]. split; [cbn; lia|].
          cbn [map]. rewrite (E6 v t (or_introl eq_refl) T1). constructor; assumption. }
      destruct Q as (row & Q1 & Q2 & Q3). exists (row :: rows).
      split; [constructor; [exists vs; auto|exact I1]|]. split; [constructor; [destruct vs; [congruence|]; rewrite Q2; cbn [length]; cbn [length] in E3; lia|exact I2]|].
      split; [cbn [map]; constructor; [left; rewrite map_length; split; [lia|exact Q3]|exact I3]|]. split; [cbn; lia|]. constructor; [exists row, vs; auto|exact I5]. }
    destruct T as (rows & T1 & T2 & T3 & T4 & T5).
    destruct (xlsx_round_trip _ _ _ _ _ _ _ _ _ _ _ (S (length es)) _ _ Hn Hcols E C L T1 T2) as (-> & r & types' & vss' & R1 & R2 & R3 & R4).
    assert (types' = types) as ->.
    { clear - R2 Hty. revert types Hty. induction R2 as [|c t cols ts0 (u & Hu) H IH]; intros types Hty; inversion Hty as [|? t2 ? ts2 (u2 & Hu2) H2]; subst; [reflexivity|].
      f_equal; [congruence|apply IH; assumption]. }
    assert (vss' = vss) as ->.
    { clear - R3 T3. revert vss T3. induction R3 as [|row v rws vs0 H1 H IH]; intros vss T3; inversion T3 as [|? v2 ? vs2 H2 H3]; subst; [reflexivity|].
      f_equal; [apply csv_row in H1, H2; congruence|apply IH; assumption]. }
    destruct (new_writer_inv _ _ _ _ _ _ Hn) as (R0 & D0 & B0 & _).
    destruct (entries_hold es rows T1) with (w := w) (rows := @nil (list bytes)) (sh := @nil (place * bytes)) (xs := xs) (w' := w') as (R & _);
      [eapply Forall_impl; [|exact T2]; cbn; intros; lia|rewrite R0; reflexivity|exact B0| |exact E|].
    { intros c r0. destruct c; [reflexivity|]. destruct r0; [reflexivity|]. unfold at_cell. destruct r0; reflexivity. }
    split; [|split; [reflexivity|]].
    - clear - R T5. induction R as [|e y es ys H1 H IH]; [reflexivity|]. inversion T5 as [|? ? A B]; subst. cbn [map]. f_equal; [apply H1; exact A|apply IH; exact B].
    - exists r. split; [exact R1|]. rewrite R4. apply Forall2_same_length in T3. rewrite map_length in T3.
      rewrite firstn_app, numbered_length. rewrite firstn_all2 by (rewrite numbered_length; lia). f_equal.
      replace (S (length es) - length vss)%nat with 1%nat by lia. reflexivity.
  Qed.

  Lemma names_config : forall config s, names_sheet config s -> exists t, parse_format_config_map fXLSX config = Ok (FXlsx t) /\ or_sheet1 t = s.
  Proof.
    intros config s H. unfold parse_format_config_map. cbn [Z.eqb fXLSX fCSV fJSON]. destruct H as [|m H|m s H Hs].
    - exists []. auto.
    - exists []. unfold new_xlsx_options, opt_get. destruct H as [->|[->| ->]]; auto.
    - exists s. unfold new_xlsx_options, opt_get. rewrite H. split; [reflexivity|]. destruct s; [congruence|reflexivity].
  Qed.
  Lemma bad_config : forall config, bad_sheet config -> exists e, parse_format_config_map fXLSX config = Err e.
  Proof.
    intros config (m & v & -> & H & N1 & N2). unfold parse_format_config_map. cbn [Z.eqb fXLSX fCSV fJSON]. unfold new_xlsx_options, opt_get. rewrite H.
    destruct v; try (eexists; reflexivity); [congruence|]. exfalso. eapply N2. reflexivity.
  Qed.
  Lemma types_some : forall cols, Forall (fun cl : column (F:=F) => c_type cl <> []) cols -> exists types, first_types F cols = Some types.
  Proof.
    intros cols H. induction H as [|c cols Hc H (types & IH)]; [exists []; reflexivity|]. cbn [first_types]. rewrite IH. destruct (c_type c); [congruence|]. eauto.
  Qed.
  Lemma types_none : forall cols (cl : column (F:=F)), In cl cols -> c_type cl = [] -> first_types F cols = None.
  Proof.
    induction cols as [|c cols IH]; intros cl Hin E; [destruct Hin|]. destruct Hin as [->|H]; cbn [first_types]; [rewrite E; reflexivity|]. rewrite (IH cl H E). destruct (c_type c); reflexivity.
  Qed.
  (** Making a reader or a writer. *)
  Theorem xlsx_setup : forall order schema config k data cols ps, columns_from_schema order schema = Ok (cols, ps) -> Forall (fun cl => c_type cl <> []) cols ->
    (forall s, names_sheet config s -> exists w, new_writer order [] schema config k = Ok w /\ xw_sheet w = s) /\
    (bad_sheet config -> exists e, new_writer order [] schema config k = Err e) /\
    (forall b s, load data = Ok b -> names_sheet config s \/ bad_sheet config /\ s = bs "Sheet1" ->
       (map_get (sheet_key s) b = None -> exists e, new_reader order [] schema config data = Err e) /\
       (forall sh, map_get (sheet_key s) b = Some sh -> exists r, new_reader order [] schema config data = Ok r)) /\
    (forall e, load data = Err e -> new_reader order [] schema config data = Err e).
  Proof.
    intros order schema config k data cols ps Hc Ht. destruct (types_some _ Ht) as (types & Et).
    split; [|split; [|split]].
    - intros s H. destruct (names_config _ _ H) as (t & E & <-). unfold new_xlsx_writer. rewrite Hc, Et, E. eauto.
    - intros H. destruct (bad_config _ H) as (e & E). unfold new_xlsx_writer. rewrite Hc, Et, E. eauto.
    - intros b s L H. assert (Q : or_sheet1 (match parse_format_config_map fXLSX config with Ok (FXlsx t) => t | _ => [] end) = s).
      { destruct H as [H|[H ->]]; [destruct (names_config _ _ H) as (t & -> & E); exact E|destruct (bad_config _ H) as (e & ->); reflexivity]. }
      unfold new_xlsx_reader. rewrite Hc, Et, L, Q. split; [intros ->; eauto|intros sh ->; eauto].
    - intros e L. unfold new_xlsx_reader. rewrite Hc, Et, L. reflexivity.
  Qed.
  Theorem xlsx_refuses : forall order schema config k data,
    (forall c comp, (exists e, new_writer order (c :: comp) schema config k = Err e) /\ (exists e, new_reader order (c :: comp) schema config data = Err e)) /\
    (forall e, columns_from_schema order schema = Err e ->
       new_writer order [] schema config k = Err e /\ new_reader order [] schema config data = Err e) /\
    (forall cols ps cl, columns_from_schema order schema = Ok (cols, ps) -> In cl cols -> c_type cl = [] ->
       new_writer order [] schema config k = Panic /\ new_reader order [] schema config data = Panic).
  Proof.
    intros order schema config k data. split; [|split].
    - intros c comp. split; eexists; reflexivity.
    - intros e H. unfold new_xlsx_writer, new_xlsx_reader. rewrite H. auto.
    - intros cols ps cl H Hin E. unfold new_xlsx_writer, new_xlsx_reader. rewrite H, (types_none _ _ Hin E). auto.
  Qed.
  (** Close tells whether the file arrived. *)
  Theorem xlsx_close_reports : forall w x w2, close w = (x, w2) ->
    (x = None -> k_out (xw_dest w2) = k_out (xw_dest w) ++ save (xw_book w)) /\
    (forall n e p, k_plan (xw_dest w) = Some (n, e) :: p -> x = Some e).
  Proof.
    intros w x w2 H. unfold xlsx_close, sink_write in H. destruct (k_plan (xw_dest w)) as [|[[n e]|] p]; injection H as <- <-; cbn [xw_dest k_out];
      (split; [try discriminate; reflexivity|intros; congruence]).
  Qed.

  (** Rows with more than 17576 cells: a later cell takes the place of an earlier one. *)
  Lemma set_cells_app : forall rows name a b i bk, set_cells sheet_key keep rows name i (a ++ b) bk =
    set_cells sheet_key keep rows name (i + length a) b (set_cells sheet_key keep rows name i a bk).
  Proof.
    intros rows name a b. induction a as [|x a IH]; intros i bk; cbn [app set_cells length]; [rewrite Nat.add_0_r; reflexivity|].
    rewrite IH. f_equal. lia.
  Qed.
  Theorem xlsx_wide_row : forall order comp schema config k w e row t x w', new_writer order comp schema config k = Ok w ->
    row_is e (row ++ [t]) -> Z.of_nat (length row) = 17576%Z -> write_entry w e = (x, w') ->
    x = None /\ exists sh, map_get (sheet_key (xw_sheet w)) (xw_book w') = Some sh /\ cell_at sh (677%nat, 1%nat) = Some (keep t).
  Proof.
    intros order comp schema config k w e row t x w' Hn He Hl E. destruct (new_writer_inv _ _ _ _ _ _ Hn) as (R0 & D0 & B0 & _).
    rewrite (write_entry_ok _ _ _ He) in E. injection E as <- <-. split; [reflexivity|]. cbn [xw_book]. rewrite R0, set_cells_app. cbn [Nat.add set_cells].
    destruct (set_cells_at sheet_key keep 0 (xw_sheet w) row 0 (xw_book w) [] ltac:(lia) ltac:(cbn [Nat.add]; lia) B0) as (sh & B & _).
    unfold set_cell. rewrite B. unfold axis. rewrite Hl.
    replace (parse_axis match col_index_to_letters 17576 with Some w0 => w0 ++ itoa (0 + 1) | None => [] end) with (Some (677%nat, 1%nat)) by (vm_compute; reflexivity).
    eexists. split; [apply map_get_set_eq|]. cbn [cell_at]. rewrite (proj2 (same_cell_true _ _) eq_refl). reflexivity.
  Qed.
End Xlsx.
Print Assumptions xlsx_cells.
Print Assumptions xlsx_round_trip.
Print Assumptions xlsx_values_back.
Print Assumptions xlsx_setup.
Print Assumptions xlsx_refuses.
Print Assumptions xlsx_close_reports.
Print Assumptions xlsx_wide_row.

(** Instances: floats are absent, a book is kept under the only name there is, texts are kept whole. *)
Definition two_cols : list (bytes * gval Empty_set) :=
  [(bs "items", VMap [(bs "items", VArr [VMap [(bs "title", VStr (bs "a")); (bs "type", VStr (bs "integer"))];
                                         VMap [(bs "title", VStr (bs "b")); (bs "type", VStr (bs "string"))]]);
                      (bs "type", VStr (bs "array"))]);
   (bs "type", VStr (bs "array"))].
Definition no_float (f : Empty_set) : bytes := match f with end.
Definition no_json (f : Empty_set) : option bytes := match f with end.
Definition no_parse (s : bytes) : option Empty_set := None.
Definition rw (rows : list (list (gval Empty_set))) : list (entry Empty_set) := map (fun vs => mkEntry 0 [] (VArr vs)) rows.
Definition sample_writer : res xlsx_writer := new_xlsx_writer Empty_set (fun k => k) (fun l => l) [] two_cols None good_sink.
Definition sheet_after (es : list (entry Empty_set)) : option (list (option err) * sheet) :=
  match sample_writer with
  | Ok w => let '(xs, w') := xlsx_write_entries Empty_set no_float no_json (fun k => k) (fun t => t) w es in
            match map_get (bs "Sheet1") (xw_book w') with Some sh => Some (xs, sh) | None => None end
  | _ => None
  end.
(** An entry that is refused takes no row. *)
Example xlsx_ex : sheet_after (rw [[VInt 7; VStr (bs "x")]; [VBytes [1%N]]; [VNil; VArr [VInt 1]]]) =
  Some ([None; Some (EMsg "error encoding entry"); None],
        [((2%nat, 2%nat), bs "[1]"); ((1%nat, 2%nat), []); ((2%nat, 1%nat), bs "x"); ((1%nat, 1%nat), bs "7")]).
Proof. vm_compute. reflexivity. Qed.
(** Null is not kept: it comes back as an empty text. *)
Definition read_after (es : list (entry Empty_set)) : list (res (entry Empty_set)) :=
  match sheet_after es with
  | Some (_, sh) => match new_xlsx_reader Empty_set (fun _ => Ok [(bs "Sheet1", sh)]) (fun k => k) (fun l => l) [] two_cols None [] with
                    | Ok r => xlsx_calls Empty_set no_parse 3 3 r
                    | _ => [] end
  | None => []
  end.
Theorem xlsx_null_back_refuted : read_after (rw [[VNil; VNil]]) = [Ok (mkEntry 0 [] (VArr [VStr []; VStr []])); Err EOF; Err EOF].
Proof. vm_compute. reflexivity. Qed.
Example xlsx_own_ex : own_row Empty_set no_parse no_float no_json 3 (fun t => t) [bs "integer"; bs "string"] (mkEntry 0 [] (VArr [VInt 7; VStr (bs "x")])) [VInt 7; VStr (bs "x")].
Proof.
  eexists. split; [reflexivity|]. split; [discriminate|]. split; [cbn; lia|]. split; [reflexivity|]. split; [|reflexivity].
  constructor; [constructor; unfold S_Vals.int64; lia|]. constructor; [|constructor]. constructor. cbn. intuition congruence.
Qed.
Example xlsx_back_ex : read_after (rw [[VInt 7; VStr (bs "x")]; [VInt (-1); VStr (bs "y")]]) =
  [Ok (mkEntry 0 [] (VArr [VInt 7; VStr (bs "x")])); Ok (mkEntry 1 [] (VArr [VInt (-1); VStr (bs "y")])); Err EOF].
Proof. vm_compute. reflexivity. Qed.
Example xlsx_wide_ex : exists e row t, row_is Empty_set no_float no_json e (row ++ [t]) /\ Z.of_nat (length row) = 17576%Z.
Proof.
  assert (G : forall n, exists e row t, row_is Empty_set no_float no_json e (row ++ [t]) /\ length row = n).
  { intros n. exists (mkEntry 0 [] (VArr (repeat VNil n ++ [VStr (bs "x")]))), (repeat [] n), (bs "x"). split; [|apply repeat_length].
    eexists. split; [reflexivity|]. apply Forall2_app; [induction n; constructor; [constructor|assumption]|]. constructor; [constructor|constructor]. }
  destruct (G (Z.to_nat 17576)) as (e & row & t & H & E). exists e, row, t. split; [exact H|]. rewrite E, Z2Nat.id by lia. reflexivity.
Qed.
