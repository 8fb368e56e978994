(** C24-C27: CSV reader and writer. *)
From Coq Require Import ZArith Lia.
From Verif Require Import Base M_Bufio M_Utf8 M_Sink M_Formats M_Tabular M_Vals M_Decimal M_JsonWrite M_Unmarshal M_CsvText M_Csv
  S_ReplaceCR S_Csv S_CsvCells S_Vals S_JsonBack S_NDJson L_Decimal L_Vals L_JsonMarshal L_JsonWriter L_NDJson L_Unmarshal L_UnmarshalInv
  L_CsvText L_CsvSpec L_CsvIn L_CsvOut L_CsvBack L_Csv.

(** C24: a text has one reading. *)
Theorem csv_answers_unique : forall lazy trim c fin w T l1 l2, valid_delim c = true ->
  answers lazy trim (encode_rune c) fin w T l1 -> answers lazy trim (encode_rune c) fin w T l2 -> length l1 = length l2 -> l1 = l2.
Proof.
  intros lazy trim c fin w T l1 l2 Hc H1 H2 HL. destruct (valid_comma _ Hc) as [_ [C2 [C3 [h [t [C4 C5]]]]]]. rewrite C4 in *.
  eapply (answers_fun lazy trim h t fin C5 C2 C3); eassumption.
Qed.

Section Csv.
  Variable F : Type.
  Variable parse_float : bytes -> option F.
  Variable fmt_plain : F -> bytes.
  Variable fmt_json : F -> option bytes.
  Variable depth : nat.
  Notation gval := (gval F).
  Notation typed := (typed F parse_float depth).
  Notation cell_value := (cell_value F parse_float depth).
  Notation row_value := (row_value F parse_float depth).
  Notation shows := (shows F parse_float depth).
  Notation own_type := (own_type F parse_float depth fmt_plain fmt_json).
  Notation cast := (cast F parse_float depth).
  Notation decode := (decode F parse_float depth).
  Notation csv_read_all := (csv_read_all F parse_float depth).
  Notation cell_text := (cell_text F fmt_plain fmt_json).
  Notation csv_session := (csv_session F fmt_plain fmt_json).
  Notation entry_rows := (entry_rows F fmt_plain fmt_json).
  Notation write_res := (write_res F).

  (** C25: the cells of a row. *)
  Lemma sline_one : forall s v1 v2, sline F parse_float depth v1 s -> sline F parse_float depth v2 s -> v1 = v2.
  Proof. intros s v1 v2 H1 H2. apply unmarshal_exact in H1, H2. congruence. Qed.
  Theorem csv_cells : forall ty s v, cell_value ty s v <-> cast ty s = v.
  Proof.
    assert (X : forall ty s, (typed ty s (cast ty s)) \/ (forall v', ~ typed ty s v') /\ cast ty s = VStr s).
    { intros ty s. unfold M_Csv.cast.
      destruct (beqb ty (bs "number")) eqn:E1; [apply beqb_eq in E1; subst ty|].
      { destruct (parse_float s) eqn:E; [left; constructor; assumption|right; split; [|reflexivity]]. intros v H. inversion H; congruence. }
      destruct (beqb ty (bs "integer")) eqn:E2; [apply beqb_eq in E2; subst ty|].
      { destruct (parse_int64 s) as [z|] eqn:E; [left; apply int64_parse in E; constructor; apply E|right; split; [|reflexivity]].
        intros v H. inversion H; subst. assert (Y : parse_int64 s = Some z) by (apply int64_parse; auto). congruence. }
      destruct (beqb ty (bs "boolean")) eqn:E3; [apply beqb_eq in E3; subst ty|].
      { unfold parse_bool. assert (B : forall l, existsb (beqb s) l = true <-> In s l).
        { intros l. rewrite existsb_exists. split; [intros [x [Hx Ex]]; apply beqb_eq in Ex; subst; assumption|intros H; exists s; split; [assumption|apply beqb_eq; reflexivity]]. }
        destruct (existsb (beqb s) [bs "1"; bs "t"; bs "T"; bs "true"; bs "TRUE"; bs "True"]) eqn:B1; [left; constructor; apply B; assumption|].
        destruct (existsb (beqb s) [bs "0"; bs "f"; bs "F"; bs "false"; bs "FALSE"; bs "False"]) eqn:B2; [left; constructor; apply B; assumption|].
        right. split; [|reflexivity]. intros v H. inversion H as [| |? H0|? H0| | | | |]; subst; apply B in H0; congruence. }
      destruct (beqb ty (bs "object")) eqn:E4; [apply beqb_eq in E4; subst ty|].
      { pose proof (unmarshal_exact F parse_float depth) as UE.
        assert (NO : forall u, unmarshal F parse_float depth s = u -> (forall m, u <> Ok (VMap m)) -> u <> Ok VNil -> forall v', ~ typed (bs "object") s v').
        { intros u Eu N1 N2 v' H. inversion H as [| | | |? m H0|? H0| | |]; subst; apply UE in H0; [eapply N1|apply N2]; eassumption. }
        destruct (unmarshal F parse_float depth s) as [v|e| |] eqn:E; [destruct v|right; split; [eapply NO; [reflexivity|discriminate|discriminate]|reflexivity]..];
          try (right; split; [eapply NO; [reflexivity|discriminate|discriminate]|reflexivity]).
        - left. apply ty_object_null. apply UE. assumption.
        - left. apply ty_object. apply UE. assumption. }
      destruct (beqb ty (bs "array")) eqn:E5; [apply beqb_eq in E5; subst ty|].
      { pose proof (unmarshal_exact F parse_float depth) as UE.
        assert (NO : forall u, unmarshal F parse_float depth s = u -> (forall m, u <> Ok (VArr m)) -> u <> Ok VNil -> forall v', ~ typed (bs "array") s v').
        { intros u Eu N1 N2 v' H. inversion H as [| | | | | |? m H0|? H0|]; subst; apply UE in H0; [eapply N1|apply N2]; eassumption. }
        destruct (unmarshal F parse_float depth s) as [v|e| |] eqn:E; [destruct v|right; split; [eapply NO; [reflexivity|discriminate|discriminate]|reflexivity]..];
          try (right; split; [eapply NO; [reflexivity|discriminate|discriminate]|reflexivity]).
        - left. apply ty_array_null. apply UE. assumption.
        - left. apply ty_array. apply UE. assumption. }
      destruct (beqb ty (bs "null")) eqn:E6; [apply beqb_eq in E6; subst ty; left; constructor|].
      right. split; [|reflexivity]. intros v H. inversion H; subst; discriminate. }
    assert (U : forall ty s v1 v2, typed ty s v1 -> typed ty s v2 -> v1 = v2).
    { intros ty s v1 v2 H1 H2. destruct H1; inversion H2; subst; try reflexivity; try congruence.
      - assert (Y1 : parse_int64 s = Some z) by (apply int64_parse; auto). assert (Y2 : parse_int64 s = Some z0) by (apply int64_parse; auto). congruence.
      - exfalso. match goal with A : In _ _, B : In _ _ |- _ => cbn in A, B; intuition congruence end.
      - exfalso. match goal with A : In _ _, B : In _ _ |- _ => cbn in A, B; intuition congruence end.
      - match goal with A : sline _ _ _ _ s, B : sline _ _ _ _ s |- _ => pose proof (sline_one _ _ _ A B); congruence end.
      - match goal with A : sline _ _ _ _ s, B : sline _ _ _ _ s |- _ => pose proof (sline_one _ _ _ A B); congruence end.
      - match goal with A : sline _ _ _ _ s, B : sline _ _ _ _ s |- _ => pose proof (sline_one _ _ _ A B); congruence end.
      - match goal with A : sline _ _ _ _ s, B : sline _ _ _ _ s |- _ => pose proof (sline_one _ _ _ A B); congruence end.
      - match goal with A : sline _ _ _ _ s, B : sline _ _ _ _ s |- _ => pose proof (sline_one _ _ _ A B); congruence end.
      - match goal with A : sline _ _ _ _ s, B : sline _ _ _ _ s |- _ => pose proof (sline_one _ _ _ A B); congruence end. }
    intros ty s v. split.
    - destruct (X ty s) as [T|[N1 E1]]; intros [H|[N2 ->]].
      + eapply U; eassumption.
      + exfalso. eapply N2. eassumption.
      + exfalso. eapply N1. eassumption.
      + assumption.
    - intros <-. exact (X ty s).
  Qed.
  Theorem csv_row : forall types fs vs, row_value types fs vs <-> decode types fs = vs.
  Proof.
    assert (D : forall types fs vs, (length fs <= length types)%nat -> cell_values F parse_float depth types fs vs <-> cast_all F parse_float depth types fs = vs).
    { intros types fs. revert types. induction fs as [|s fs IH]; intros types vs HL.
      - destruct types; cbn [M_Csv.cast_all]; split; intros H; [inversion H; reflexivity|subst; constructor|inversion H; reflexivity|subst; constructor].
      - destruct types as [|ty types]; [cbn [length] in HL; lia|]. cbn [length] in HL. cbn [M_Csv.cast_all]. split.
        + intros H. inversion H; subst. f_equal; [apply csv_cells; assumption|apply IH; [lia|assumption]].
        + intros <-. constructor; [apply csv_cells; reflexivity|apply IH; [lia|reflexivity]]. }
    assert (S : forall fs, cast_all F parse_float depth (map (fun _ => bs "string") fs) fs = map VStr fs).
    { induction fs as [|s fs IH]; [reflexivity|]. cbn [map M_Csv.cast_all]. rewrite IH. reflexivity. }
    intros types fs vs. unfold M_Csv.decode, S_CsvCells.row_value. destruct (Nat.ltb_spec (length types) (length fs)) as [H|H].
    - rewrite S. split; [intros [[X _]|[_ ->]]; [lia|reflexivity]|intros <-; right; auto].
    - rewrite <- (D types fs vs) by assumption. split; [intros [[_ X]|[X _]]; [assumption|lia]|intros X; left; auto].
  Qed.
  (** Values written to columns of their own type. *)
  Theorem csv_own_type : strict_format F fmt_json parse_float -> forall ty v v', own_type ty v v' -> cell_value ty (cell_text v) v'.
  Proof.
    intros Hfmt ty v v' H. destruct H as [z Hz|f Hf|b|ty s Hty| |l v Hb Hd Hr|m v Hb Hd Hr].
    - left. constructor; [|assumption]. cbn [M_Csv.cell_text]. apply int64_parse. apply parse_int64_itoa. unfold in_int64, min_int64, max_int64, int64 in *.
      apply andb_true_intro. split; apply Z.leb_le; lia.
    - left. constructor. assumption.
    - left. destruct b; constructor; cbn; auto 10.
    - right. split; [|reflexivity]. intros v' H. inversion H; subst; apply Hty; cbn; auto 10.
    - left. constructor.
    - left. cbn [M_Csv.cell_text]. destruct (marshal F fmt_json [] [] [] (VArr l)) as [t|] eqn:E; [|exfalso; apply Hr, (marshal_refused F fmt_json (VArr l) [] [] []); assumption].
      inversion Hb; subst. constructor. exists [], t, []. rewrite app_nil_r. split; [constructor|]. split; [constructor|]. split; [|reflexivity].
      eapply marshal_strict; eassumption.
    - left. cbn [M_Csv.cell_text]. destruct (marshal F fmt_json [] [] [] (VMap m)) as [t|] eqn:E; [|exfalso; apply Hr, (marshal_refused F fmt_json (VMap m) [] [] []); assumption].
      inversion Hb; subst. constructor. exists [], t, []. rewrite app_nil_r. split; [constructor|]. split; [constructor|]. split; [|reflexivity].
      eapply marshal_strict; eassumption.
  Qed.

  (** C24: what ReadEntry returns, call after call. *)
  Lemma shows_res : forall types a, shows types a (row_res F parse_float depth types (answer_res a)).
  Proof.
    intros types [fs| |[| |e]|]; cbn [answer_res row_res flaw_err]; try constructor. apply csv_row. reflexivity.
  Qed.
  Lemma shows_map : forall types l, Forall2 (shows types) l (map (fun a => row_res F parse_float depth types (answer_res a)) l).
  Proof. intros types l. induction l as [|a l IH]; constructor; [apply shows_res|assumption]. Qed.
  Theorem csv_reads : forall size osize n c s, (0 < osize)%nat -> valid_delim (cf_comma c) = true ->
    exists t l, tidy (s_fin s) (s_rem s) t /\
      answers (cf_lazy c) false (encode_rune (cf_comma c)) (s_fin s) (cf_width c) t l /\ length l = S n /\
      Forall2 (shows (cf_types c)) (firstn n (if cf_header c then after_header l else l)) (csv_read_all size osize n c s).
  Proof.
    intros size osize n c s Ho Hc. destruct (read_all_answers F parse_float depth size osize n c s Ho Hc) as [t [l [H1 [H2 [H3 H4]]]]].
    exists t, l. split; [assumption|]. split; [assumption|]. split; [assumption|]. rewrite H4, firstn_map. apply shows_map.
  Qed.
  (** Without a lone CR the text that counts is the one with LF for CR LF. *)
  Theorem csv_unix : forall fin d t, tidy fin d t -> no_lone_cr d -> t = unix_ends d.
  Proof. apply tidy_unix. Qed.
  Theorem csv_chunks_free : forall size1 size2 osize n c s1 s2, (0 < osize)%nat -> s_rem s1 = s_rem s2 -> s_fin s1 = s_fin s2 ->
    csv_read_all size1 osize n c s1 = csv_read_all size2 osize n c s2.
  Proof. apply read_all_same. Qed.
  (** A separator encoding/csv does not allow: nothing is read or written. *)
  Theorem csv_bad_separator : forall size osize n c s, valid_delim (cf_comma c) = false ->
    csv_read_all size osize n c s = repeat (Err err_delim) n.
  Proof.
    intros size osize n c s Hc. unfold M_Csv.csv_read_all. generalize (csv_start size c s). induction n as [|n IH]; intros r; [reflexivity|].
    cbn [M_Csv.csv_calls repeat]. unfold csv_read_entry, csv_data, read_row, in_read, csv_read. rewrite Hc.
    destruct (rd_header r); [f_equal; apply IH|]. destruct (cf_header c); f_equal; apply IH.
  Qed.
  Theorem csv_bad_separator_writes : forall wsize comma b es, valid_delim comma = false ->
    csv_session wsize (mkWr comma b) es =
      (map (fun e => if is_row F e then Some err_delim else Some err_not_array) es, None, k_out (w_dest (snd (bw_flush b)))).
  Proof.
    intros wsize comma b es Hc. unfold M_Csv.csv_session.
    assert (X : csv_write_entries F fmt_plain fmt_json wsize (mkWr comma b) es = (map (fun e => if is_row F e then Some err_delim else Some err_not_array) es, mkWr comma b)).
    { induction es as [|e es IH]; [reflexivity|]. cbn [M_Csv.csv_write_entries map]. unfold csv_write_entry, is_row. cbn [wr_comma wr_out].
      unfold csv_write. rewrite Hc. destruct (e_val e); rewrite IH; reflexivity. }
    rewrite X. reflexivity.
  Qed.

  (** Writer and reader of one structure. *)
  Definition options (config : option (list (bytes * gval))) : csv_options :=
    match new_csv_options config with Ok o => o | _ => mkCSV false false 0 false end.
  (** The number of cells every row should have, if it is fixed beforehand: 0, that of the first row; -1, any. *)
  Definition expected (config : option (list (bytes * gval))) (cols : list (column (F:=F))) : Z :=
    if csv_variadic (options config) then -1 else if csv_header (options config) then Z.of_nat (length cols) else 0.
  Lemma Forall2_same_length : forall A B (P : A -> B -> Prop) l m, Forall2 P l m -> length l = length m.
  Proof. intros A B P l m H. induction H; cbn [length]; congruence. Qed.
  Lemma made_together : forall wsize order schema config w c cols ps, (4 <= wsize)%nat ->
    columns_from_schema order schema = Ok (cols, ps) ->
    new_csv_writer F wsize order schema config good_sink = Ok w -> new_csv_reader F order (bs "csv") schema config = Ok c ->
    valid_delim (wr_comma w) = true ->
    cf_comma c = wr_comma w /\ cf_header c = csv_header (options config) /\ cf_width c = (if csv_variadic (options config) then -1 else 0)%Z /\
    bw_ok wsize (wr_out w) /\ good (wr_out w) /\ total (wr_out w) = if csv_header (options config) then line_out (wr_comma w) (titles cols) else [].
  Proof.
    intros wsize order schema config w c cols ps Hw Hcols W R V. unfold new_csv_writer in W. unfold new_csv_reader in R. rewrite Hcols in *.
    destruct (first_types F cols) as [types|]; [|discriminate]. unfold parse_format_config_map in R. change (Z.eqb fCSV fCSV) with true in R. cbv iota in R.
    unfold has_header_row in R. change (Z.eqb (structure_data_format (bs "csv")) fCSV) with true in R. cbv iota in R. unfold options.
    destruct (new_csv_options config) as [o|e| |] eqn:Eo.
    - injection W as <-. injection R as <-. cbn [cf_comma cf_header cf_width wr_comma wr_out] in *.
      split; [reflexivity|]. split; [|split; [reflexivity|]].
      { destruct config as [m|]; [reflexivity|]. cbn in Eo. injection Eo as <-. reflexivity. }
      assert (B : bw_ok wsize (mkBw [] None good_sink)) by (split; [reflexivity|cbn [w_buf length]; lia]).
      destruct (csv_header o); [|split; [assumption|split; reflexivity]].
      destruct (write_op wsize Hw _ (titles cols) V _ B) as [[[A1 [A2 [A3 A4]]]|[e [A1 [A2 [A3 A4]]]]] G]; [|exfalso; apply A4; reflexivity].
      split; [assumption|]. split; [apply G; reflexivity|]. rewrite A3. reflexivity.
    - injection W as <-. assert (R2 : c = mkConf types false cCOMMA 0 false) by (destruct config; injection R as <-; reflexivity). subst c.
      cbn [csv_header csv_variadic cf_comma cf_header cf_width wr_comma wr_out] in *. repeat split; try reflexivity. cbn [w_buf length]. lia.
    - injection W as <-. assert (R2 : c = mkConf types false cCOMMA 0 false) by (destruct config; injection R as <-; reflexivity). subst c.
      cbn [csv_header csv_variadic cf_comma cf_header cf_width wr_comma wr_out] in *. repeat split; try reflexivity. cbn [w_buf length]. lia.
    - injection W as <-. assert (R2 : c = mkConf types false cCOMMA 0 false) by (destruct config; injection R as <-; reflexivity). subst c.
      cbn [csv_header csv_variadic cf_comma cf_header cf_width wr_comma wr_out] in *. repeat split; try reflexivity. cbn [w_buf length]. lia.
  Qed.
  (** C24, C26: writing rows and reading them back.  Line endings in cells may change; rows without text
      vanish; rows of another length are refused. *)
  Theorem csv_round_trip : forall wsize osize size n order schema config w c cols ps es xs x out sched,
    (4 <= wsize)%nat -> (0 < osize)%nat -> columns_from_schema order schema = Ok (cols, ps) ->
    new_csv_writer F wsize order schema config good_sink = Ok w -> new_csv_reader F order (bs "csv") schema config = Ok c ->
    valid_delim (wr_comma w) = true -> (csv_header (options config) = true -> blank_row (titles cols) = false) ->
    csv_session wsize w es = (xs, x, out) ->
    xs = map write_res es /\ exists rows, Forall2 (Forall2 endings) (entry_rows es) rows /\
      Forall2 (shows (cf_types c)) (firstn n (counted (expected config cols) rows ++ repeat End n))
        (csv_read_all size osize n c (mkSrc out EOF sched)).
  Proof.
    intros wsize osize size n order schema config w c cols ps es xs x out sched Hw Ho Hcols W R V HT HS.
    destruct (made_together _ _ _ _ _ _ _ _ Hw Hcols W R V) as [M1 [M2 [M3 [M4 [M5 M6]]]]]. destruct w as [comma b]. cbn [wr_comma wr_out] in *.
    destruct (session_outcome F fmt_plain fmt_json wsize Hw comma V es b xs x out M4 HS) as [_ [_ [_ [_ G]]]]. destruct (G M5) as [-> Eo]. split; [reflexivity|].
    set (all := (if csv_header (options config) then [titles cols] else []) ++ entry_rows es).
    assert (TT : table_text (encode_rune comma) all out).
    { rewrite Eo, M6. replace ((if csv_header (options config) then line_out comma (titles cols) else []) ++ table_out comma (entry_rows es)) with (table_out comma all); [apply table_out_text; assumption|].
      unfold all. destruct (csv_header (options config)); reflexivity. }
    destruct (read_table F parse_float depth size osize n c (mkSrc out EOF sched) all Ho) as [rows' [R1 R2]]; try (rewrite M1; assumption); [rewrite M3; destruct (csv_variadic (options config)); lia|reflexivity|].
    rewrite R2. unfold table_results.
    assert (PAD : forall l, Forall2 (shows (cf_types c)) (firstn n (l ++ repeat End n)) (firstn n (map (fun a => row_res F parse_float depth (cf_types c) (answer_res a)) l ++ repeat (Err EOF) n))).
    { intros l. replace (repeat (Err EOF) n) with (map (fun a => row_res F parse_float depth (cf_types c) (answer_res a)) (repeat End n)).
      - rewrite <- map_app, firstn_map. apply shows_map.
      - clear. induction n as [|m IH]; [reflexivity|]. cbn [repeat map]. f_equal. exact IH. }
    rewrite M2. unfold all in R1. unfold expected. destruct (csv_header (options config)).
    - cbn [app] in R1. inversion R1 as [|t0 t' r0 rows H1 H2]; subst. exists rows. split; [assumption|].
      assert (HL : length t' = length cols) by (rewrite <- (Forall2_same_length _ _ _ _ _ H1); unfold titles; apply map_length).
      assert (HB : blank_row t' = false).
      { specialize (HT eq_refl). revert HT H1. generalize (titles cols). intros t0 HT H1. destruct t0 as [|f [|g t0]]; [discriminate| |]; inversion H1 as [|? f' ? ? He HR]; subst.
        - inversion HR; subst. destruct f; [discriminate|]. destruct f'; [exfalso; apply endings_nil in He; [discriminate|reflexivity]|reflexivity].
        - inversion HR; subst. destruct f'; reflexivity. }
      cbn [counted]. rewrite HB, M3. cbn [tl]. destruct (csv_variadic (options config)); [|rewrite HL]; apply PAD.
    - exists rows'. split; [assumption|]. rewrite M3. apply PAD.
  Qed.
  (** Rows of equal length, with text and without CR, come back. *)
  Theorem csv_rows_come_back : forall (k : Z) rows rows', Forall (Forall (fun f => ~ In 13%N f)) rows -> Forall (fun fs => blank_row fs = false) rows ->
    ((k < 0)%Z \/ exists m, (k = 0%Z \/ k = Z.of_nat m) /\ Forall (fun fs => length fs = m) rows) ->
    Forall2 (Forall2 endings) rows rows' -> rows' = rows /\ counted k rows' = map Row rows.
  Proof.
    intros k rows rows' Hcr Hb Hk H.
    assert (E : rows' = rows).
    { clear Hb Hk. induction H as [|fs gs rows rows' H HF IH]; [reflexivity|]. inversion Hcr as [|? ? Hf Hr]; subst. f_equal; [|apply IH; assumption].
      clear - H Hf. induction H as [|f g fs gs H HF IH]; [reflexivity|]. inversion Hf; subst. f_equal; [eapply endings_refl; eassumption|apply IH; assumption]. }
    subst rows'. split; [reflexivity|]. clear H Hcr. destruct Hk as [Hk|[m [Hk Hm]]].
    - induction Hb as [|fs rows Hb HB IH]; [reflexivity|]. cbn [counted map]. rewrite Hb. replace (k <=? 0)%Z with true by (symmetry; apply Z.leb_le; lia).
      cbn [orb]. replace (k =? 0)%Z with false by (symmetry; apply Z.eqb_neq; lia). f_equal. exact IH.
    - revert k Hk. induction rows as [|fs rows IH]; intros k Hk; [reflexivity|]. inversion Hb; subst. inversion Hm; subst. cbn [counted map].
      match goal with H : blank_row fs = false |- _ => rewrite H end.
      destruct Hk as [-> | ->].
      + cbn [orb Z.leb Z.compare]. f_equal. apply IH; auto.
      + rewrite Z.eqb_refl, orb_true_r. f_equal. apply IH; auto. right. destruct (Z.of_nat (length fs) =? 0)%Z; reflexivity.
  Qed.

  (** C27: Close. *)
  Theorem csv_close_silent : forall wsize comma k es xs x out, (4 <= wsize)%nat -> valid_delim comma = true ->
    csv_session wsize (mkWr comma (mkBw [] None k)) es = (xs, x, out) ->
    x = None /\
    (exists text rest, table_text (encode_rune comma) (entry_rows es) text /\ k_out k ++ text = out ++ rest) /\
    (xs = map write_res es \/
     exists es1 e0 es2 e, es = es1 ++ e0 :: es2 /\ is_row F e0 = true /\
       xs = map write_res es1 ++ Some e :: map (fun x => if is_row F x then Some e else Some err_not_array) es2) /\
    (k_plan k = [] -> xs = map write_res es /\ exists text, table_text (encode_rune comma) (entry_rows es) text /\ out = k_out k ++ text).
  Proof.
    intros wsize comma k es xs x out Hw V H.
    assert (B : bw_ok wsize (mkBw [] None k)) by (split; [reflexivity|cbn [w_buf length]; lia]).
    destruct (session_outcome F fmt_plain fmt_json wsize Hw comma V es _ xs x out B H) as [H1 [_ [[q H2] [H3 H4]]]].
    unfold total in *. cbn [w_dest w_buf] in *. rewrite app_nil_r in *.
    split; [assumption|]. split; [exists (table_out comma (entry_rows es)), q; split; [apply table_out_text; assumption|assumption]|].
    split; [assumption|]. intros G. destruct (H4 G) as [-> ->]. split; [reflexivity|]. eexists. split; [apply table_out_text; assumption|reflexivity].
  Qed.
  (** C25: values of their columns' types come back. *)
  Definition own_row (types : list bytes) (e : entry F) (r : res (entry F)) : Prop :=
    exists vs vs', e_val e = VArr vs /\ r = Ok (mkEntry 0 [] (VArr vs')) /\
      length vs = length types /\ length vs' = length types /\
      (forall i ty v v', nth_error types i = Some ty -> nth_error vs i = Some v -> nth_error vs' i = Some v' -> own_type ty v v') /\
      Forall (fun v => ~ In 13%N (cell_text v)) vs /\ blank_row (map cell_text vs) = false.
  Theorem csv_values_back : strict_format F fmt_json parse_float ->
    forall wsize osize size order schema config w c cols ps es rs xs x out sched,
    (4 <= wsize)%nat -> (0 < osize)%nat -> columns_from_schema order schema = Ok (cols, ps) ->
    new_csv_writer F wsize order schema config good_sink = Ok w -> new_csv_reader F order (bs "csv") schema config = Ok c ->
    valid_delim (wr_comma w) = true -> (csv_header (options config) = true -> blank_row (titles cols) = false) ->
    csv_session wsize w es = (xs, x, out) -> Forall2 (own_row (cf_types c)) es rs ->
    xs = map (fun _ => None) es /\ csv_read_all size osize (S (length es)) c (mkSrc out EOF sched) = rs ++ [Err EOF].
  Proof.
    intros Hfmt wsize osize size order schema config w c cols ps es rs xs x out sched Hw Ho Hcols W R V HT HS Hrs.
    destruct (csv_round_trip _ osize size (S (length es)) _ _ _ _ _ _ _ _ _ _ _ sched Hw Ho Hcols W R V HT HS) as [Hx [rows [H1 H2]]].
    assert (TL : length (cf_types c) = length cols).
    { unfold new_csv_reader in R. rewrite Hcols in R. destruct (first_types F cols) as [types|] eqn:Et; [|discriminate].
      assert (E : cf_types c = types) by (destruct (parse_format_config_map fCSV config) as [[o|m|m]|e| |]; injection R as <-; reflexivity). rewrite E. clear - Et.
      revert types Et. induction cols as [|cl cols IH]; intros types Et; cbn in Et; [injection Et as <-; reflexivity|].
      destruct (c_type cl) as [|t ts]; [discriminate|]. destruct (first_types F cols) as [l|]; [|discriminate]. injection Et as <-. cbn [length]. f_equal. apply IH. reflexivity. }
    assert (X : map write_res es = map (fun _ => None) es /\ length (entry_rows es) = length es /\
      Forall2 (fun fs r => shows (cf_types c) (Row fs) r /\ forall r', shows (cf_types c) (Row fs) r' -> r' = r) (entry_rows es) rs /\
      Forall (Forall (fun f => ~ In 13%N f)) (entry_rows es) /\ Forall (fun fs => blank_row fs = false) (entry_rows es) /\
      Forall (fun fs => length fs = length cols) (entry_rows es)).
    { clear - Hrs Hfmt TL. induction Hrs as [|e r es rs He HR IH]; [cbn; repeat split; constructor|].
      destruct He as [vs [vs' [E1 [E2 [E3 [E4 [E5 [E6 E7]]]]]]]]. destruct IH as [I1 [I2 [I3 [I4 [I5 I6]]]]].
      assert (ER : entry_rows (e :: es) = map cell_text vs :: entry_rows es) by (unfold L_Csv.entry_rows; cbn [flat_map]; rewrite E1; reflexivity).
      assert (RV : row_value (cf_types c) (map cell_text vs) vs').
      { left. rewrite map_length. split; [lia|]. clear - E3 E4 E5 Hfmt. revert E3 E4 E5. generalize (cf_types c). intros types. revert vs vs'. induction types as [|ty types IH]; intros vs vs' E3 E4 E5.
        - destruct vs; [|discriminate]. destruct vs'; [|discriminate]. constructor.
        - destruct vs as [|v vs]; [discriminate|]. destruct vs' as [|v' vs']; [discriminate|]. cbn [map]. constructor.
          + apply csv_own_type; [assumption|]. apply (E5 0%nat ty v v'); reflexivity.
          + cbn [length] in E3, E4. apply IH; [lia|lia|]. intros i ty0 v0 v0' A B C. apply (E5 (S i)); assumption. }
      rewrite ER. split; [cbn [map]; rewrite I1; unfold L_Csv.write_res, is_row; rewrite E1; reflexivity|]. split; [cbn [length]; lia|]. split.
      - constructor; [|assumption]. split; [subst r; constructor; assumption|].
        intros r' Hr. inversion Hr as [fs2 vs2 Hv| | | | |]; subst. f_equal. f_equal. f_equal. apply csv_row in Hv, RV. congruence.
      - split; [constructor; [|assumption]|split; [constructor; assumption|constructor; [rewrite map_length; lia|assumption]]].
        clear - E6. induction E6; constructor; assumption. }
    destruct X as [X1 [X2 [X3 [X4 [X5 X6]]]]]. split; [congruence|].
    destruct (csv_rows_come_back (expected config cols) (entry_rows es) rows X4 X5) as [-> Hc]; [|assumption|].
    { unfold expected. destruct (csv_variadic (options config)); [left; lia|right]. exists (length cols). split; [destruct (csv_header (options config)); auto|assumption]. }
    rewrite Hc in H2. clear - H2 X2 X3.
    replace (firstn (S (length es)) (map Row (entry_rows es) ++ repeat End (S (length es)))) with (map Row (entry_rows es) ++ [End]) in H2.
    2:{ rewrite firstn_app, map_length, X2. replace (S (length es) - length es)%nat with 1%nat by lia. rewrite firstn_all2 by (rewrite map_length; lia). reflexivity. }
    revert H2. generalize (csv_read_all size osize (S (length es)) c (mkSrc out EOF sched)). clear X2. induction X3 as [|fs r rows rs [Ha Hb] HR IH]; intros l H2; cbn [map app] in *.
    - inversion H2 as [|? r0 ? l0 Q1 Q2]; subst. inversion Q2; subst. inversion Q1; subst. reflexivity.
    - inversion H2 as [|? r0 ? l0 Q1 Q2]; subst. f_equal; [apply Hb; assumption|apply IH; assumption].
  Qed.

  (** Columns without a type. *)
  Theorem csv_constructors : forall wsize order format schema config k cols ps, columns_from_schema order schema = Ok (cols, ps) ->
    ((exists cl, In cl cols /\ c_type cl = []) ->
       new_csv_reader F order format schema config = Panic /\ new_csv_writer F wsize order schema config k = Panic) /\
    ((forall cl, In cl cols -> c_type cl <> []) ->
       exists c w, new_csv_reader F order format schema config = Ok c /\ new_csv_writer F wsize order schema config k = Ok w /\
         Forall2 (fun cl t => exists ts, c_type cl = t :: ts) cols (cf_types c)).
  Proof.
    intros wsize order format schema config k cols ps Hcols. unfold new_csv_reader, new_csv_writer. rewrite Hcols.
    assert (X : ((exists cl, In cl cols /\ c_type cl = []) -> first_types F cols = None) /\
      ((forall cl, In cl cols -> c_type cl <> []) -> exists types, first_types F cols = Some types /\ Forall2 (fun cl t => exists ts, c_type cl = t :: ts) cols types)).
    { clear. induction cols as [|cl cols [IH1 IH2]]; [split; [intros [cl [[] _]]|intros _; exists []; split; constructor]|]. cbn [first_types]. split.
      - intros [c0 [[<-|Hin] E]]; [rewrite E; reflexivity|]. rewrite IH1 by eauto. destruct (c_type cl); reflexivity.
      - intros H. destruct (c_type cl) as [|t ts] eqn:E; [exfalso; apply (H cl); [left; reflexivity|assumption]|].
        destruct IH2 as [types [-> H2]]; [intros c0 Hin; apply H; right; assumption|]. exists (t :: types). split; [reflexivity|]. constructor; [exists ts; assumption|assumption]. }
    destruct X as [X1 X2]. split.
    - intros H. rewrite (X1 H). split; reflexivity.
    - intros H. destruct (X2 H) as [types [-> HF]].
      assert (A : forall r : res csv_writer, (exists w, r = Ok w) -> exists w, r = Ok w) by auto.
      destruct (parse_format_config_map fCSV config) as [[o|m|m]|e| |]; destruct (new_csv_options config) as [o2|e2| |]; do 2 eexists; (split; [reflexivity|split; [reflexivity|exact HF]]).
  Qed.
End Csv.
Print Assumptions csv_answers_unique.
Print Assumptions csv_cells.
Print Assumptions csv_row.
Print Assumptions csv_own_type.
Print Assumptions csv_reads.
Print Assumptions csv_unix.
Print Assumptions csv_chunks_free.
Print Assumptions csv_bad_separator.
Print Assumptions csv_bad_separator_writes.
Print Assumptions csv_round_trip.
Print Assumptions csv_rows_come_back.
Print Assumptions csv_close_silent.
Print Assumptions csv_values_back.
Print Assumptions csv_constructors.

(** ** Concrete cases, and claims that do not hold.  The floats are whole numbers and NaN. *)
Local Notation G := (gval (option Z)).
Definition cfmt (f : option Z) : option bytes := match f with Some z => Some (itoa z) | None => None end.
Definition cplain (f : option Z) : bytes := match f with Some z => itoa z | None => bs "NaN" end.
Definition cparse (t : bytes) : option (option Z) := match parse_signed t with Some z => Some (Some z) | None => None end.
Definition col (title ty : string) : G := VMap [(bs "title", VStr (bs title)); (bs "type", VStr (bs ty))].
Definition sch (cols : list G) : list (bytes * G) :=
  [(bs "items", VMap [(bs "items", VArr cols); (bs "type", VStr (bs "array"))]); (bs "type", VStr (bs "array"))].
Definition hdr : option (list (bytes * G)) := Some [(bs "headerRow", VBool true)].
Local Notation ent v := (mkEntry 0 [] v).
(** Write rows to a sink and read n entries of what arrived. *)
Definition there_and_back (cols : list G) (config : option (list (bytes * G))) (k : sink) (rows : list (list G)) (n : nat) :
    option (list (option err) * option err * bytes * list (res (entry (option Z)))) :=
  match new_csv_writer (option Z) 16 (fun m => m) (sch cols) config k, new_csv_reader (option Z) (fun m => m) (bs "csv") (sch cols) config with
  | Ok w, Ok c => let '(xs, x, out) := csv_session (option Z) cplain cfmt 16 w (map (fun vs => ent (VArr vs)) rows) in
                  Some (xs, x, out, csv_read_all (option Z) cparse 3 16 8 n c (mkSrc out EOF [(2%nat, false); (0%nat, true)]))
  | _, _ => None
  end.
Local Notation got vs := (Ok (mkEntry 0 [] (VArr vs))).
Definition text_cols : list G := [col "a" "string"].
Definition back (t : option (list (option err) * option err * bytes * list (res (entry (option Z))))) : list (res (entry (option Z))) :=
  match t with Some (_, _, _, l) => l | None => [] end.
(** C24: a row of text need not come back: CR becomes LF, a row of one empty cell vanishes, a shorter row is refused. *)
Theorem csv_text_back_refuted :
  ~ (forall s, back (there_and_back text_cols None good_sink [[VStr s]] 1) = [got [VStr s]]) /\
  back (there_and_back text_cols None good_sink [[VStr [120; 13; 121]%N]] 2) = [got [VStr [120; 10; 121]%N]; Err EOF] /\
  there_and_back text_cols None good_sink [[VStr []]; [VStr (bs "x")]] 2 = Some ([None; None], None, 10%N :: bs "x" ++ [10%N], [got [VStr (bs "x")]; Err EOF]).
Proof.
  split; [|split; vm_compute; reflexivity]. intros H. specialize (H []). vm_compute in H. discriminate.
Qed.
(** C25: neither nil nor a text in a column of another type need come back, nor a list with NaN. *)
Theorem csv_cell_back_refuted :
  back (there_and_back [col "a" "string"; col "b" "integer"; col "c" "boolean"; col "d" "array"; col "e" "null"] None good_sink
    [[VNil; VNil; VStr (bs "1"); VArr [VFloat None]; VStr (bs "text")]] 2) =
  [got [VStr []; VStr []; VBool true; VStr []; VNil]; Err EOF].
Proof. vm_compute. reflexivity. Qed.
(** C26: when the only column has an empty title, the first row is taken for the header. *)
Theorem csv_header_refuted :
  there_and_back [col "" "string"] hdr good_sink [[VStr (bs "x")]; [VStr (bs "y")]] 2 =
  Some ([None; None], None, 10%N :: bs "x" ++ 10%N :: bs "y" ++ [10%N], [got [VStr (bs "y")]; Err EOF]).
Proof. vm_compute. reflexivity. Qed.
(** C27: every call reports success, nothing arrives. *)
Theorem csv_close_refuted :
  there_and_back text_cols hdr (mkSink [] [Some (0%nat, EMsg "disk full")]) [[VStr (bs "x")]; [VStr (bs "y")]] 2 =
  Some ([None; None], None, [], [Err EOF; Err EOF]).
Proof. vm_compute. reflexivity. Qed.
Print Assumptions csv_text_back_refuted.
Print Assumptions csv_cell_back_refuted.
Print Assumptions csv_header_refuted.
Print Assumptions csv_close_refuted.

Example csv_values_back_ex :
  there_and_back [col "id" "integer"; col "name, first" "string"; col "tags" "array"] hdr good_sink
    [[VInt 3; VStr (bs "O""Hara" ++ [10%N]); VArr [VFloat (Some 7%Z); VStr (bs "q")]]; [VInt (-1); VStr []; VArr []]] 4 =
  Some ([None; None], None,
    bs "id,""name, first"",tags" ++ 10%N :: bs "3,""O""""Hara" ++ 10%N :: bs """,""[7,""""q""""]""" ++ 10%N :: bs "-1,,[]" ++ [10%N],
    [got [VInt 3; VStr (bs "O""Hara" ++ [10%N]); VArr [VFloat (Some 7%Z); VStr (bs "q")]]; got [VInt (-1); VStr []; VArr []]; Err EOF; Err EOF]).
Proof. vm_compute. reflexivity. Qed.
Example csv_own_row_ex : own_row (option Z) cparse cplain cfmt 3 [bs "integer"; bs "string"; bs "array"]
  (ent (VArr [VInt 3; VStr (bs "a,b"); VArr [VInt 7]])) (got [VInt 3; VStr (bs "a,b"); VArr [VFloat (Some 7%Z)]]).
Proof.
  do 2 eexists. split; [reflexivity|]. split; [reflexivity|]. split; [reflexivity|]. split; [reflexivity|]. split; [|split; [|reflexivity]].
  - intros [|[|[|i]]] ty v v'; cbn [nth_error]; intros A B C; try (destruct i; discriminate); injection A as <-; injection B as <-; injection C as <-.
    + constructor. unfold int64. lia.
    + constructor. vm_compute. intuition discriminate.
    + constructor; [repeat constructor| |].
      * repeat constructor.
      * intros H. inversion H; subst; cbn [In] in *; intuition subst; repeat match goal with X : Exists _ _ |- _ => inversion X; clear X; subst | X : refused _ _ (VInt _) |- _ => inversion X end.
  - repeat constructor; vm_compute; intuition discriminate.
Qed.
Example csv_reads_ex :
  csv_read_all (option Z) cparse 3 16 8 6 (mkConf [bs "integer"; bs "boolean"] false 59%N 0 true) (mkSrc (bs "a;b" ++ [13; 10; 13; 10]%N ++ bs "1;T" ++ 10%N :: bs "2;x;y" ++ 10%N :: bs "3" ++ 34%N :: bs ";" ++ 10%N :: bs "4;") EOF [(1%nat, true)]) =
  [got [VInt 1; VBool true]; Err (EMsg "record: wrong number of fields"); Err (EMsg "parse error: bare quote in non-quoted-field"); got [VInt 4; VStr []]; Err EOF; Err EOF].
Proof. vm_compute. reflexivity. Qed.
Example csv_bad_separator_ex : there_and_back text_cols (Some [(bs "separator", VStr (bs """"))]) good_sink [[VStr (bs "x")]] 2 =
  Some ([Some err_delim], None, [], [Err err_delim; Err err_delim]).
Proof. vm_compute. reflexivity. Qed.
(** The sink takes three bytes of the second piece: what arrived is a prefix, later calls report the error. *)
Example csv_close_silent_ex : let rows := map (fun s => [VStr (bs s)]) ["abcdefgh"; "ijklmnop"; "qrstuvwx"; "y"]%string in
  match there_and_back text_cols None (mkSink [] [Some (3%nat, EMsg "full")]) rows 0 with
  | Some (xs, x, out, _) => xs = [None; Some (EMsg "full"); Some (EMsg "full"); Some (EMsg "full")] /\ x = None /\ out = bs "abc"
  | None => False
  end.
Proof. vm_compute. repeat split. Qed.
Example csv_constructors_ex : new_csv_reader (option Z) (fun m => m) (bs "csv") (sch [VMap [(bs "title", VStr (bs "a")); (bs "type", VArr [])]]) None = Panic.
Proof. vm_compute. reflexivity. Qed.
