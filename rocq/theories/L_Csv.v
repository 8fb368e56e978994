(** The CSV reader and writer of the repository over the records of encoding/csv. *)
From Coq Require Import ZArith Lia.
From Verif Require Import Base M_Bufio M_Utf8 M_Sink M_Formats M_Tabular M_Vals M_Decimal M_JsonWrite M_Unmarshal M_CsvText M_Csv
  S_ReplaceCR S_Csv S_Vals S_NDJson L_Bufio L_ReplaceCR L_CsvText L_CsvSpec L_CsvIn L_CsvOut L_CsvBack L_Vals L_UnmarshalInv.

Lemma valid_comma_cr : forall c, valid_delim c = true -> ~ In 13%N (encode_rune c).
Proof.
  intros c H. unfold valid_delim in H. rewrite !andb_true_iff, !negb_true_iff, !N.eqb_neq, N.leb_le in H.
  destruct H as [[[[[[H0 Hq] Hcr] Hlf] _] Hmax] _]. unfold encode_rune.
  destruct (N.ltb_spec c 128); [|destruct (N.ltb_spec c 2048); [|destruct (N.ltb_spec c 65536)]].
  - intros [X|[]]; congruence.
  - intros X; repeat destruct X as [X|X]; try lia; contradiction.
  - intros X; repeat destruct X as [X|X]; try lia; contradiction.
  - intros X; repeat destruct X as [X|X]; try lia; contradiction.
Qed.

Section Csv.
  Variable F : Type.
  Variable parse_float : bytes -> option F.
  Variable fmt_plain : F -> bytes.
  Variable fmt_json : F -> option bytes.
  Variable depth : nat.
  Notation decode := (decode F parse_float depth).
  Notation csv_calls := (csv_calls F parse_float depth).
  Notation csv_read_all := (csv_read_all F parse_float depth).

  Definition row_res (types : list bytes) (x : res (list bytes)) : res (entry F) :=
    match x with
    | Ok row => Ok (mkEntry 0 [] (VArr (decode types row)))
    | Err e => Err e
    | Panic => Panic
    | OutOfFuel => OutOfFuel
    end.
  Fixpoint after_ok (l : list (res (list bytes))) : list (res (list bytes)) :=
    match l with
    | [] => []
    | Ok _ :: r => r
    | x :: r => x :: after_ok r
    end.
  Section Fixed.
    Variable osize : nat.
    Variable c : csv_conf.
    Notation reads := (in_reads osize (cf_lazy c) false (cf_comma c)).
    Lemma data_res : forall r, csv_data F parse_float depth osize c r =
      (row_res (cf_types c) (fst (in_read osize (cf_lazy c) false (cf_comma c) r)), mkRd true (snd (in_read osize (cf_lazy c) false (cf_comma c) r))).
    Proof. intros r. unfold csv_data, read_row. destruct (in_read osize (cf_lazy c) false (cf_comma c) r) as [[row|e| |] r']; reflexivity. Qed.
    Lemma reads_S : forall n r, fst (reads (S n) r) =
      fst (in_read osize (cf_lazy c) false (cf_comma c) r) :: fst (reads n (snd (in_read osize (cf_lazy c) false (cf_comma c) r))).
    Proof.
      intros n r. cbn [in_reads]. destruct (in_read osize (cf_lazy c) false (cf_comma c) r) as [x r']. cbn [fst snd].
      destruct (reads n r') as [xs r2]. reflexivity.
    Qed.
    Lemma reads_length : forall n r, length (fst (reads n r)) = n.
    Proof. induction n as [|n IH]; intros r; [reflexivity|]. rewrite reads_S. cbn [length]. rewrite IH. reflexivity. Qed.
    Lemma calls_data : forall n b r, b = true \/ cf_header c = false -> csv_calls osize n c (mkRd b r) = map (row_res (cf_types c)) (fst (reads n r)).
    Proof.
      induction n as [|n IH]; intros b r Hb; [reflexivity|]. rewrite reads_S. cbn [M_Csv.csv_calls map]. unfold csv_read_entry. cbn [rd_header rd_csv].
      assert (E : (if b then csv_data F parse_float depth osize c r else if cf_header c then
        match read_row osize c r with (Ok _, r') => csv_data F parse_float depth osize c r' | (Err e, r') => (Err e, mkRd false r')
          | (Panic, r') => (Panic, mkRd false r') | (OutOfFuel, r') => (OutOfFuel, mkRd false r') end
        else csv_data F parse_float depth osize c r) = csv_data F parse_float depth osize c r).
      { destruct Hb as [-> | ->]; [reflexivity|]. destruct b; reflexivity. }
      rewrite E, data_res. rewrite IH by auto. reflexivity.
    Qed.
    Lemma calls_header : cf_header c = true -> forall n r, csv_calls osize n c (mkRd false r) =
      firstn n (map (row_res (cf_types c)) (after_ok (fst (reads (S n) r)))).
    Proof.
      intros Hh. induction n as [|n IH]; intros r; [reflexivity|].
      rewrite reads_S. cbn [M_Csv.csv_calls]. unfold csv_read_entry. cbn [rd_header rd_csv]. rewrite Hh. unfold read_row.
      destruct (in_read osize (cf_lazy c) false (cf_comma c) r) as [x r']. cbn [fst snd].
      destruct x as [row|e| |]; cbn [after_ok].
      - rewrite reads_S, data_res. cbn [map firstn]. f_equal. rewrite calls_data by auto.
        symmetry. apply firstn_all2. rewrite map_length, reads_length. lia.
      - rewrite IH. reflexivity.
      - rewrite IH. reflexivity.
      - rewrite IH. reflexivity.
    Qed.
    Lemma after_ok_answers : forall l, after_ok (map answer_res l) = map answer_res (after_header l).
    Proof. induction l as [|a l IH]; [reflexivity|]. destruct a; cbn [map answer_res after_ok after_header]; congruence. Qed.
  End Fixed.

  Definition skipped (hdr : bool) (l : list answer) : list answer := if hdr then after_header l else l.
  (** What n calls of ReadEntry return. *)
  Theorem read_all_answers : forall size osize n c s, (0 < osize)%nat -> valid_delim (cf_comma c) = true ->
    exists t l, tidy (s_fin s) (s_rem s) t /\ answers (cf_lazy c) false (encode_rune (cf_comma c)) (s_fin s) (cf_width c) t l /\ length l = S n /\
      csv_read_all size osize n c s = firstn n (map (fun a => row_res (cf_types c) (answer_res a)) (skipped (cf_header c) l)).
  Proof.
    intros size osize n c s Ho Hc. destruct (start_ok osize size s) as [S1 S2].
    destruct (in_reads_answers osize (s_fin s) Ho (cf_lazy c) false (cf_comma c) (S n) (mkCr (cf_width c) (mkIn [] None (new_bufr size s))) Hc S1) as [_ [T [l [H1 [H2 H3]]]]].
    cbn [r_st r_width] in *. exists (clean (s_fin s) T), l. split; [apply inserts_tidy, S2; assumption|]. split; [assumption|].
    assert (HL : length l = S n) by (rewrite <- (reads_length osize c (S n) (mkCr (cf_width c) (mkIn [] None (new_bufr size s)))), H3, map_length; reflexivity).
    split; [assumption|]. unfold M_Csv.csv_read_all, csv_start.
    destruct (cf_header c) eqn:Hh; cbn [skipped].
    - rewrite (calls_header osize c Hh), H3, after_ok_answers, map_map. reflexivity.
    - rewrite (calls_data osize c) by auto.
      assert (P : forall m r, fst (in_reads osize (cf_lazy c) false (cf_comma c) m r) = firstn m (fst (in_reads osize (cf_lazy c) false (cf_comma c) (S m) r))).
      { induction m as [|m IHm]; intros r; [reflexivity|]. rewrite (reads_S osize c m r), (reads_S osize c (S m) r). cbn [firstn]. f_equal. apply IHm. }
      rewrite P, H3, <- firstn_map, map_map. reflexivity.
  Qed.
  (** Chunks do not matter. *)
  Lemma reads_same : forall osize fin lazy trim comma, (0 < osize)%nat -> forall n w a b, same_in osize fin a b ->
    fst (in_reads osize lazy trim comma n (mkCr w a)) = fst (in_reads osize lazy trim comma n (mkCr w b)).
  Proof.
    intros osize fin lazy trim comma Ho. induction n as [|n IH]; intros w a b H; [reflexivity|]. cbn [in_reads].
    destruct (same_read osize fin Ho lazy trim comma w a b H) as [x [w' [a' [b' [E1 [E2 E3]]]]]]. rewrite E1, E2. specialize (IH w' a' b' E3).
    destruct (in_reads osize lazy trim comma n (mkCr w' a')), (in_reads osize lazy trim comma n (mkCr w' b')). cbn [fst] in *. congruence.
  Qed.
  Theorem read_all_same : forall size1 size2 osize n c s1 s2, (0 < osize)%nat -> s_rem s1 = s_rem s2 -> s_fin s1 = s_fin s2 ->
    csv_read_all size1 osize n c s1 = csv_read_all size2 osize n c s2.
  Proof.
    intros size1 size2 osize n c s1 s2 Ho E1 E2. unfold M_Csv.csv_read_all, csv_start.
    assert (H : same_in osize (s_fin s1) (mkIn [] None (new_bufr size1 s1)) (mkIn [] None (new_bufr size2 s2))).
    { split; [apply start_ok|]. split; [rewrite E2; apply start_ok|]. split; [reflexivity|]. split; [reflexivity|]. cbn [i_inner].
      destruct (new_bufr_ok size1 s1) as [_ P1]. destruct (new_bufr_ok size2 s2) as [_ P2]. congruence. }
    destruct (cf_header c) eqn:Hh.
    - rewrite !(calls_header osize c Hh). rewrite (reads_same osize (s_fin s1) _ _ _ Ho _ _ _ _ H). reflexivity.
    - rewrite !(calls_data osize c) by auto. rewrite (reads_same osize (s_fin s1) _ _ _ Ho _ _ _ _ H). reflexivity.
  Qed.

  (** Reading a table. *)
  Lemma after_header_app : forall rows w k, (w <= 0)%Z -> after_header (counted w rows ++ repeat End k) =
    match counted w rows with [] => repeat End k | _ :: r => r ++ repeat End k end.
  Proof.
    intros rows w k Hw. assert (Z : (w <=? 0)%Z = true) by (apply Z.leb_le; assumption). induction rows as [|fs rows IH].
    - cbn [counted app]. induction k as [|k IHk]; [reflexivity|]. cbn [repeat after_header]. congruence.
    - cbn [counted]. destruct (blank_row fs); [assumption|]. rewrite Z. reflexivity.
  Qed.
  Definition table_results (c : csv_conf) (rows : list (list bytes)) (n : nat) : list (res (entry F)) :=
    firstn n (map (fun a => row_res (cf_types c) (answer_res a))
      (if cf_header c then tl (counted (cf_width c) rows) else counted (cf_width c) rows) ++ repeat (Err EOF) n).
  Lemma pad : forall c n r, firstn n (map (fun a => row_res (cf_types c) (answer_res a)) (r ++ repeat End (S n))) =
    firstn n (map (fun a => row_res (cf_types c) (answer_res a)) r ++ repeat (Err EOF) n).
  Proof.
    intros c n r. rewrite map_app. set (x := map (fun a => row_res (cf_types c) (answer_res a)) r).
    assert (E : map (fun a => row_res (cf_types c) (answer_res a)) (repeat End (S n)) = repeat (Err EOF) n ++ [Err EOF]).
    { clear x. induction n as [|n IH]; [reflexivity|]. cbn [repeat map app] in *. f_equal. exact IH. }
    rewrite E, app_assoc, firstn_app. replace (n - length (x ++ repeat (Err EOF) n))%nat with 0%nat by (rewrite app_length, repeat_length; lia).
    cbn [firstn]. apply app_nil_r.
  Qed.
  Theorem read_table : forall size osize n c s rows, (0 < osize)%nat -> valid_delim (cf_comma c) = true -> (cf_width c <= 0)%Z ->
    table_text (encode_rune (cf_comma c)) rows (s_rem s) -> s_fin s = EOF ->
    exists rows', Forall2 (Forall2 endings) rows rows' /\ csv_read_all size osize n c s = table_results c rows' n.
  Proof.
    intros size osize n c s rows Ho Hc Hw HT Hf. destruct (read_all_answers size osize n c s Ho Hc) as [t [l [H1 [H2 [H3 H4]]]]].
    destruct (valid_comma _ Hc) as [C1 [C2 [C3 [h [ct [C4 C5]]]]]]. pose proof (valid_comma_cr _ Hc) as C6. rewrite C4 in *. rewrite Hf in *.
    destruct (tidy_table h ct C6 EOF rows _ HT _ H1) as [rows' [R1 R2]]. exists rows'. split; [assumption|].
    assert (El : l = firstn (S n) (counted (cf_width c) rows' ++ repeat End (S n))).
    { eapply (answers_fun (cf_lazy c) false h ct EOF C5 C2 C3); [exact H2| |].
      - apply answers_firstn. apply table_answers; assumption.
      - rewrite H3, firstn_length, app_length, repeat_length. lia. }
    rewrite H4. unfold table_results, skipped. destruct (cf_header c).
    - assert (A : forall m x, firstn m (after_header (firstn (S m) x)) = firstn m (after_header x)).
      { induction m as [|m IHm]; intros x; [reflexivity|]. destruct x as [|a x]; [reflexivity|]. destruct a; cbn [firstn after_header].
        - change (firstn (S m) (firstn (S m) x) = firstn (S m) x). rewrite firstn_firstn, Nat.min_id. reflexivity.
        - f_equal. apply (IHm x).
        - f_equal. apply (IHm x).
        - f_equal. apply (IHm x). }
      rewrite firstn_map, El, A, after_header_app, <- firstn_map by assumption.
      destruct (counted (cf_width c) rows') as [|a r]; cbn [tl]; [apply (pad c n [])|apply pad].
    - rewrite El, firstn_map, firstn_firstn, <- firstn_map. replace (Nat.min n (S n)) with n by lia. apply pad.
  Qed.

  (** Writing. *)
  Notation cell_text := (cell_text F fmt_plain fmt_json).
  Notation csv_write_entry := (csv_write_entry F fmt_plain fmt_json).
  Notation csv_write_entries := (csv_write_entries F fmt_plain fmt_json).
  Notation csv_session := (csv_session F fmt_plain fmt_json).
  Lemma cell_out_written : forall comma f, valid_delim comma = true -> written (encode_rune comma) f (cell_out comma f).
  Proof.
    intros comma f Hc. destruct (valid_comma _ Hc) as [C1 _]. unfold cell_out. destruct (needs_quotes comma f) eqn:E.
    - constructor. intros ->. discriminate.
    - destruct f as [|c f].
      + apply w_plain; [intros []|intros []|intros []|]. intros [a [b X]]. destruct a; [|discriminate]. cbn [app] in X. destruct (encode_rune comma); [congruence|discriminate].
      + unfold needs_quotes in E. rewrite !orb_false_iff in E. destruct E as [[[_ E1] E2] _].
        assert (Sp : forall x, In x (c :: f) -> special x = false).
        { intros x Hx. destruct (special x) eqn:X; [|reflexivity]. assert (Y : existsb special (c :: f) = true) by (apply existsb_exists; eauto). congruence. }
        apply w_plain.
        * intros X. apply Sp in X. discriminate.
        * intros X. apply Sp in X. discriminate.
        * intros X. apply Sp in X. discriminate.
        * intros X. destruct (index_sub (encode_rune comma) (c :: f)) eqn:I; [discriminate|]. exact (index_sub_none _ _ I X).
  Qed.
  Lemma cells_out_line : forall comma fs, valid_delim comma = true -> line_text (encode_rune comma) fs (cells_out comma fs).
  Proof.
    intros comma fs Hc. induction fs as [|f r IH]; [constructor|]. destruct r as [|g r].
    - constructor. apply cell_out_written. assumption.
    - change (cells_out comma (f :: g :: r)) with (cell_out comma f ++ encode_rune comma ++ cells_out comma (g :: r)).
      constructor; [discriminate|apply cell_out_written; assumption|assumption].
  Qed.
  Definition table_out (comma : N) (rows : list (list bytes)) : bytes := flat_map (line_out comma) rows.
  Lemma table_out_text : forall comma rows, valid_delim comma = true -> table_text (encode_rune comma) rows (table_out comma rows).
  Proof.
    intros comma rows Hc. induction rows as [|fs rows IH]; [constructor|]. unfold table_out. cbn [flat_map]. fold (table_out comma rows).
    unfold line_out. rewrite <- app_assoc. cbn [app]. constructor; [apply cells_out_line; assumption|assumption].
  Qed.
  (** The rows among the entries. *)
  Fixpoint entry_rows (es : list (entry F)) : list (list bytes) :=
    match es with
    | [] => []
    | e :: r => match e_val e with VArr vs => map cell_text vs :: entry_rows r | _ => entry_rows r end
    end.
  Definition is_row (e : entry F) : bool := match e_val e with VArr _ => true | _ => false end.
  Definition write_res (e : entry F) : option err := if is_row e then None else Some err_not_array.
  Section Sink.
    Variable wsize : nat.
    Hypothesis big : (4 <= wsize)%nat.
    Variable comma : N.
    Hypothesis Hc : valid_delim comma = true.
    Lemma entries_stuck : forall es b e, w_sticky b = Some e -> csv_write_entries wsize (mkWr comma b) es =
      (map (fun x => if is_row x then Some e else Some err_not_array) es, mkWr comma b).
    Proof.
      induction es as [|x es IH]; intros b e H; [reflexivity|]. cbn [M_Csv.csv_write_entries map]. unfold M_Csv.csv_write_entry, is_row. cbn [wr_comma wr_out].
      destruct (e_val x); try (rewrite (IH b e H); reflexivity).
      rewrite (write_stuck wsize comma (map cell_text l) Hc b e H), (IH b e H). reflexivity.
    Qed.
    Definition outcome (b : bufw) (es : list (entry F)) (xs : list (option err)) (b' : bufw) : Prop :=
      (xs = map write_res es /\ bw_ok wsize b' /\ total b' = total b ++ table_out comma (entry_rows es)) \/
      (exists es1 e0 es2 e, es = es1 ++ e0 :: es2 /\ is_row e0 = true /\ xs = map write_res es1 ++ Some e :: map (fun x => if is_row x then Some e else Some err_not_array) es2 /\
        w_sticky b' = Some e /\ prefix_of (k_out (w_dest b')) (total b ++ table_out comma (entry_rows es)) /\ ~ good b).
    Lemma entry_rows_app : forall a b, entry_rows (a ++ b) = entry_rows a ++ entry_rows b.
    Proof. induction a as [|x a IH]; intros b; [reflexivity|]. cbn [app entry_rows]. rewrite IH. destruct (e_val x); reflexivity. Qed.
    Lemma entries_outcome : forall es b, bw_ok wsize b -> exists xs b', csv_write_entries wsize (mkWr comma b) es = (xs, mkWr comma b') /\
      outcome b es xs b' /\ (good b -> good b').
    Proof.
      induction es as [|x es IH]; intros b Hb.
      - exists [], b. split; [reflexivity|]. split; [|auto]. left. split; [reflexivity|]. split; [assumption|]. cbn. rewrite app_nil_r. reflexivity.
      - cbn [M_Csv.csv_write_entries]. unfold M_Csv.csv_write_entry. cbn [wr_comma wr_out]. destruct (e_val x) as [ | | | | | |vs| ] eqn:Ev;
        try (assert (W : write_res x = Some err_not_array) by (unfold write_res, is_row; rewrite Ev; reflexivity); destruct (IH b Hb) as [xs [b' [E [O G]]]]; exists (Some err_not_array :: xs), b'; rewrite E; split; [reflexivity|]; split; [|assumption];
             destruct O as [[-> [O2 O3]]|[es1 [e0 [es2 [e [-> [O2 [-> [O4 [O5 O6]]]]]]]]]];
             [left; split; [cbn [map]; rewrite W; reflexivity|]; split; [assumption|]; cbn [entry_rows]; rewrite Ev; assumption
             |right; exists (x :: es1), e0, es2, e; split; [reflexivity|]; split; [assumption|]; split; [cbn [map app]; rewrite W; reflexivity|];
              split; [assumption|]; split; [cbn [entry_rows]; rewrite Ev; assumption|assumption]]).
        assert (W : write_res x = None) by (unfold write_res, is_row; rewrite Ev; reflexivity).
        destruct (write_op wsize big comma (map cell_text vs) Hc b Hb) as [A G1].
        pose proof (write_stuck wsize comma (map cell_text vs) Hc) as ST.
        destruct (csv_write wsize comma b (map cell_text vs)) as [r b1]. cbn [fst snd] in *.
        assert (TR : table_out comma (entry_rows (x :: es)) = line_out comma (map cell_text vs) ++ table_out comma (entry_rows es)).
        { cbn [entry_rows]. rewrite Ev. reflexivity. }
        destruct A as [[A1 [A2 [A3 A4]]]|[e [A1 [A2 [A3 A4]]]]]; cbn [fst snd] in *; subst r.
        + destruct (IH b1 A2) as [xs [b' [E [O G]]]]. exists (None :: xs), b'. rewrite E. split; [reflexivity|]. split; [|auto].
          destruct O as [[-> [O2 O3]]|[es1 [e0 [es2 [e [-> [O2 [-> [O4 [O5 O6]]]]]]]]]].
          * left. split; [cbn [map]; rewrite W; reflexivity|]. split; [assumption|]. rewrite TR, O3, A3, <- app_assoc. reflexivity.
          * right. exists (x :: es1), e0, es2, e. split; [reflexivity|]. split; [assumption|]. split; [cbn [map app]; rewrite W; reflexivity|].
            split; [assumption|]. split; [|intros X; apply O6, G1, X]. cbn [app]. rewrite TR, app_assoc, <- A3. assumption.
        + rewrite (entries_stuck es b1 e A2). eexists _, b1. split; [reflexivity|]. split; [|assumption]. right. exists [], x, es, e.
          split; [reflexivity|]. split; [unfold is_row; rewrite Ev; reflexivity|]. split; [reflexivity|]. split; [assumption|]. split; [|assumption].
          rewrite TR, app_assoc. apply prefix_app. assumption.
    Qed.
    Lemma session_outcome : forall es b xs x out, bw_ok wsize b -> csv_session wsize (mkWr comma b) es = (xs, x, out) ->
      x = None /\ length xs = length es /\ prefix_of out (total b ++ table_out comma (entry_rows es)) /\
      (xs = map write_res es \/ exists es1 e0 es2 e, es = es1 ++ e0 :: es2 /\ is_row e0 = true /\
         xs = map write_res es1 ++ Some e :: map (fun x => if is_row x then Some e else Some err_not_array) es2) /\
      (good b -> xs = map write_res es /\ out = total b ++ table_out comma (entry_rows es)).
    Proof.
      intros es b xs x out Hb H. unfold M_Csv.csv_session in H. destruct (entries_outcome es b Hb) as [xs' [b' [E [O G]]]]. rewrite E in H.
      unfold csv_close in H. cbn [wr_out wr_comma] in H. injection H as <- <- <-. split; [reflexivity|].
      destruct O as [[-> [O2 O3]]|[es1 [e0 [es2 [e [-> [O2 [-> [O4 [O5 O6]]]]]]]]]].
      - split; [apply map_length|]. destruct (flush_op wsize big b' O2) as [A G1]. pose proof (flush_empty wsize b' O2) as FE.
        destruct (bw_flush b') as [r b2]. cbn [fst snd] in *. destruct A as [[A1 [A2 [A3 A4]]]|[e [A1 [A2 [A3 A4]]]]]; cbn [fst snd] in *; subst r.
        + cbn [fst snd wr_out w_dest] in *. specialize (FE eq_refl). unfold total in A3 at 1. rewrite FE, !app_nil_r in A3.
          split; [exists []; rewrite app_nil_r, <- O3; symmetry; assumption|]. split; [auto|]. intros _. split; [reflexivity|]. rewrite A3. assumption.
        + cbn [fst snd wr_out w_dest] in *. rewrite app_nil_r, O3 in A3. split; [assumption|]. split; [auto|]. intros X. exfalso. apply A4. apply G. assumption.
      - split; [rewrite !app_length; cbn [length]; rewrite !map_length; reflexivity|]. rewrite (flush_stuck b' e O4). cbn [snd wr_out].
        split; [assumption|]. split; [right; exists es1, e0, es2, e; auto|]. intros X. contradiction.
    Qed.
  End Sink.
End Csv.
