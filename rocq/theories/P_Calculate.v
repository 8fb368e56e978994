(** C79: the statistics of a body are about its entries, whatever its format. *)
From Coq Require Import ZArith Lia.
From Verif Require Import Base M_Decimal M_Bufio L_Bufio M_Utf8 M_Float M_Sink M_Json M_JsonWrite S_JsonText S_JsonBack L_JsonRead L_JsonDoc P_Json M_Cbor S_Cbor L_Cbor P_Cbor
  M_Columns M_Tabular M_CsvText M_Csv S_Csv S_CsvCells S_NDJson L_NDJson M_NDJson P_NDJson M_Xlsx S_Xlsx M_Formats M_Stream S_Stream L_Stream M_Convert S_Convert S_ConvertCsv L_CsvBack L_Convert L_ConvertCsv P_Convert
  M_Stats S_Stats L_Stats P_Stats M_Calculate S_Calculate L_Calculate.
From Verif Require P_Csv L_UnmarshalInv L_Xlsx P_Xlsx.

Section Calculate.
  Variable parse_float : bytes -> option N.
  Variable depth : nat.
  Variable surrogate : bytes.
  Variable load : bytes -> res book.
  Variable sheet_key : bytes -> bytes.
  Variable order : jmap -> jmap.
  Variables size osize dsize : nat.
  Variable unpack : bytes -> src -> res src.
  Variable estimate : list bytes -> Z.
  Variable top_keys : list bytes -> list (bytes * Z).
  Variable float : N -> f64.
  Hypothesis opos : (0 < osize)%nat.
  Notation open := (new_entry_reader load sheet_key order size dsize unpack).
  Notation rstep := (read_step parse_float depth surrogate osize).
  Notation estep := (entry_step parse_float depth surrogate osize float).
  Notation as_val := (as_val float).
  Notation calc := (calculate_dataset parse_float depth surrogate load sheet_key order size osize dsize unpack estimate top_keys float).
  Notation holds := (holds parse_float depth order unpack load sheet_key).
  Notation broken := (broken parse_float depth order unpack).
  Notation whole := (whole unpack).
  Notation report := (report estimate top_keys sketched).

  (** ** What the readers yield *)
  Lemma whole_content : forall comp s data, whole comp s data -> content unpack comp s data.
  Proof. intros comp s data [[-> [H _]]|[f [s' [H1 [H2 [H3 _]]]]]]; [left; auto|right; eauto 6]. Qed.
  Lemma whole_open : forall comp s data, whole comp s data -> exists s', wrap_decompressor unpack comp s = Ok s' /\ s_rem s' = data /\ s_fin s' = EOF.
  Proof.
    intros comp s data [[-> H]|[f [s' [Hp [Hu Hr]]]]]; [exists s; auto|]. exists s'. split; [|assumption].
    destruct comp; [discriminate|]. cbn [wrap_decompressor]. rewrite Hp. assumption.
  Qed.
  Lemma cbor_source_end : forall (P : err -> Prop) sh tlt s doc es fuel, typed sh fCBOR tlt -> tlt = bs "array" \/ tlt = bs "object" ->
    whole (sh_compression sh) s doc -> (2 * length doc < fuel)%nat ->
    (forall sched, exists e, cbor_read_all (is_object tlt) (mkSrc doc EOF sched) = (es, Err e) /\ P e) ->
    exists r r' e, open sh s = Ok r /\ yields (rstep fuel) r es e r' /\ P e.
  Proof.
    intros P sh tlt s doc es fuel Ht Ho Hc Hfu Hr. destruct (typed_top _ _ _ Ht Ho) as [Hf [[m Hm] Hg]]. destruct (whole_open _ _ _ Hc) as [[rem fin sched] [Hw [Hs He]]].
    cbn [s_rem s_fin] in Hs, He. subst rem fin. destruct (Hr sched) as [e1 [Hn HP]].
    rewrite (cbor_read_fuel_irrelevant (is_object tlt) _ (S (length doc)) fuel) in Hn by (cbn [s_rem]; lia).
    destruct (run_buf (M_Cbor.plain tt (cbor_read_loop (S (length doc)) fuel (is_object tlt) cbor_start)) (new_bufr cbor_buf_size (mkSrc doc EOF sched))) as [[es1 x] b'] eqn:E.
    cbn [fst] in Hn. injection Hn as <- ->. apply (cbor_yields parse_float depth surrogate osize) in E. destruct E as [r' Hy].
    eexists _, r', e1. split; [|split; [exact Hy|exact HP]]. unfold new_entry_reader. rewrite Hf. cbn [Z.eqb Pos.eqb fCBOR].
    unfold open_cbor. rewrite Hm. cbn [rthen]. rewrite Hw. cbn [rthen]. rewrite Hg. reflexivity.
  Qed.
  Lemma cbor_array_end : forall vs sched, Forall wf_value vs -> (N.of_nat (length vs) < 2 ^ 44)%N ->
    exists e, cbor_read_all false (mkSrc (cbor_encode (VArr vs)) EOF sched) = (array_entries 0 (S_Cbor.longest readable vs), Err e) /\
      if forallb readable vs then e = EOF else is_eof_text e <> true.
  Proof.
    intros vs sched HW HL. pose proof (cbor_round_trip_array (array_entries 0 vs) EOF sched) as T.
    destruct (cbor_writer_array (array_entries 0 vs)) as [_ E0]. rewrite E0, array_vals in T. cbv zeta in T.
    destruct (cbor_read_all false _) as [got o]. destruct T as [-> T].
    - apply (proj1 (Forall_map e_val wf_value _)). rewrite array_vals. assumption.
    - rewrite <- (map_length e_val), array_vals. assumption.
    - destruct (forallb readable vs); [exists EOF; rewrite T; auto|]. destruct T as [x [-> Hx]]. exists x. auto.
  Qed.
  Lemma lines_yield : forall sh s lines more vs fuel, typed sh fNDJSON (bs "array") -> whole (sh_compression sh) s (stream (lines ++ more) []) ->
    Forall line (lines ++ more) -> Forall2 (fun v l => sline N parse_float depth v (l ++ [10%N])) vs lines ->
    (more = [] \/ exists l ls, more = l :: ls /\ forall v, ~ sline N parse_float depth v (l ++ [10%N])) ->
    exists r r' e, open sh s = Ok r /\ yields (rstep fuel) r (array_entries 0 vs) e r' /\ (if more then e = EOF else is_eof_text e <> true).
  Proof.
    intros sh s lines more vs fuel Hi Hc Hl Hv Hm. destruct (typed_top _ _ _ Hi (or_introl eq_refl)) as [Hff [[m Hq] Hg]]. destruct (whole_open _ _ _ Hc) as [s0 [Hw0 [Hs0 Hfin]]].
    assert (SRC : exists e r', yields (rstep fuel) (RNd (mkNd 0 (new_bufr dsize s0))) (array_entries 0 vs) e r' /\ (if more then e = EOF else is_eof_text e <> true)).
    { destruct (ndjson_lines N parse_float depth dsize s0 (lines ++ more) [] 1 Hl ltac:(intros []) Hs0) as [os [Hos HR]].
      assert (SPL : forall vs lines, Forall2 (fun v l => sline N parse_float depth v (l ++ [10%N])) vs lines -> forall n os, outcomes N parse_float depth n (lines ++ more) os ->
        exists os2, os = map (fun x => Ok x) (array_entries (Z.of_nat n) vs) ++ os2 /\ exists n2, outcomes N parse_float depth n2 more os2).
      { induction 1 as [|v l vs0 ls0 Hvl Hrest IH]; intros n os0 H0; cbn [app] in H0.
        - exists os0. split; [reflexivity|]. exists n. assumption.
        - inversion H0 as [|n0 l0 ls1 v1 os1 HS HO|n0 l0 ls1 e1 os1 HS HE HO]; subst; [|exfalso; eapply HS; eassumption].
          destruct (IH (S n) os1 HO) as [os2 [-> Hn2]]. exists os2. split; [|assumption]. cbn [array_entries map app].
          rewrite (L_UnmarshalInv.sline_fun N parse_float _ _ _ _ Hvl HS). replace (Z.of_nat (S n)) with (Z.of_nat n + 1)%Z by lia. reflexivity. }
      destruct (SPL vs lines Hv 0%nat os Hos) as [os2 [-> [n2 Hn2]]]. clear SPL. unfold nd_read in HR.
      assert (Hlen : length os2 = length more) by (clear -Hn2; induction Hn2; cbn; congruence).
      assert (Hvl : length vs = length lines) by (clear -Hv; induction Hv; cbn; congruence).
      assert (Hal : length (array_entries 0 vs) = length vs) by (rewrite <- (map_length e_val), array_vals; reflexivity).
      rewrite Hfin in HR. destruct Hm as [->|[l [ls [-> Hbad]]]].
      - destruct os2; [|discriminate]. exists EOF. destruct (nd_yields parse_float depth surrogate osize fuel (array_entries 0 vs) EOF [] (mkNd 0 (new_bufr dsize s0))) as [r' Hy].
        + rewrite app_nil_r in HR. cbn [length repeat] in *. rewrite app_nil_r in HR. change (Z.of_nat 0) with 0%Z in HR. rewrite <- HR. f_equal. lia.
        + exists r'. auto.
      - inversion Hn2 as [|n0 l0 ls1 v1 os1 HS HO|n0 l0 ls1 e1 os1 HS HE HO]; subst; [exfalso; eapply Hbad; eassumption|].
        exists e1. destruct (nd_yields parse_float depth surrogate osize fuel (array_entries 0 vs) e1 (os1 ++ [Err EOF]) (mkNd 0 (new_bufr dsize s0))) as [r' Hy].
        + change (Z.of_nat 0) with 0%Z in HR. cbn [repeat] in HR. rewrite <- app_assoc in HR. cbn [app] in HR. rewrite <- HR. f_equal. rewrite !app_length in *. cbn [length] in *. lia.
        + exists r'. auto. }
    destruct SRC as [e [r' [Hy He]]]. eexists _, r', e. split; [|split; [exact Hy|exact He]].
    unfold new_entry_reader. rewrite Hff. cbn [Z.eqb Pos.eqb fCBOR fJSON fCSV fXLSX fNDJSON]. unfold open_nd. rewrite Hq, Hg. cbn [rthen]. rewrite Hw0. reflexivity.
  Qed.
  Lemma no_cr_same : forall rows rows', Forall (Forall (fun f => ~ In 13%N f)) rows -> Forall2 (Forall2 endings) rows rows' -> rows' = rows.
  Proof.
    intros rows rows' Hcr H. induction H as [|fs gs rows rows' H HF IH]; [reflexivity|]. inversion Hcr as [|? ? Hf Hr]; subst. f_equal; [|apply IH; assumption].
    clear - H Hf. induction H as [|f g fs gs H HF IH]; [reflexivity|]. inversion Hf; subst. f_equal; [eapply endings_refl; eassumption|apply IH; assumption].
  Qed.
  Lemma table_yields : forall sh cols types s text rows fuel, table_shape order sh cols types -> valid_delim (separator sh) = true ->
    whole (sh_compression sh) s text -> table_text (encode_rune (separator sh)) rows text -> Forall (Forall (fun f => ~ In 13%N f)) rows ->
    exists r r' e, open sh s = Ok r /\
      yields (rstep fuel) r (map (fun fs => mkEntry 0 [] (VArr (decode N parse_float depth types fs))) (before_refusal (data_answers sh rows))) e r' /\ stop_of (data_answers sh rows) e.
  Proof.
    intros sh cols types s text rows fuel H1 H2 H3 H4 H5.
    destruct (csv_source_end parse_float (fun _ => []) (fun _ => None) depth surrogate (fun _ => []) load sheet_key (fun x => x) order size osize 4 dsize unpack (fun _ x => x) (le_n 4) opos
      sh cols types s text rows fuel H1 H2 H3 H4) as [rows' [R [r [r' [e X]]]]].
    rewrite (no_cr_same rows rows' H5 R) in X. eauto.
  Qed.
  Lemma before_rows : forall data, before_refusal (map Row data) = data.
  Proof. induction data as [|d data IH]; [reflexivity|]. cbn. now rewrite IH. Qed.

  Lemma sheet_yields : forall fuel types rows i, exists r', yields (rstep fuel) (RXlsx (mkXr types rows i)) (array_entries i (map (fun row => VArr (decode N parse_float depth types row)) rows)) EOF r'.
  Proof.
    intros fuel types rows. induction rows as [|row rows IH]; intros i; cbn [map array_entries].
    - eexists. apply y_end. reflexivity.
    - destruct (IH (i + 1)%Z) as [r' H]. exists r'. eapply y_cons; [reflexivity|exact H].
  Qed.
  Lemma firsts_are : forall cols types, Forall2 (fun (cl : M_Tabular.column (F:=N)) t => exists ts, M_Tabular.c_type cl = t :: ts) cols types -> first_types N cols = Some types.
  Proof. intros cols types H. induction H as [|cl t cols types [ts E] H IH]; [reflexivity|]. cbn [first_types]. rewrite E, IH. reflexivity. Qed.
  Lemma cells_hold : forall sheet rows, cells_are sheet rows -> L_Xlsx.holds (fun t => t) sheet rows.
  Proof. intros sheet rows H c r. rewrite H. destruct c; [reflexivity|]. destruct r; [reflexivity|]. destruct (at_cell rows c r); reflexivity. Qed.
  Lemma cells_rows : forall sheet rows, cells_are sheet rows -> Forall (fun row => row <> []) rows -> sheet_rows sheet = rows.
  Proof. intros sheet rows H Hn. rewrite (L_Xlsx.holds_rows (fun t => t) sheet rows (cells_hold _ _ H) Hn). rewrite (map_ext _ (fun x => x)) by (intros; apply map_id). apply map_id. Qed.

  Lemma holds_yields : forall sh s vs, holds sh s vs -> exists f0 es, map e_val es = vs /\ forall fuel, (f0 <= fuel)%nat ->
    exists r r', open sh s = Ok r /\ yields (rstep fuel) r es EOF r' /\ (length es < fuel)%nat.
  Proof.
    intros sh s vs H. destruct H as [doc vs Ht Hc Hd|doc kvs Ht Hc Hd|vs Ht Hc HW HL HR|m Ht Hc HW HE HR|lines vs Ht Hc HL HS|cols types rows text data vss Ht Hv Hc HT Hcr HA HV|types name bk sheet rows vss Ht Hfin Hld Hsh HC HN HV].
    - exists (3 * length doc + 3)%nat, (number_from 0 vs). split; [apply numbers_vals|]. intros fuel Hf. pose proof (jarray_length parse_float load sheet_key (fun x => x) unpack (fun _ x => x) _ _ Hd) as L.
      destruct (json_source parse_float depth surrogate load sheet_key order size osize dsize unpack sh _ s doc (number_from 0 vs) EOF fuel Ht (or_introl eq_refl) Hc) as [r [r' [Hr Hy]]].
      { intros s' Hs. exists (S (length doc)). apply (json_reads_array N parse_float surrogate vs doc Hd); auto. }
      exists r, r'. rewrite numbers_length. repeat split; auto. lia.
    - exists (3 * length doc + 3)%nat, (keyed kvs). split; [unfold keyed; rewrite map_map; reflexivity|]. intros fuel Hf.
      assert (L : (length kvs < length doc)%nat) by (apply jdoc_object_gdoc in Hd; apply gdoc_length in Hd; lia).
      destruct (json_source parse_float depth surrogate load sheet_key order size osize dsize unpack sh _ s doc (keyed kvs) EOF fuel Ht (or_intror eq_refl) Hc) as [r [r' [Hr Hy]]].
      { intros s' Hs. exists (S (length doc)). apply (json_reads_object N parse_float surrogate kvs doc Hd); auto. }
      exists r, r'. split; [assumption|]. split; [assumption|]. unfold keyed. rewrite map_length. lia.
    - exists (S (2 * length (cbor_encode (VArr vs)) + length vs)), (array_entries 0 vs). split; [apply array_vals|]. intros fuel Hf.
      assert (LE : S_Cbor.longest readable vs = vs).
      { clear -HR. induction vs as [|v vs IH]; [reflexivity|]. cbn in *. apply andb_prop in HR as [H1 H2]. rewrite H1, IH; auto. }
      destruct (cbor_source_end (fun e => e = EOF) sh _ s _ (array_entries 0 vs) fuel Ht (or_introl eq_refl) Hc ltac:(lia)) as [r [r' [e [Hr [Hy He]]]]].
      { intros sched. destruct (cbor_array_end vs sched HW HL) as [e [E1 E2]]. rewrite HR in E2. rewrite LE in E1. exists e. auto. }
      subst e. exists r, r'. rewrite <- (map_length e_val), array_vals. repeat split; auto. lia.
    - exists (S (2 * length (cbor_encode (VMap m)) + length m)), (object_entries m). split; [unfold object_entries; rewrite map_map; reflexivity|].
      intros fuel Hf. assert (Hs : sorted m) by (destruct HW as [_ [H _]]; exact H).
      assert (LE : S_Cbor.longest readable_pair m = m).
      { clear -HR. induction m as [|v m IH]; [reflexivity|]. cbn in *. apply andb_prop in HR as [H1 H2]. rewrite H1, IH; auto. }
      assert (FV : forall k, map_get k m = first_value k (object_entries m)).
      { intros k. destruct k as [|k0 kr]; [exact HE|]. unfold first_value. generalize (k0 :: kr). clear. intros k.
        induction m as [|[k1 v1] l IH]; [reflexivity|]. cbn [map_get find object_entries map fst snd e_key e_val]. destruct (beqb k k1); [reflexivity|]. exact IH. }
      assert (E0 : cbor_close (snd (cbor_write_all (new_cbor_writer true) (object_entries m))) = cbor_encode (VMap m)).
      { destruct (cbor_writer_object (object_entries m)) as [os [w [m1 [-> [EW [S1 [G1 _]]]]]]]. cbn [snd]. rewrite EW.
        replace m1 with m by (apply sorted_ext; auto; intros k; rewrite FV, G1; reflexivity). reflexivity. }
      destruct (cbor_source_end (fun e => e = EOF) sh _ s _ (object_entries m) fuel Ht (or_intror eq_refl) Hc ltac:(lia)) as [r [r' [e [Hr [Hy He]]]]].
      { intros sched. pose proof (cbor_round_trip_object (object_entries m) m EOF sched Hs FV HW) as T. rewrite E0, HR, LE in T.
        change (is_object (bs "object")) with true. destruct (cbor_read_all true _) as [got o]. destruct T as [-> ->]. exists EOF. auto. }
      subst e. exists r, r'. unfold object_entries. rewrite map_length. repeat split; auto. lia.
    - exists (S (length vs)), (array_entries 0 vs). split; [apply array_vals|]. intros fuel Hf. rewrite <- (app_nil_r lines) in Hc, HL.
      destruct (lines_yield sh s lines [] vs fuel Ht Hc HL HS (or_introl eq_refl)) as [r [r' [e [Hr [Hy ->]]]]].
      exists r, r'. rewrite <- (map_length e_val), array_vals. repeat split; auto.
    - exists (S (length data)), (map (fun fs => mkEntry 0 [] (VArr (decode N parse_float depth types fs))) data). split.
      { rewrite map_map. cbn [e_val]. clear -HV. induction HV as [|d vs0 data vss H HV IH]; [reflexivity|]. cbn [map]. rewrite IH. apply P_Csv.csv_row in H. now rewrite H. }
      intros fuel Hf. destruct (table_yields sh cols types s text rows fuel Ht Hv Hc HT Hcr) as [r [r' [e [Hr [Hy ST]]]]].
      rewrite HA, before_rows in Hy. destruct ST as [[_ ->]|[X _]]; [|exfalso; exact (X data HA)].
      exists r, r'. split; [assumption|]. split; [exact Hy|]. rewrite map_length. lia.
    - exists (S (length rows)), (array_entries 0 (map (fun row => VArr (decode N parse_float depth types row)) rows)). split.
      { rewrite array_vals. clear -HV. induction HV as [|d vs0 data vss H HV IH]; [reflexivity|]. cbn [map]. rewrite IH. apply P_Csv.csv_row in H. now rewrite H. }
      intros fuel Hf. destruct Ht as [Hff [Hcm [Hnm [cols [ps [Hcols Hty]]]]]]. destruct (sheet_yields fuel types rows 0) as [r' Hy].
      eexists _, r'. split; [|split; [exact Hy|rewrite <- (map_length e_val), array_vals, map_length; lia]].
      unfold new_entry_reader. rewrite Hff. cbn [Z.eqb Pos.eqb fCBOR fJSON fCSV fXLSX]. unfold open_xlsx. rewrite Hfin. unfold new_xlsx_reader.
      rewrite Hcm, Hcols, (firsts_are _ _ Hty), Hld. destruct (P_Xlsx.names_config N _ _ Hnm) as [t [-> ->]]. rewrite Hsh. cbn [rthen]. rewrite (cells_rows _ _ HC HN). reflexivity.
  Qed.
  Lemma broken_yields : forall sh s, broken sh s -> exists f0, forall fuel, (f0 <= fuel)%nat ->
    exists r es e r', open sh s = Ok r /\ yields (rstep fuel) r es e r' /\ is_eof_text e <> true /\ (length es < fuel)%nat.
  Proof.
    intros sh s H. destruct H as [vs Ht Hc HW HL HR|lines bad more vs Ht Hc HL HS HB|cols types rows text Ht Hv Hc HT Hcr HA].
    - exists (S (2 * length (cbor_encode (VArr vs)) + length (S_Cbor.longest readable vs))). intros fuel Hf.
      destruct (cbor_source_end (fun e => is_eof_text e <> true) sh _ s _ (array_entries 0 (S_Cbor.longest readable vs)) fuel Ht (or_introl eq_refl) Hc ltac:(lia)) as [r [r' [e [Hr [Hy He]]]]].
      { intros sched. destruct (cbor_array_end vs sched HW HL) as [e [E1 E2]]. rewrite HR in E2. exists e. auto. }
      exists r, (array_entries 0 (S_Cbor.longest readable vs)), e, r'. rewrite <- (map_length e_val), array_vals. repeat split; auto. lia.
    - exists (S (length vs)). intros fuel Hf.
      destruct (lines_yield sh s lines (bad :: more) vs fuel Ht Hc HL HS) as [r [r' [e [Hr [Hy He]]]]]; [right; eauto|].
      exists r, (array_entries 0 vs), e, r'. rewrite <- (map_length e_val), array_vals. repeat split; auto.
    - exists (S (length (before_refusal (data_answers sh rows)))). intros fuel Hf. destruct (table_yields sh cols types s text rows fuel Ht Hv Hc HT Hcr) as [r [r' [e [Hr [Hy ST]]]]].
      destruct ST as [[[data X] _]|[_ X]]; [exfalso; exact (HA data X)|].
      eexists r, _, e, r'. split; [assumption|]. split; [exact Hy|]. split; [assumption|]. rewrite map_length. lia.
  Qed.

  (** ** Statistics *)
  Lemma step_yields : forall fuel r es e r', yields (rstep fuel) r es e r' -> yields (estep fuel) r (map (as_entry float) es) e r'.
  Proof.
    intros fuel r es e r' H. induction H as [r e r' H|r x r1 es e r' H Hy IH]; cbn [map].
    - apply y_end. unfold entry_step. rewrite H. reflexivity.
    - eapply y_cons; [|exact IH]. unfold entry_step. rewrite H. reflexivity.
  Qed.
  Definition gathered (vs : list val) : option acc := fold_left (fun a v => write_entry v a) vs None.
  Lemma calc_yields : forall fuel sh s r es e r', open sh s = Ok r -> yields (rstep fuel) r es e r' -> (length es < fuel)%nat ->
    exists a, close_all estimate top_keys (gathered (map as_val (map e_val es))) = Ok a /\
      calc fuel (Some s) (Some sh) = if is_eof_text e then Ok (acc_stats a) else Err (EWrap "error reading row" (Z.of_nat (length es)) e).
  Proof.
    intros fuel sh s r es e r' Ho Hy Hl. apply step_yields in Hy. unfold calculate_dataset. rewrite Ho. cbn [rthen]. unfold calculate.
    assert (V : forall l i (a : option acc), visits (fun a (_ : Z) (x : entry f64) => (None, write_entry (e_val x) a)) a i l (fold_left (fun a x => write_entry (e_val x) a) l a)).
    { induction l as [|x l IH]; intros i a; [apply v_nil|]. cbn [fold_left]. eapply v_cons; [reflexivity|apply IH]. }
    rewrite (each_entry_all (estep fuel) _ r _ e r' Hy 0 None _ (V _ 0%Z None) fuel) by (rewrite map_length; assumption). rewrite Z.add_0_l, map_length.
    assert (EQ : forall a, fold_left (fun a x => write_entry (e_val x) a) (map (as_entry float) es) a = fold_left (fun a v => write_entry v a) (map as_val (map e_val es)) a).
    { clear. induction es as [|x es IH]; intros a; [reflexivity|]. cbn [fold_left map as_entry e_val]. apply IH. }
    rewrite EQ. fold (gathered (map as_val (map e_val es))).
    assert (A : alive (gathered (map as_val (map e_val es)))) by (apply alive_fold; exact I).
    destruct (alive_close estimate top_keys _ A) as [a [E1 A1]]. destruct (alive_close estimate top_keys a A1) as [a2 [E2 _]].
    exists a. split; [assumption|]. rewrite E1. destruct (is_eof_text e); [rewrite E2|]; reflexivity.
  Qed.

  Lemma means_as_val : forall v w, means float v w -> as_val v = w.
  Proof.
    induction v as [ |b|z|f|s|s|l IH|m IH] using gval_ind2; intros w H; inversion H as [| | | | | |l0 l' F|m0 m' F]; subst; try reflexivity; cbn [M_Calculate.as_val]; f_equal; clear H.
    - revert l' F. induction IH as [|v l Hv _ IHl]; intros l' F; inversion F; subst; [reflexivity|]. cbn [map]. f_equal; auto.
    - revert m' F. induction IH as [|[k v] m Hv _ IHm]; intros m' F; inversion F as [|x [k' w] ? m1 [E1 E2] F1]; subst; [reflexivity|]. cbn [map fst snd] in *. f_equal; [|auto]. rewrite (Hv _ E2), E1. reflexivity.
  Qed.
  Lemma means_map : forall vs ws, Forall2 (means float) vs ws -> map as_val vs = ws.
  Proof. induction 1; [reflexivity|]. cbn [map]. f_equal; [apply means_as_val|]; assumption. Qed.
  Lemma as_val_means : forall v, means float v (as_val v).
  Proof.
    induction v as [ |b|z|f|s|s|l IH|m IH] using gval_ind2; cbn [M_Calculate.as_val]; constructor.
    - induction IH; constructor; assumption.
    - induction IH; constructor; auto.
  Qed.

  (** The statistics of a body are the report of its values.  Any two bodies have the same statistics, whatever their
      formats and compressions, if they hold the same values; an integer counts as its float. *)
  Theorem calculate_whole : forall sh s vs ws sh' s' vs' ws', holds sh s vs -> holds sh' s' vs' -> Forall2 (means float) vs ws -> Forall2 (means float) vs' ws' -> Forall2 counts_as ws ws' ->
    exists f0 st, (Forall proper ws -> report ws st) /\
      forall fuel, (f0 <= fuel)%nat -> calc fuel (Some s) (Some sh) = Ok st /\ calc fuel (Some s') (Some sh') = Ok st.
  Proof.
    intros sh s vs ws sh' s' vs' ws' H H' M M' HC. apply means_map in M, M'. subst ws ws'.
    destruct (holds_yields _ _ _ H) as [f1 [es [Hv Y]]]. destruct (holds_yields _ _ _ H') as [f2 [es' [Hv' Y']]].
    assert (A : alive (gathered (map as_val vs))) by (apply alive_fold; exact I).
    destruct (alive_close estimate top_keys _ A) as [a [E1 _]]. exists (f1 + f2)%nat, (acc_stats a). split.
    - intros HP. destruct (stats_report estimate top_keys (map as_val vs) HP) as [b [b' [B1 [_ B2]]]]. fold (gathered (map as_val vs)) in B1. rewrite B1 in E1. injection E1 as ->. assumption.
    - intros fuel Hf. split.
      + destruct (Y fuel ltac:(lia)) as [r [r' [Ho [Hy Hl]]]]. destruct (calc_yields _ _ _ _ _ _ _ Ho Hy Hl) as [b [B1 B2]].
        rewrite Hv, E1 in B1. injection B1 as <-. exact B2.
      + destruct (Y' fuel ltac:(lia)) as [r [r' [Ho [Hy Hl]]]]. destruct (calc_yields _ _ _ _ _ _ _ Ho Hy Hl) as [b [B1 B2]].
        rewrite Hv' in B1. unfold gathered in B1. rewrite <- (counts_fold _ _ HC) in B1. fold (gathered (map as_val vs)) in B1. rewrite E1 in B1. injection B1 as <-. exact B2.
  Qed.
  (** A body that holds something that cannot be read has no statistics. *)
  Theorem calculate_broken : forall sh s, broken sh s -> exists f0, forall fuel, (f0 <= fuel)%nat -> exists e, calc fuel (Some s) (Some sh) = Err e.
  Proof.
    intros sh s H. destruct (broken_yields _ _ H) as [f0 Y]. exists f0. intros fuel Hf. destruct (Y fuel Hf) as [r [es [e [r' [Ho [Hy [He Hl]]]]]]].
    destruct (calc_yields _ _ _ _ _ _ _ Ho Hy Hl) as [a [_ ->]]. destruct (is_eof_text e); [contradiction|]. eauto.
  Qed.
  Lemma truncated_yields : forall sh s vs kvs q c q', content unpack (sh_compression sh) s q -> ~ L_JsonBuf.ends_escaped q ->
    (typed sh fJSON (bs "array") /\ jdoc_array N (float_reads N parse_float) vs (q ++ c :: q')) \/
    (typed sh fJSON (bs "object") /\ jdoc_object N (float_reads N parse_float) kvs (q ++ c :: q')) ->
    exists f0, forall fuel, (f0 <= fuel)%nat -> 
      exists r es e r', open sh s = Ok r /\ yields (rstep fuel) r es e r' /\ is_eof_text e <> true /\ (length es < fuel)%nat.
  Proof.
    intros sh s vs kvs q c q' Hc Hq HD. set (doc := q ++ c :: q') in *. exists (3 * length doc + 3)%nat. intros fuel Hf.
    assert (G : forall tlt all, typed sh fJSON tlt -> tlt = bs "array" \/ tlt = bs "object" -> truncated N parse_float surrogate (is_object tlt) all q c q' -> (length all < length doc)%nat ->
        exists r es e r', open sh s = Ok r /\ yields (rstep fuel) r es e r' /\ is_eof_text e <> true /\ (length es < fuel)%nat).
      { intros tlt all Ht Ho T L. destruct (opened unpack _ _ _ Hc) as [s' [Hw Hs]].
        destruct (T size s' (S (length doc)) fuel Hs (le_n _) Hf) as [[m [x [e [Hx [He E]]]]]|[_ X]]; [|contradiction].
        destruct (typed_top _ _ _ Ht Ho) as [Hff [[mm Hm] Hg]]. unfold read_json in E.
        destruct (run_json (read_loop N parse_float surrogate (S (length doc)) fuel (mkJs (is_object tlt) false 0)) (mkJst (new_bufr size s') 0)) as [[y st']|e0| |] eqn:E1; try discriminate.
        injection E as ->. apply (json_yields parse_float depth surrogate osize) in E1. destruct E1 as [r' Hy].
        eexists _, _, e, r'. split; [|split; [exact Hy|split; [exact He|]]].
        - unfold new_entry_reader. rewrite Hff. cbn [Z.eqb Pos.eqb fJSON fCBOR]. unfold open_json. rewrite Hm, Hg. cbn [rthen]. rewrite Hw. reflexivity.
        - rewrite app_length. assert (LL : (length (firstn m all) <= length all)%nat) by (rewrite firstn_length; lia). lia. }
      destruct HD as [[Ht Hd]|[Ht Hd]].
      - apply (G _ (number_from 0 vs) Ht (or_introl eq_refl)); [apply json_truncated_array; assumption|]. rewrite numbers_length. exact (jarray_length parse_float load sheet_key (fun x => x) unpack (fun _ x => x) _ _ Hd).
      - apply (G _ (keyed kvs) Ht (or_intror eq_refl)); [apply json_truncated_object; assumption|]. unfold keyed. rewrite map_length. apply jdoc_object_gdoc in Hd; apply gdoc_length in Hd. lia.
  Qed.
  (** A JSON body that was cut short has no statistics, unless the cut is behind a backslash and the byte after it. *)
  Theorem calculate_truncated : forall sh s vs kvs q c q', content unpack (sh_compression sh) s q -> ~ L_JsonBuf.ends_escaped q ->
    (typed sh fJSON (bs "array") /\ jdoc_array N (float_reads N parse_float) vs (q ++ c :: q')) \/
    (typed sh fJSON (bs "object") /\ jdoc_object N (float_reads N parse_float) kvs (q ++ c :: q')) ->
    exists f0, forall fuel, (f0 <= fuel)%nat -> exists e, calc fuel (Some s) (Some sh) = Err e.
  Proof.
    intros sh s vs kvs q c q' Hc Hq HD. destruct (truncated_yields sh s vs kvs q c q' Hc Hq HD) as [f0 R]. exists f0. intros fuel Hf. destruct (R fuel Hf) as [r [es [e [r' [Ho [Hy [He Hl]]]]]]].
    destruct (calc_yields _ _ _ _ _ _ _ Ho Hy Hl) as [a [_ ->]]. destruct (is_eof_text e); [contradiction|]. eauto.
  Qed.
  (** No body, no structure, or a structure no reader can be made for: an error, and the body is not read. *)
  Theorem calculate_refused : forall fuel s sh st,
    (exists e, calc fuel None st = Err e) /\ (exists e, calc fuel (Some s) None = Err e) /\
    (sh_schema sh = None -> In (structure_data_format (sh_format sh)) [fJSON; fCBOR; fNDJSON; fCSV] -> exists e, calc fuel (Some s) (Some sh) = Err e) /\
    (~ In (structure_data_format (sh_format sh)) [fJSON; fCBOR; fNDJSON; fCSV; fXLSX] -> exists e, calc fuel (Some s) (Some sh) = Err e).
  Proof.
    intros fuel s sh st. split; [eexists; reflexivity|]. split; [eexists; reflexivity|]. unfold calculate_dataset, new_entry_reader. split.
    - intros Hs Hin. cbn [In] in Hin.
      destruct Hin as [<-|[<-|[<-|[<-|[]]]]]; cbn [Z.eqb Pos.eqb fJSON fCBOR fCSV fXLSX fNDJSON]; unfold open_json, open_cbor, open_nd, open_csv; rewrite Hs; eexists; reflexivity.
    - intros Hin. cbn [In] in Hin.
      repeat match goal with |- context[(?x =? ?y)%Z] => destruct (Z.eqb_spec x y) as [E|_]; [try (exfalso; apply Hin; rewrite E; tauto); eexists; reflexivity|] end. eexists. reflexivity.
  Qed.

  (** Converting a body to CBOR keeps the statistics of the entries that are converted. *)
  Variable fmt_plain : N -> bytes.
  Variable fmt_json : N -> option bytes.
  Variable save : book -> bytes.
  Variable keep : bytes -> bytes.
  Variable wsize : nat.
  Variable pack : bytes -> bytes -> bytes.
  Notation convert := (convert parse_float fmt_plain fmt_json depth surrogate save load sheet_key keep order size osize wsize dsize unpack pack).
  Theorem calculate_converted : lossless_end unpack pack -> forall in_ out s vs doc limit offset all fuel0,
    typed in_ fJSON (bs "array") -> typed out fCBOR (bs "array") -> content unpack (sh_compression in_) s doc -> known (sh_compression out) ->
    jdoc_array N (float_reads N parse_float) vs doc -> (3 * length doc + 3 <= fuel0)%nat ->
    let part := chosen all offset limit vs in
    Forall wf_value part -> (N.of_nat (length part) < 2 ^ 44)%N -> forallb readable part = true -> forall ws, Forall2 (means float) part ws ->
    exists b, convert fuel0 in_ out s limit offset all = Ok b /\ forall s', s_rem s' = b -> s_fin s' = EOF ->
      exists f0 st, (Forall proper ws -> report ws st) /\
        forall fuel, (f0 <= fuel)%nat -> calc fuel (Some s') (Some out) = Ok st /\ (all = true -> calc fuel (Some s) (Some in_) = Ok st).
  Proof.
    intros HL in_ out s vs doc limit offset all fuel0 Hi Ho Hc Hk Hd Hf part HW HN HR ws HM.
    destruct (convert_json_to_cbor parse_float fmt_plain fmt_json depth surrogate save load sheet_key keep order size osize wsize dsize unpack pack in_ out s vs doc limit offset all fuel0 Hi Ho Hc Hk Hd Hf) as [b [E D]].
    exists b. split; [exact E|]. intros s' Hs Hfin. fold part in D.
    assert (W : whole (sh_compression out) s' (cbor_encode (VArr part))).
    { destruct D as [[H1 H2]|[f [H1 H2]]]; [left; subst; auto|]. right. destruct (HL f _ s' (eq_trans Hs H2) Hfin) as [s2 [E2 [E3 E4]]]. exists f, s2. auto. }
    pose proof (ho_cbor parse_float depth order unpack load sheet_key out s' part Ho W HW HN HR) as H2.
    assert (REFL : forall l, Forall2 counts_as l l) by (induction l; constructor; [constructor|assumption]).
    destruct all.
    - change part with vs in *. pose proof (ho_json parse_float depth order unpack load sheet_key in_ s doc vs Hi Hc Hd) as H1.
      destruct (calculate_whole _ _ _ _ _ _ _ _ H1 H2 HM HM (REFL _)) as [f0 [st [HP HF]]]. exists f0, st. split; [exact HP|]. intros fuel Hfu. destruct (HF fuel Hfu). auto.
    - destruct (calculate_whole _ _ _ _ _ _ _ _ H2 H2 HM HM (REFL _)) as [f0 [st [HP HF]]]. exists f0, st. split; [exact HP|]. intros fuel Hfu. destruct (HF fuel Hfu). split; [assumption|discriminate].
  Qed.
End Calculate.
Print Assumptions calculate_whole.
Print Assumptions calculate_broken.
Print Assumptions calculate_truncated.
Print Assumptions calculate_refused.
Print Assumptions calculate_converted.

(** ** Concrete cases, and claims that do not hold. *)
From Verif Require P_ConvertCsv P_EntryBuffer.
Import P_ConvertCsv P_EntryBuffer.
Definition demo_calc (s : src) (sh : shape) : res (option (list (list (bytes * val)))) :=
  calculate_dataset demo_parse 8 (bs "?") (fun _ => Err EOF) (fun n => n) (fun m => m) demo_size 16 16 demo_unpack none_est none_top (fun n => f_int (Z.of_N n)) 60 (Some s) (Some sh).
Definition row (s : string) (b : bool) : gval N := VArr [VStr (bs s); VBool b].
Example calculate_whole_ex : let vs := [row "qq" false; row "x;y" true] in
  let packed := from (bs "gzip" ++ cbor_encode (VArr vs)) in let table := from (bs "gzip" ++ bs "qq;false" ++ nl ++ bs """x;y"";true" ++ nl) in
  holds demo_parse 8 (fun m => m) demo_unpack (fun _ => Err EOF) (fun n => n) as_cbor packed vs /\ holds demo_parse 8 (fun m => m) demo_unpack (fun _ => Err EOF) (fun n => n) as_packed table vs /\
  (exists ws, Forall2 (means (fun n => f_int (Z.of_N n))) vs ws /\ Forall proper ws) /\
  let st := Ok (Some [[(bs "count", VInt 2); (bs "frequencies", VMap []); (bs "maxLength", VInt 3); (bs "minLength", VInt 2); (bs "type", VStr (bs "string")); (bs "unique", VInt 2)];
      [(bs "count", VInt 2); (bs "falseCount", VInt 1); (bs "trueCount", VInt 1); (bs "type", VStr (bs "boolean"))]]) in
  demo_calc packed as_cbor = st /\ demo_calc table as_packed = st /\
  demo_calc (from (bs "[[""qq"",false],[""x;y"",true]]")) as_json = st /\
  demo_calc (from (bs "[""qq"",false]" ++ nl ++ bs "[""x;y"",true]" ++ nl)) as_lines = st.
Proof.
  cbv zeta. split; [|split; [|split; [|vm_compute; repeat split]]].
  - apply ho_cbor; [split; [reflexivity|eexists; split; reflexivity]| | | |reflexivity].
    + right. exists (bs "gzip"). eexists. repeat split.
    + repeat constructor; cbn; lia.
    + cbn. lia.
  - assert (P : forall t u, existsb (fun c => existsb (N.eqb c) [34; 10; 13; 59]%N) t = false -> u = t -> written [59%N] t u).
    { intros t u H ->. apply w_plain; try (intros Hin;
        match type of Hin with In ?x _ => assert (X : existsb (fun c => existsb (N.eqb c) [34; 10; 13; 59]%N) t = true) by (apply existsb_exists; exists x; auto); congruence end).
      intros [a [b ->]]. rewrite existsb_app, orb_false_iff in H. destruct H as [_ H]. discriminate H. }
    eapply (ho_table demo_parse 8 (fun m => m) demo_unpack (fun _ => Err EOF) (fun n => n) as_packed _ [_; _] [bs "string"; bs "boolean"] [[bs "qq"; bs "false"]; [bs "x;y"; bs "true"]]
      (bs "qq;false" ++ nl ++ bs """x;y"";true" ++ nl) [[bs "qq"; bs "false"]; [bs "x;y"; bs "true"]] [[VStr (bs "qq"); VBool false]; [VStr (bs "x;y"); VBool true]]).
    + split; [reflexivity|split; [eexists; vm_compute; reflexivity|repeat constructor; eexists; reflexivity]].
    + reflexivity.
    + right. exists (bs "gzip"). eexists. repeat split.
    + change (encode_rune (separator as_packed)) with [59%N]. apply (tt_row _ _ (bs "qq;false")); [|apply (tt_row _ _ (bs """x;y"";true")); [|constructor]].
      * change (bs "qq;false") with (bs "qq" ++ [59%N] ++ bs "false"). apply lt_more; [discriminate|apply P; reflexivity|apply lt_one, P; reflexivity].
      * change (bs """x;y"";true") with (bs """x;y""" ++ [59%N] ++ bs "true"). apply lt_more; [discriminate|apply (w_quoted _ (bs "x;y")); discriminate|apply lt_one, P; reflexivity].
    + repeat constructor; cbn; intuition discriminate.
    + reflexivity.
    + constructor; [|constructor; [|constructor]]; apply P_Csv.csv_row; vm_compute; reflexivity.
  - exists [VArr [VStr (bs "qq"); VBool false]; VArr [VStr (bs "x;y"); VBool true]]. split; repeat constructor; cbn; lia.
Qed.
(** Integers of a JSON body and floats of a CBOR body count alike. *)
Example calculate_counts_ex : Forall2 counts_as [VArr [VInt 3]; VArr [VFloat (f_int 5)]] [VArr [VFloat (f_int 3)]; VArr [VInt 5]] /\ stats_of [VArr [VInt 3]; VArr [VFloat (f_int 5)]] = stats_of [VArr [VFloat (f_int 3)]; VArr [VInt 5]].
Proof. split; [repeat constructor|vm_compute; reflexivity]. Qed.
Example calculate_broken_ex : exists e1 e2 e3,
  demo_calc (from (bs "gzip" ++ cbor_encode (VArr [VInt 1; VInt (-25); VInt 2]))) as_cbor = Err e1 /\
  demo_calc (from (bs "[true]" ++ nl ++ bs "[tru]" ++ nl ++ bs "[null]" ++ nl)) as_lines = Err e2 /\
  demo_calc (from (bs "gzip" ++ bs "qq;false" ++ nl ++ bs "x" ++ nl)) as_packed = Err e3 /\ forallb readable [VInt 1; VInt (-25); VInt 2] = false.
Proof. eexists _, _, _. split; [vm_compute; reflexivity|]. split; [vm_compute; reflexivity|]. split; vm_compute; reflexivity. Qed.
Example calculate_truncated_ex : exists e, demo_calc (from (bs "[[1,2],[3")) as_json = Err e.
Proof. eexists. vm_compute. reflexivity. Qed.

(** Statistics are not always about the whole body: a CBOR body that was cut between two entries, and a last line without its
    end, leave out what is missing without an error. *)
Theorem calculate_all_entries_refuted :
  demo_calc (from (firstn 3 (cbor_encode (VArr [VArr [VBool true]; VArr [VBool false]])))) as_cbor_plain = demo_calc (from (cbor_encode (VArr [VArr [VBool true]]))) as_cbor_plain /\
  demo_calc (from (bs "[true]" ++ nl ++ bs "[false]")) as_lines = demo_calc (from (bs "[true]" ++ nl)) as_lines /\
  demo_calc (from (bs "[true]" ++ nl)) as_lines = Ok (Some [[(bs "count", VInt 1); (bs "falseCount", VInt 0); (bs "trueCount", VInt 1); (bs "type", VStr (bs "boolean"))]]).
Proof. vm_compute. repeat split. Qed.
Print Assumptions calculate_all_entries_refuted.
