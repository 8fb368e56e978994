(** Properties C51, C52, C53 and C67: what is detected of a body. *)
From Coq Require Import ZArith Lia Permutation.
From Verif Require Import Base M_Bufio M_Decimal M_Utf8 M_Doc M_Formats M_Components M_Vals M_JsonWrite M_Unmarshal M_ReplaceCR M_NDJson M_CsvText M_Tabular M_Detect
  S_Utf8 S_JsonText S_Vals S_ReplaceCR S_Csv S_Tabular S_Detect L_Decimal L_Utf8 L_Bufio P_Formats L_CsvText L_CsvSpec L_CsvIn L_Csv L_Detect L_DetectJson L_DetectCsv L_Tabular P_Vals P_Tabular.

(** ** C52: JSON and CBOR *)
(** If the source ends with io.EOF and the first read fills the buffer of 100 bytes or gives a byte that is not blank,
    the schema is decided by the first byte that is not blank; a schema is never wrong. *)
Theorem json_detected : forall s r n s', json_schema s = (r, n, s') ->
  (forall m, r = Ok m -> json_kind (s_rem s) (Ok m)) /\
  ((exists m, r = Ok m) \/ exists e, r = Err e) /\
  (forall d e s1, src_read 100 s = (d, e, s1) -> s_fin s = EOF ->
     length d = 100%nat \/ Exists (fun c => ~ json_blank c) d -> json_kind (s_rem s) r) /\
  s_fin s' = s_fin s /\ s_rem s = firstn (Z.to_nat n) (s_rem s) ++ s_rem s'.
Proof.
  intros s r n s' E. destruct (json_schema_says s) as [r0 [s0 [E0 [A [B C]]]]]. rewrite E0 in E. injection E as <- <- <-.
  split; [|split; [|split; [|split]]].
  - intros m ->. destruct B as [[e B]|[m' [B1 B2]]]; [discriminate|]. injection B1 as <-. assumption.
  - destruct B as [B|[m' [B1 _]]]; eauto.
  - intros d e s1 H. apply C in H. apply H.
  - apply A.
  - rewrite Nat2Z.id. apply adv_taken. assumption.
Qed.
Print Assumptions json_detected.
(** With a first read that is short and blank, a good document is refused: the rest of the buffer is scanned. *)
Theorem json_detected_all_reads_refuted : forall w r d e s1 s, s_rem s = w ++ 91%N :: r -> Forall json_blank w -> src_read 100 s = (d, e, s1) ->
  (length d <= length w)%nat -> (length d < 100)%nat -> opens_with (s_rem s) 91 /\ exists e n s', json_schema s = (Err e, n, s').
Proof.
  intros w r d e s1 s Es Hw E L1 L2. split.
  - exists w, r. split; [assumption|]. split; [assumption|]. intros [X|[X|[X|X]]]; discriminate.
  - destruct (json_schema_says s) as [r0 [s0 [E0 [A [B C]]]]]. destruct (C _ _ _ E) as [_ C2].
    destruct C2 as [x ->]; [assumption| |eauto]. destruct (src_progress 100 s) as [d' [e' [s' [E' [_ [R _]]]]]]; [lia|]. rewrite E in E'. injection E' as <- <- <-.
    rewrite Es in R. assert (X : d = firstn (length d) w).
    { apply (f_equal (firstn (length d))) in R. rewrite firstn_app, firstn_app, Nat.sub_diag, firstn_all, app_nil_r in R.
      replace (length d - length w)%nat with 0%nat in R by lia. rewrite app_nil_r in R. congruence. }
    rewrite X. apply Forall_forall. intros c I. rewrite Forall_forall in Hw. apply Hw. rewrite <- (firstn_skipn (length d) w). apply in_app_iff. left. assumption.
Qed.
Print Assumptions json_detected_all_reads_refuted.
(** CBOR: the major type of the first byte. *)
Theorem cbor_detected : forall s r n s', cbor_schema s = (r, n, s') ->
  cbor_kind (s_rem s) r /\ ((exists m, r = Ok m) \/ exists e, r = Err e) /\ n = 1%Z /\
  s_fin s' = s_fin s /\ exists taken, s_rem s = taken ++ s_rem s'.
Proof.
  intros s r n s' E. destruct (cbor_schema_says s) as [r0 [s0 [E0 [A [B C]]]]]. rewrite E0 in E. injection E as <- <- <-.
  split; [assumption|]. split; [assumption|]. split; [reflexivity|]. exact A.
Qed.
Print Assumptions cbor_detected.
(** The number of bytes read is not the one returned. *)
Theorem cbor_count_refuted : exists s r n s', cbor_schema s = (r, n, s') /\ Z.of_nat (length (s_rem s) - length (s_rem s')) <> n.
Proof. exists (mkSrc [128; 1; 2]%N EOF []). do 3 eexists. split; [reflexivity|]. discriminate. Qed.
Print Assumptions cbor_count_refuted.

Section Detect.
  Variable F : Type.
  Variable parse_float : bytes -> option F.
  Variable float32_ok : bytes -> bool.
  Variable depth : nat.
  Variable var_name : bytes -> bytes.
  Hypothesis deep_enough : (4 <= depth)%nat.
  Notation csv_schema := (csv_schema F parse_float float32_ok depth var_name).
  Notation csv_found := (csv_found F parse_float var_name (class float32_ok) int64_text).
  Notation guess_of := (guess_of F parse_float var_name (class float32_ok) int64_text).
  Notation from_reader := (from_reader F parse_float float32_ok depth var_name).
  Notation detect_structure := (detect_structure F parse_float float32_ok depth var_name).

  (** ** C53: CSV *)
  (** The schema and configuration are what the rows of the text say ([csv_found]), n is the number of bytes read. *)
  Theorem csv_detected : forall s, exists t l y n s' cfg,
    csv_schema s = ((y, Z.of_nat n, s'), Some cfg) /\
    tidy (s_fin s) (s_rem s) t /\ answers true true (bs ",") (s_fin s) (-1) t l /\ csv_found l y cfg /\
    s_fin s' = s_fin s /\ s_rem s = firstn n (s_rem s) ++ s_rem s'.
  Proof.
    intros s. destruct (csv_schema_says F parse_float float32_ok depth var_name deep_enough s) as [t [l [y [n [s' [cfg [E [A [-> [B [C D]]]]]]]]]]].
    exists t, l, y, (length (s_rem s) - length (s_rem s'))%nat, s', cfg. split; [assumption|]. split; [assumption|]. split; [assumption|]. split; [assumption|].
    split; [apply A|apply adv_taken; assumption].
  Qed.
  (** A text that is not only line breaks, from a source that does not fail, always has a schema. *)
  Theorem csv_always_detected : forall s, s_fin s = EOF -> Exists (fun c => c <> 10%N /\ c <> 13%N) (s_rem s) ->
    exists m n s' cfg, csv_schema s = ((Ok m, n, s'), Some cfg).
  Proof.
    intros s Hf Hx. destruct (csv_detected s) as [t [l [y [n [s' [cfg [E [B [C [D _]]]]]]]]]]. rewrite E. rewrite Hf in *.
    pose proof (answers_only true 44 [] EOF _ _ _ C ltac:(lia)) as Only. destruct D as [l|e l|h l b rows f D1 D2|h l b rows fields D1 D2 D3 D4]; [| | |eauto 6].
    - exfalso. inversion C as [|w T r l' R A| | |]; subst. assert (X : forall T o r, record true true (bs ",") EOF T o r -> o = None -> Forall (fun c => c = 10%N) T).
      { clear. induction 1; intros E; [constructor|constructor; auto|discriminate]. }
      specialize (X _ _ _ R eq_refl).
      assert (Y : Forall (fun c => c = 10%N \/ c = 13%N) (s_rem s)).
      { clear - B X. induction B; try (inversion X; subst); repeat constructor; auto; left; reflexivity. }
      rewrite Forall_forall in Y. apply Exists_exists in Hx. destruct Hx as [c [Ic [N1 N2]]]. destruct (Y c Ic); contradiction.
    - exfalso. destruct (Only (Flaw (Source e))) as [[fs X]|[[X _]|[_ X]]]; [left; reflexivity|discriminate|discriminate|congruence].
    - exfalso. assert (I : exists f, In (Flaw f) l) by (inversion D2; subst; eexists; apply in_app_iff; right; left; reflexivity). destruct I as [f' I].
      destruct (Only (Flaw f')) as [[fs X]|[[X _]|[_ X]]]; [right; assumption|discriminate|discriminate|congruence].
  Qed.
  (** How the source hands out its bytes does not matter. *)
  Lemma csv_loop_same : forall fin fuel width count rows variadic w a b, same_in bufsize fin a b -> exists y v w' a' b',
    csv_loop fuel width count rows variadic (mkCr w a) = (y, v, mkCr w' a') /\ csv_loop fuel width count rows variadic (mkCr w b) = (y, v, mkCr w' b') /\ same_in bufsize fin a' b'.
  Proof.
    intros fin. assert (Hr : (0 < bufsize)%nat) by (unfold bufsize; lia). induction fuel as [|fuel IH]; intros width count rows variadic w a b H; [exists OutOfFuel, variadic, w, a, b; split; [reflexivity|split; [reflexivity|assumption]]|]. cbn [csv_loop].
    destruct (same_read bufsize fin Hr true true 44 w a b H) as [x [w' [a' [b' [E1 [E2 H']]]]]]. rewrite E1, E2.
    destruct (2000 <? count)%nat; [do 5 eexists; split; [reflexivity|split; [reflexivity|eassumption]]|].
    destruct x as [rec|[| |]| |]; try (do 5 eexists; split; [reflexivity|split; [reflexivity|eassumption]]).
    destruct (length rec =? width)%nat; apply IH; assumption.
  Qed.
  Theorem csv_chunks : forall s1 s2, s_rem s1 = s_rem s2 -> s_fin s1 = s_fin s2 ->
    fst (fst (fst (csv_schema s1))) = fst (fst (fst (csv_schema s2))) /\ snd (csv_schema s1) = snd (csv_schema s2).
  Proof.
    intros s1 s2 H1 H2. unfold M_Detect.csv_schema. assert (Hr : (0 < bufsize)%nat) by (unfold bufsize; lia).
    assert (S0 : same_in bufsize (s_fin s1) (mkIn [] None (new_bufr bufsize s1)) (mkIn [] None (new_bufr bufsize s2))).
    { split; [apply start_ok|]. split; [rewrite H2; apply start_ok|]. split; [reflexivity|]. split; [reflexivity|]. cbn. unfold pending. cbn. assumption. }
    destruct (same_read bufsize (s_fin s1) Hr true true 44 (-1) _ _ S0) as [x [w' [a' [b' [E1 [E2 H']]]]]]. rewrite E1, E2.
    destruct x as [h|e| |]; try (split; reflexivity).
    cbn [r_st]. rewrite (same_left bufsize (s_fin s1) a' b' H').
    destruct (csv_loop_same (s_fin s1) (S (S (in_left b'))) (length h) 0 [] false w' a' b' H') as [y [v [w2 [a2 [b2 [G1 [G2 _]]]]]]]. rewrite G1, G2.
    destruct y as [rows|e| |]; split; reflexivity.
  Qed.

  (** ** C51: the structure of a dataset *)
  Lemma from_reader_says : forall f comp s, In f (map snd ext_formats) -> exists g n x s', from_reader f comp s = (g, n, x, s') /\ adv s s' /\
    ((exists e, x = Err e) \/ exists cfg m, x = Ok tt /\ g = bare_structure (format_string f) comp cfg m /\ guess_of (s_rem s) (s_fin s) (format_string f) cfg m).
  Proof.
    intros f comp s Hf. cbn in Hf.
    assert (J : forall (st : structure) (r : res (list (bytes * jdoc))) (n : Z) s' (cfg : gomap jdoc), (exists m, r = Ok m) \/ (exists e, r = Err e) ->
      exists (g : structure) (n' : Z) (x : res unit), (match r with Ok m => (set_schema (set_config st cfg) (Some m), n, Ok tt, s') | Err e => (set_config st cfg, n, Err e, s') | Panic => (st, n, Panic, s') | OutOfFuel => (st, n, OutOfFuel, s') end)
        = (g, n', x, s' : src) /\ ((exists e, x = Err e) \/ (exists m, r = Ok m /\ x = Ok tt /\ g = set_schema (set_config st cfg) (Some m)))).
    { intros st r n s' cfg [[m ->]|[e ->]]; do 3 eexists; (split; [reflexivity|]); [right|left]; eauto. }
    destruct Hf as [<-|[<-|[<-|[<-|[<-|[<-|[<-|[]]]]]]]]; unfold M_Detect.from_reader, schema; cbn [st_format];
      [change (structure_data_format (format_string fCBOR)) with fCBOR|change (structure_data_format (format_string fJSON)) with fJSON
      |change (structure_data_format (format_string fCSV)) with fCSV|change (structure_data_format (format_string fXML)) with fXML
      |change (structure_data_format (format_string fXLSX)) with fXLSX|change (structure_data_format (format_string fNDJSON)) with fNDJSON
      |change (structure_data_format (format_string fNDJSON)) with fNDJSON]; cbn [Z.eqb fUnknown fCBOR fJSON fCSV fXML fXLSX fNDJSON Pos.eqb].
    - destruct (cbor_schema_says s) as [r [s' [E [A [B C]]]]]. rewrite E.
      match goal with |- context [set_config ?st ?cfg] => destruct (J st r 1%Z s' cfg C) as [g [n' [x [G1 G2]]]] end.
      exists g, n', x, s'. split; [exact G1|]. split; [assumption|]. destruct G2 as [G2|[m [-> [-> ->]]]]; [left; assumption|]. right.
      do 2 eexists. split; [reflexivity|]. split; [reflexivity|]. apply gu_cbor. assumption.
    - destruct (json_schema_says s) as [r [s' [E [A [B C]]]]]. rewrite E. assert (D : (exists m, r = Ok m) \/ (exists e, r = Err e)) by (destruct B as [B|[m [B _]]]; eauto).
      match goal with |- context [set_config ?st ?cfg] => destruct (J st r (Z.of_nat (length (s_rem s) - length (s_rem s'))) s' cfg D) as [g [n' [x [G1 G2]]]] end.
      exists g, n', x, s'. split; [exact G1|]. split; [assumption|]. destruct G2 as [G2|[m [-> [-> ->]]]]; [left; assumption|]. right.
      do 2 eexists. split; [reflexivity|]. split; [reflexivity|]. apply gu_json. destruct B as [[e B]|[m' [B1 B2]]]; [discriminate|injection B1 as <-; assumption].
    - destruct (csv_schema_says F parse_float float32_ok depth var_name deep_enough s) as [t [l [y [n [s' [cfg [E [A [-> [B [C D]]]]]]]]]]]. rewrite E.
      assert (G : (exists m, y = Ok m) \/ (exists e, y = Err e)) by (destruct D; eauto).
      match goal with |- context [set_config ?st ?cfg] => destruct (J st y (Z.of_nat (length (s_rem s) - length (s_rem s'))) s' cfg G) as [g [n' [x [G1 G2]]]] end.
      exists g, n', x, s'. split; [exact G1|]. split; [assumption|]. destruct G2 as [G2|[m [-> [-> ->]]]]; [left; assumption|]. right.
      do 2 eexists. split; [reflexivity|]. split; [reflexivity|]. eapply gu_csv; eassumption.
    - do 4 eexists. split; [reflexivity|]. split; [apply adv_refl|]. left. eauto.
    - do 4 eexists. split; [reflexivity|]. split; [apply adv_refl|]. right. do 2 eexists. split; [reflexivity|]. split; [reflexivity|]. apply gu_xlsx.
    - do 4 eexists. split; [reflexivity|]. split; [apply adv_refl|]. right. do 2 eexists. split; [reflexivity|]. split; [reflexivity|]. apply gu_ndjson.
    - do 4 eexists. split; [reflexivity|]. split; [apply adv_refl|]. right. do 2 eexists. split; [reflexivity|]. split; [reflexivity|]. apply gu_ndjson.
  Qed.
  Lemma settled_enough : forall st, settled (Some st) = true <-> enough st.
  Proof.
    intros st. unfold settled, enough, needs_config. rewrite !andb_true_iff, !negb_true_iff. change (format_string fXLSX) with (bs "xlsx"). change (format_string fCSV) with (bs "csv").
    destruct (st_format st) as [|c f] eqn:Ef; [split; [intros [[X _] _]; discriminate|intros [X _]; congruence]|]. cbn [bempty].
    destruct (st_schema st) as [m|]; [|split; [intros [[_ X] _]; discriminate|intros [_ [X _]]; congruence]]. cbn [is_nil].
    destruct (beqb_spec (c :: f) (bs "xlsx")) as [E|E].
    - destruct (st_format_config st); cbn; split; intros H; repeat split; try discriminate; try (destruct H as [_ [_ H]]; specialize (H (or_intror E)); congruence). destruct H as [_ H]. discriminate.
    - destruct (beqb_spec (c :: f) (bs "csv")) as [E2|E2].
      + destruct (st_format_config st); cbn; split; intros H; repeat split; try discriminate; try (destruct H as [_ [_ H]]; specialize (H (or_introl E2)); congruence). destruct H as [_ H]. discriminate.
      + split; [|auto]. intros _. repeat split; try discriminate. intros [X|X]; congruence.
  Qed.
  Definition kept (a b : structure) : Prop :=
    st_checksum b = st_checksum a /\ st_depth b = st_depth a /\ st_encoding b = st_encoding a /\
    st_err_count b = st_err_count a /\ st_entries b = st_entries a /\ st_length b = st_length a /\
    st_path b = st_path a /\ st_qri b = st_qri a /\ st_strict b = st_strict a.
  Lemma complete_fills : forall st g, fills st g (complete (Some st) g).
  Proof.
    intros st g. unfold complete. set (st1 := if bempty (st_format st) then set_format st (st_format g) else st).
    assert (E1 : st_compression st1 = st_compression st /\ st_format_config st1 = st_format_config st /\ st_schema st1 = st_schema st /\ filled_str (st_format st) (st_format g) (st_format st1) /\
      kept st st1) by (subst st1; unfold filled_str; destruct (st_format st) as [|c f] eqn:E; cbn [bempty]; unfold kept; rewrite ?E; repeat split; auto; left; split; congruence).
    clearbody st1. destruct E1 as [A1 [A2 [A3 [A4 A5]]]].
    set (st2 := if bempty (st_compression st1) then set_compression st1 (st_compression g) else st1).
    assert (E2 : st_format st2 = st_format st1 /\ st_format_config st2 = st_format_config st1 /\ st_schema st2 = st_schema st1 /\ filled_str (st_compression st1) (st_compression g) (st_compression st2) /\
      kept st1 st2) by (subst st2; unfold filled_str; destruct (st_compression st1) as [|c f] eqn:E; cbn [bempty]; unfold kept; rewrite ?E; repeat split; auto; left; split; congruence).
    clearbody st2. destruct E2 as [B1 [B2 [B3 [B4 B5]]]]. rewrite <- B1 in A4.
    set (st3 := if is_nil (st_format_config st2) && beqb (st_format st2) (st_format g) then set_config st2 (st_format_config g) else st2).
    assert (E3 : st_format st3 = st_format st2 /\ st_compression st3 = st_compression st2 /\ st_schema st3 = st_schema st2 /\
      (st_format st2 = st_format g -> filled_map (st_format_config st2) (st_format_config g) (st_format_config st3)) /\
      (st_format st2 <> st_format g -> st_format_config st3 = st_format_config st2) /\ kept st2 st3).
    { subst st3; unfold filled_map; destruct (st_format_config st2) as [m|] eqn:E; cbn [is_nil andb]; [|destruct (beqb_spec (st_format st2) (st_format g))]; unfold kept; rewrite ?E; repeat split; auto; try contradiction.
      intros _. left. exists m. auto. }
    clearbody st3. destruct E3 as [C1 [C2 [C3 [C4 [C5 C6]]]]]. 
    set (st4 := if is_nil (st_schema st3) then set_schema st3 (st_schema g) else st3).
    assert (E4 : st_format st4 = st_format st3 /\ st_compression st4 = st_compression st3 /\ st_format_config st4 = st_format_config st3 /\ filled_map (st_schema st3) (st_schema g) (st_schema st4) /\ kept st3 st4).
    { subst st4; unfold filled_map; destruct (st_schema st3) as [m|] eqn:E; cbn [is_nil]; unfold kept; rewrite ?E; repeat split; auto. left. exists m. auto. }
    clearbody st4. destruct E4 as [D1 [D2 [D3 [D4 D5]]]]. unfold fills.
    rewrite C1 in D1. rewrite C2 in D2. rewrite C3, B3 in D4. rewrite D1, D2, D3. rewrite <- A1, <- A2, <- A3. rewrite B2 in C4, C5.
    split; [assumption|]. split; [assumption|]. split; [assumption|]. split; [assumption|]. split; [assumption|].
    unfold kept in *. intuition congruence.
  Qed.

  (** Without a dataset: an error.  A structure that says enough: nothing is read or changed.  No body: an error. *)
  Theorem detect_without_reading : forall d body,
    detect_structure None body = Some (Err (EMsg "empty dataset"), None, body) /\
    (forall st, ds_structure d = Some st -> enough st -> detect_structure (Some d) body = Some (Ok tt, Some d, body)) /\
    ((forall st, ds_structure d = Some st -> ~ enough st) -> detect_structure (Some d) None = Some (Err err_no_body, Some d, None)).
  Proof.
    intros d body. split; [reflexivity|]. unfold M_Detect.detect_structure. split.
    - intros st E H. apply settled_enough in H. rewrite E, H. reflexivity.
    - intros H. replace (settled (ds_structure d)) with false; [reflexivity|]. symmetry. destruct (ds_structure d) as [st|]; [|reflexivity].
      destruct (settled (Some st)) eqn:E; [|reflexivity]. apply settled_enough in E. exfalso. eapply H; [reflexivity|assumption].
  Qed.
  (** Otherwise the body is read.  On success, the structure is what the name and the bytes of the body say where it said
      nothing, and unchanged where it did; nothing else of the dataset changes; and the body can be read as before,
      whatever the sizes of the reads.  On failure the dataset is unchanged, and bytes at the front of the body are gone. *)
  Theorem detect_reading : forall d name s size, (forall st, ds_structure d = Some st -> ~ enough st) ->
    exists x d' body', detect_structure (Some d) (Some (mkBody name (Plain s) size)) = Some (x, Some d', Some body') /\ bf_name body' = name /\
    ((exists e, x = Err e /\ d' = d /\ bf_size body' = size /\ exists lost rest, s_rem s = lost ++ rest /\ holds (bf_reader body') rest (s_fin s)) \/
     (x = Ok tt /\ same_but_structure d d' /\ holds (bf_reader body') (s_rem s) (s_fin s) /\
      (forall z, size = Some z -> bf_size body' = size) /\
      exists f comp cfg m st', format_from_filename name = (f, comp, Ok tt) /\ guess_of (s_rem s) (s_fin s) (format_string f) cfg m /\
        ds_structure d' = Some st' /\
        match ds_structure d with
        | None => st' = bare_structure (format_string f) comp cfg m
        | Some st => fills st (bare_structure (format_string f) comp cfg m) st'
        end)).
  Proof.
    intros d name s size H. unfold M_Detect.detect_structure.
    replace (settled (ds_structure d)) with false.
    2: { symmetry. destruct (ds_structure d) as [st|]; [|reflexivity]. destruct (settled (Some st)) eqn:E; [|reflexivity]. apply settled_enough in E. exfalso. eapply H; [reflexivity|assumption]. }
    cbn [bf_name bf_reader bf_size]. destruct (format_from_filename name) as [[f comp] e] eqn:EF.
    assert (X : (exists er, e = Err er) \/ (e = Ok tt /\ In f (map snd ext_formats))).
    { unfold format_from_filename in EF. destruct (match parse_compression _ with Some c => _ | None => _ end) as [c ext].
      destruct (alookup beqb ext ext_formats) as [f0|] eqn:EA; injection EF as <- <- <-; [right|left; eauto]. split; [reflexivity|].
      apply alookup_In in EA; [|intros a b; apply beqb_eq]. apply (in_map snd) in EA. exact EA. }
    destruct X as [[er ->]|[-> Hf]].
    - do 3 eexists. split; [reflexivity|]. split; [reflexivity|]. left. eexists. split; [reflexivity|]. split; [reflexivity|]. split; [reflexivity|].
      exists [], (s_rem s). split; [reflexivity|]. apply plain_holds.
    - destruct (from_reader_says f comp s Hf) as [g [n [x [s' [E [A B]]]]]]. rewrite E. destruct B as [[er ->]|[cfg [m [-> [-> B]]]]].
      + do 3 eexists. split; [reflexivity|]. split; [reflexivity|]. left. eexists. split; [reflexivity|]. split; [reflexivity|]. split; [reflexivity|].
        destruct A as [A1 [t A2]]. exists t, (s_rem s'). split; [assumption|]. rewrite <- A1. apply plain_holds.
      + do 3 eexists. split; [reflexivity|]. split; [reflexivity|]. right. split; [reflexivity|]. split; [repeat split; reflexivity|]. cbn [bf_reader bf_size]. split.
        * pose proof (joined_holds (Some (firstn (length (s_rem s) - length (s_rem s')) (s_rem s))) s') as J. cbn iota in J.
          rewrite <- (adv_taken s s' A) in J. rewrite (proj1 A) in J. exact J.
        * split; [intros z ->; reflexivity|]. exists f, comp, cfg, m. eexists. split; [reflexivity|]. split; [assumption|]. split; [reflexivity|].
          destruct (ds_structure d) as [st|]; [apply complete_fills|].
          unfold complete, bare_structure. cbn [st_format st_compression st_format_config st_schema].
          destruct (format_string f) as [|c0 f0] eqn:Ef; cbn [bempty]; unfold set_format, set_compression, set_config; cbn [st_format st_compression st_format_config st_schema];
          destruct comp; cbn [bempty]; cbn [st_format st_compression st_format_config st_schema]; rewrite beqb_refl; destruct cfg; reflexivity.
  Qed.
  (** The result says enough, so that a second call changes nothing, except for spreadsheets and for a structure of format
      csv (without configuration) whose body is named otherwise. *)
  Theorem detect_settles : forall d name s size d' body', (forall st, ds_structure d = Some st -> ~ enough st) ->
    detect_structure (Some d) (Some (mkBody name (Plain s) size)) = Some (Ok tt, Some d', Some body') ->
    exists st', ds_structure d' = Some st' /\
    ((enough st' /\ detect_structure (Some d') (Some body') = Some (Ok tt, Some d', Some body')) \/
     (st_format_config st' = None /\ (st_format st' = bs "xlsx" \/
        (st_format st' = bs "csv" /\ forall f comp e, format_from_filename name = (f, comp, e) -> f <> fCSV)))).
  Proof.
    intros d name s size d' body' H E. destruct (detect_reading d name s size H) as [x [d1 [b1 [E1 [_ R]]]]]. rewrite E in E1. injection E1 as <- <- <-.
    destruct R as [[e [R _]]|[_ [_ [_ [_ [f [comp [cfg [m [st' [R1 [R2 [R3 R4]]]]]]]]]]]]]; [discriminate|].
    exists st'. split; [assumption|].
    assert (G : format_string f <> [] /\ (f = fCSV -> cfg <> None)).
    { split; [intros X; rewrite X in R2; inversion R2|]. intros ->. change (format_string fCSV) with (bs "csv") in R2. inversion R2; subst; try discriminate. }
    destruct G as [G1 G2].
    assert (P : st_format st' <> [] /\ st_schema st' <> None /\ (st_format st' = format_string f -> f = fCSV -> st_format_config st' <> None)).
    { destruct (ds_structure d) as [st|].
      - destruct R4 as [F1 [F2 [F3 [F4 _]]]]. cbn [st_format st_schema st_format_config bare_structure] in *. split; [destruct F1 as [[? ->]|[_ ->]]; assumption|].
        split; [destruct F3 as [[m0 [-> ->]]|[_ ->]]; discriminate|]. intros X Hf. destruct (F4 X) as [[m0 [-> ->]]|[_ ->]]; [discriminate|auto].
      - subst st'. cbn. split; [assumption|]. split; [discriminate|auto]. }
    destruct P as [P1 [P2 P3]].
    assert (D : enough st' \/ (st_format_config st' = None /\ (st_format st' = bs "xlsx" \/ (st_format st' = bs "csv" /\ f <> fCSV)))).
    { destruct (st_format_config st') as [c|] eqn:Ec; [left; unfold enough; rewrite Ec; repeat split; auto; discriminate|].
      destruct (beqb_spec (st_format st') (bs "xlsx")) as [X|X]; [right; split; [reflexivity|left; assumption]|].
      destruct (beqb_spec (st_format st') (bs "csv")) as [Y|Y].
      - right. split; [reflexivity|right]. split; [assumption|]. intros Hf. apply P3; [rewrite Hf; assumption|assumption|reflexivity].
      - left. repeat split; auto. intros [Z|Z]; contradiction. }
    destruct D as [D|[D1 D2]].
    - left. split; [assumption|]. exact (proj1 (proj2 (detect_without_reading d' (Some body'))) st' R3 D).
    - right. split; [assumption|]. destruct D2 as [D2|[D2 D3]]; [left; assumption|right]. split; [assumption|]. intros f' comp' e X. rewrite R1 in X. injection X as <- _ _. assumption.
  Qed.

  (** ** C67: the schema of a table without one *)
  Definition cell_kind (v : gval F) (t : bytes) : Prop :=
    match v with
    | VInt _ | VFloat _ => t = bs "number"
    | VBool _ => t = bs "boolean"
    | VNil => t = bs "null"
    | _ => t = bs "string"
    end.
  Lemma number_columns_rule : forall row i,
    columns_rule (F:=F) i (number_columns F i row)
      (map (fun p => mkCol (bs "col_" ++ itoa (Z.of_nat (fst p))) [go_data_type F (snd p)] [] []) (combine (seq i (length row)) row)) [].
  Proof.
    induction row as [|v row IH]; intros i; [constructor|]. cbn [number_columns length seq combine map fst snd].
    change (@nil problem) with (@nil problem ++ @nil problem). constructor; [|apply IH].
    change (@nil problem) with (@nil problem ++ @nil problem). apply cr_object; cbn [c_title c_type c_desc c_valid].
    - left. reflexivity.
    - left. eexists. split; reflexivity.
    - right. split; [intros t X; discriminate X|reflexivity].
    - intros k. cbn [existsb map_get]. destruct (beqb k (bs "title")); [reflexivity|]. destruct (beqb k (bs "type")); [reflexivity|]. destruct (beqb k (bs "description")); reflexivity.
    - exact Logic.I.
    - right. split; [intros X; eapply X; reflexivity|reflexivity].
    - right. split; [intros X; eapply X; reflexivity|reflexivity].
  Qed.
  (** From rows, the first of which is an array, a schema is made that describes one column per cell of the first row, named
      col_0, col_1, ..., with the type of the cell; the names are distinct identifiers. *)
  Theorem table_schema_columns : forall (order : list (bytes * gval F) -> list (bytes * gval F)) row rows, (forall m, Permutation (order m) m) ->
    exists sch cols, tabular_schema F (VArr (VArr row :: rows)) = Ok sch /\ columns_from_schema order sch = Ok (cols, []) /\
      length cols = length row /\ valid_machine_titles cols = [] /\
      forall i v, nth_error row i = Some v -> exists t, cell_kind v t /\ nth_error cols i = Some (mkCol (bs "col_" ++ itoa (Z.of_nat i)) [t] [] []).
  Proof.
    intros order row rows Ho. eexists. set (sch := [(bs "items", VMap [(bs "items", VArr (number_columns F 0 row)); (bs "type", VStr (bs "array"))]); (bs "type", VStr (bs "array"))]).
    set (cols := map (fun p => mkCol (bs "col_" ++ itoa (Z.of_nat (fst p))) [go_data_type F (snd p)] [] (@nil (bytes * gval F))) (combine (seq 0 (length row)) row)).
    exists cols. split; [reflexivity|]. fold sch.
    destruct (columns_exact (F:=F) order sch (number_columns F 0 row) Ho) as [cols' [ps [E1 [E2 E3]]]].
    - split; [reflexivity|]. eexists. split; reflexivity.
    - intros m I. assert (X : forall l i, In (VMap m) (number_columns F i l) -> sorted m); [|eapply X; eassumption].
      clear. induction l as [|v l IH]; intros i I; [destruct I|]. destruct I as [I|I]; [|eauto]. injection I as <-. cbn. auto.
    - destruct (E3 _ _ (number_columns_rule row 0)) as [<- <-]. fold cols in E1.
      assert (NC : forall i v, nth_error row i = Some v -> nth_error cols i = Some (mkCol (bs "col_" ++ itoa (Z.of_nat i)) [go_data_type F v] [] [])).
      { assert (G : forall l n i v, nth_error l i = Some v -> nth_error (combine (seq n (length l)) l) i = Some ((n + i)%nat, v : gval F)).
        { induction l as [|x l IH]; intros n [|i] v E; try discriminate; cbn [length seq combine nth_error] in *; [injection E as <-; rewrite Nat.add_0_r; reflexivity|].
          rewrite (IH (S n) i v E). do 2 f_equal. lia. }
        intros i v E. unfold cols. rewrite nth_error_map, (G _ _ _ _ E). reflexivity. }
      split; [exact E1|]. split; [unfold cols; rewrite map_length, combine_length, seq_length; lia|]. split.
      + assert (T : titles cols = map (fun i => bs "col_" ++ itoa (Z.of_nat i)) (seq 0 (length row))).
        { assert (G : forall (l : list (gval F)) xs, length xs = length l ->
            map c_title (map (fun p => mkCol (bs "col_" ++ itoa (Z.of_nat (fst p))) [go_data_type F (snd p)] [] (@nil (bytes * gval F))) (combine xs l)) = map (fun i => bs "col_" ++ itoa (Z.of_nat i)) xs).
          { induction l as [|v l IH]; intros [|x xs] E; try discriminate; [reflexivity|]. cbn [combine map fst c_title]. f_equal. apply IH. cbn in E. congruence. }
          apply G. apply seq_length. }
        apply machine_titles_iff. rewrite T. split.
        * apply Forall_forall. intros t I. apply in_map_iff in I. destruct I as [i [<- _]]. exists 99%N, (bs "ol_" ++ itoa (Z.of_nat i)). split; [reflexivity|]. split; [lia|].
          apply Forall_forall. intros c I. apply in_app_or in I. destruct I as [I|I]; [cbn in I; lia|].
          assert (X : (48 <= c <= 57)%N); [|lia]. revert I. unfold itoa. replace (Z.of_nat i <? 0)%Z with false by (symmetry; apply Z.ltb_ge; lia). intros I. eapply dec_in. eassumption.
        * apply FinFun.Injective_map_NoDup; [|apply seq_NoDup]. intros a b X. apply app_inv_head in X. apply itoa_inj in X. lia.
      + intros i v E. exists (go_data_type F v). split; [destruct v; reflexivity|auto].
  Qed.
  (** Other arrays and objects are refused. *)
  Theorem table_schema_refused : forall source, (exists e, tabular_schema F source = Err e) <->
    (exists m, source = VMap m) \/ source = VArr [] \/ exists v rows, source = VArr (v :: rows) /\ forall row, v <> VArr row.
  Proof.
    intros source. split.
    - intros [e H]. destruct source as [| | | | | |[|v rows]|m]; try discriminate; [auto| |eauto]. right. right. exists v, rows. split; [reflexivity|]. intros row ->. discriminate.
    - intros [[m ->]|[->|[v [rows [-> H]]]]]; [eexists; reflexivity|eexists; reflexivity|]. destruct v; try (eexists; reflexivity). exfalso. eapply H. reflexivity.
  Qed.
  (** The intended claim, a schema that describes a table or an error, is false: a single value gives an empty schema. *)
  Theorem table_schema_described_refuted : exists source sch e, tabular_schema F source = Ok sch /\ forall order, columns_from_schema order sch = Err e.
  Proof. exists (VStr (bs "text")). do 2 eexists. split; reflexivity. Qed.
End Detect.
Print Assumptions csv_detected.
Print Assumptions csv_always_detected.
Print Assumptions csv_chunks.
Print Assumptions detect_without_reading.
Print Assumptions detect_settles.
Print Assumptions table_schema_columns.
Print Assumptions table_schema_refused.
Print Assumptions table_schema_described_refuted.
Print Assumptions detect_reading.

(** ** Refuted claims *)
Definition dec_float (s : bytes) : option Z := parse_signed s.
Definition dec_ok (s : bytes) : bool := match parse_signed s with Some _ => true | None => false end.
Notation detect := (detect_structure Z dec_float dec_ok 10 (fun s => s)).
(** After an error the body is not as before. *)
Theorem detect_error_keeps_body_refuted : exists d name s e d' body',
  detect (Some d) (Some (mkBody name (Plain s) None)) = Some (Err e, d', Some body') /\ ~ holds (bf_reader body') (s_rem s) (s_fin s).
Proof.
  exists (dataset_ref []), (bs "a.json"), (mkSrc (bs "true") EOF []). do 3 eexists. split; [vm_compute; reflexivity|].
  intros H. specialize (H [1%nat] (Forall_cons _ (le_n _) (Forall_nil _))). cbn in H. destruct H as [H _]. discriminate.
Qed.
Print Assumptions detect_error_keeps_body_refuted.
(** The schema does not have to be that of the format of the structure: the name of the body decides. *)
Theorem detect_schema_of_format_refuted : exists d st name s d' st' m body',
  ds_structure d = Some st /\ st_format st = bs "json" /\ st_schema st = None /\
  detect (Some d) (Some (mkBody name (Plain s) None)) = Some (Ok tt, Some d', Some body') /\
  ds_structure d' = Some st' /\ st_format st' = bs "json" /\ st_schema st' = Some m /\
  forall cfg, ~ guess_of Z dec_float (fun s => s) (class dec_ok) int64_text (s_rem s) (s_fin s) (bs "json") cfg m.
Proof.
  set (st := mkStructure [] [] 0 [] 0 0 (bs "json") None 0 [] [] None false).
  exists (with_structure (dataset_ref []) (Some st)), st, (bs "a.ndjson"), (mkSrc (bs "{}") EOF []). do 4 eexists.
  split; [reflexivity|]. split; [reflexivity|]. split; [reflexivity|]. split; [vm_compute; reflexivity|]. split; [reflexivity|]. split; [reflexivity|]. split; [reflexivity|].
  intros cfg H. inversion H as [m J E1 E2 E3| | | |]; subst.
  inversion J as [[w [r [E [Hw Hc]]]] Em| | |]. cbn [s_rem] in E.
  destruct w as [|x w]; [discriminate|]. injection E as <- E. inversion Hw as [|? ? Hx]; subst. destruct Hx as [X|[X|[X|X]]]; discriminate.
Qed.
Print Assumptions detect_schema_of_format_refuted.

(** ** Examples *)
Example json_detected_ex : json_schema (mkSrc (bs "  [1]") EOF [(1%nat, false)]) = (Err err_bad_json, 2%Z, mkSrc (bs "[1]") EOF []) /\
  json_schema (mkSrc (bs "  [1]") EOF []) = (Ok (type_only (bs "array")), 5%Z, mkSrc [] EOF []) /\
  opens_with (bs "  [1]") 91.
Proof.
  split; [vm_compute; reflexivity|]. split; [vm_compute; reflexivity|]. exists (bs "  "), (bs "1]"). split; [reflexivity|]. split; [repeat constructor|].
  intros [X|[X|[X|X]]]; discriminate.
Qed.
Example cbor_detected_ex : fst (cbor_schema (mkSrc [161; 97; 120; 1]%N EOF [])) = (Ok (type_only (bs "object")), 1%Z).
Proof. vm_compute. reflexivity. Qed.
Example csv_detected_ex : fst (fst (csv_schema Z dec_float dec_ok 10 (fun s => s) (mkSrc (bs "name,age
ann,3
bob,x
cy,4,5
di,6") EOF []))) = (Ok (csv_doc [JObj [(bs "title", JStr (bs "name")); (bs "type", JStr (bs "string"))];
                          JObj [(bs "title", JStr (bs "age")); (bs "type", JStr (bs "integer"))]]), 32%Z) /\
  snd (csv_schema Z dec_float dec_ok 10 (fun s => s) (mkSrc (bs "name,age
ann,3
cy,4,5
") EOF [])) = Some (csv_config true true).
Proof. split; vm_compute; reflexivity. Qed.
Example csv_no_header_ex : fst (fst (fst (csv_schema Z dec_float dec_ok 10 (fun s => s) (mkSrc (bs "a,1
b,2
") EOF [(0, false); (2, false)]%nat)))) = Ok (csv_doc [JObj [(bs "title", JStr (bs "field_1")); (bs "type", JStr (bs "string"))];
                          JObj [(bs "title", JStr (bs "field_2")); (bs "type", JStr (bs "integer"))]]).
Proof. vm_compute. reflexivity. Qed.
Example detect_reading_ex : exists d' body' st',
  detect (Some (with_structure (dataset_ref (bs "p")) (Some (mkStructure (bs "sum") [] 0 [] 0 3 [] None 0 [] [] None true))))
    (Some (mkBody (bs "a.cbor.gz") (Plain (mkSrc [128; 7]%N EOF [])) (Some 2%Z))) = Some (Ok tt, Some d', Some body') /\
  ds_path d' = bs "p" /\ ds_structure d' = Some st' /\ st_format st' = bs "cbor" /\ st_compression st' = bs "gzip" /\ st_checksum st' = bs "sum" /\
  st_entries st' = 3%Z /\ st_strict st' = true /\ st_schema st' = Some (type_only (bs "array")) /\ enough st' /\
  drained [1; 5; 1]%nat (bf_reader body') = ([128; 7]%N, Some EOF) /\ bf_size body' = Some 2%Z.
Proof.
  do 3 eexists. split; [vm_compute; reflexivity|]. repeat split; try reflexivity; try discriminate. intros [X|X]; discriminate.
Qed.
Example table_schema_columns_ex : exists sch, tabular_schema Z (VArr [VArr [VInt 1; VStr (bs "x"); VNil]; VNil]) = Ok sch /\
  columns_from_schema (fun m => rev m) sch = Ok ([mkCol (bs "col_0") [bs "number"] [] []; mkCol (bs "col_1") [bs "string"] [] []; mkCol (bs "col_2") [bs "null"] [] []], []).
Proof. eexists. split; reflexivity. Qed.
