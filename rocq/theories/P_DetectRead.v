(** C81: bodies whose structure was detected can be read, and which cannot. *)
From Coq Require Import ZArith Lia Permutation.
From Verif Require Import Base M_Decimal M_Bufio L_Bufio M_Utf8 M_Doc M_Components M_Float M_Json M_JsonWrite S_JsonText L_JsonRead M_Cbor S_Cbor L_Cbor P_Cbor
  M_Tabular S_Tabular P_Tabular M_CsvText M_Csv S_Csv S_CsvCells S_NDJson L_NDJson M_NDJson M_Xlsx S_Xlsx M_Formats M_Stream S_Stream L_Stream M_Convert S_Convert S_ConvertCsv L_CsvSpec L_CsvBack L_Convert P_Convert
  M_Stats S_Stats M_Calculate S_Calculate L_Calculate P_Calculate M_Vals S_Vals P_Vals M_Detect S_Detect L_Detect L_DetectJson L_DetectCsv P_Detect M_DetectRead S_DetectRead.
From Verif Require P_Csv P_Formats.

(** ** Tables, when white space before a cell is left out *)
Lemma begins_app_char : forall f c X, unspaced f -> c = 44%N \/ c = 10%N \/ c = 34%N -> unspaced (f ++ c :: X).
Proof.
  intros f c X Hf Hc b Hb [r E]. specialize (Hf b Hb).
  assert (G : (exists x, f = encode_rune b ++ x) \/ exists p q, encode_rune b = p ++ c :: q).
  { clear Hf. revert E. generalize (encode_rune b). intros e. revert f. induction e as [|y e IH]; intros f E; [left; exists f; reflexivity|].
    destruct f as [|z f]; cbn [app] in E; injection E as -> E; [right; exists [], e; reflexivity|].
    destruct (IH f E) as [[x ->]|[p [q ->]]]; [left; exists x; reflexivity|right; exists (y :: p), q; reflexivity]. }
  destruct G as [[x ->]|[p [q G]]]; [apply Hf; exists x; reflexivity|].
  assert (I : In c (encode_rune b)) by (rewrite G; apply in_elt). clear G p q.
  unfold blanks in Hb. repeat (destruct Hb as [<-|Hb]; [cbv in I; intuition (subst; discriminate)|]). destruct Hb.
Qed.
Lemma quote_unspaced : forall X, unspaced (34%N :: X).
Proof. intros X. apply (begins_app_char [] 34 X); [intros b Hb [r E]; unfold blanks in Hb; repeat (destruct Hb as [<-|Hb]; [discriminate E|]); destruct Hb|auto]. Qed.
Lemma unspaced_skips : forall T, unspaced T -> skips true T T.
Proof. intros T H. exists []. split; [reflexivity|]. split; [exists []; split; [constructor|reflexivity]|assumption]. Qed.
Lemma line_unspaced : forall fs t, line_text [44%N] fs t -> fs <> [] -> Forall unspaced fs -> forall r, unspaced (t ++ 10%N :: r).
Proof.
  intros fs t H Hn HU r. destruct H as [|f t W|f t fs u Hfs W L]; [congruence| |]; inversion HU as [|? ? U1 U2]; subst.
  - destruct W as [f _ _ _ _|f _]; [apply begins_app_char; auto|apply quote_unspaced].
  - rewrite <- app_assoc. destruct W as [f _ _ _ _|f _]; [apply begins_app_char; auto|apply quote_unspaced].
Qed.
Lemma line_cells_trim : forall fs t, line_text [44%N] fs t -> fs <> [] -> Forall unspaced fs -> forall r, cells true true [44%N] EOF (t ++ 10%N :: r) fs None r.
Proof.
  induction 1 as [|f t W|f t fs u Hn W L IH]; intros Hfs HU r; [congruence| |]; inversion HU as [|? ? U1 U2]; subst.
  - destruct W as [f H1 H2 H3 H4|f Hf].
    + apply c_last. apply plain_cell; assumption.
    + cbn [app]. rewrite <- app_assoc. cbn [app]. apply c_quoted. apply doubled_quoted. right. left. eexists. reflexivity.
  - specialize (IH Hn U2 r). pose proof (unspaced_skips _ (line_unspaced fs u L Hn U2 r)) as K. destruct W as [f H1 H2 H3 H4|f Hf].
    + rewrite <- !app_assoc. eapply c_next; [|exact K|exact IH]. apply plain_cell; assumption.
    + rewrite <- !app_assoc. cbn [app]. rewrite <- app_assoc. cbn [app]. eapply c_quoted_next; [|exact K|exact IH].
      apply (doubled_quoted true 44 [] f ([44%N] ++ u ++ 10%N :: r)). right. right. eexists. reflexivity.
Qed.
Lemma table_answers_trim : forall rows T, table_text [44%N] rows T -> Forall (Forall unspaced) rows -> forall k, answers true true [44%N] EOF (-1) T (map Row (full_rows rows) ++ repeat End k).
Proof.
  induction 1 as [|fs t rows u L H IH]; intros HU k.
  - cbn [full_rows filter map app]. induction k as [|k IHk]; [constructor|]. cbn [repeat]. apply an_end with []; [constructor; reflexivity|assumption].
  - inversion HU as [|? ? U1 U2]; subst. specialize (IH U2 k). unfold full_rows. cbn [filter]. fold (full_rows rows).
    assert (C0 : ~ In 10%N [44%N]) by (intros [X|[]]; discriminate).
    pose proof (line_head 44 [] C0 _ _ L) as B. destruct (blank_row fs) eqn:E; cbn [negb].
    + subst t. cbn [app]. destruct IH; [constructor|eapply an_end|eapply an_flaw|eapply an_row|eapply an_count]; try (apply r_blank; eassumption); assumption.
    + destruct B as [B1 B2]. assert (Hfs : fs <> []) by (intros ->; discriminate). cbn [map app].
      eapply an_row; [|left; lia|exact IH].
      eapply r_cells; [intros [X _]; destruct t; discriminate|apply B2|apply unspaced_skips, (line_unspaced fs t L Hfs U1)|apply line_cells_trim; assumption].
Qed.

(** ** The answers of a table, and which of its rows are looked at *)
Lemma no_returns : forall rows rows', Forall (Forall (fun f => ~ In 13%N f)) rows -> Forall2 (Forall2 endings) rows rows' -> rows' = rows.
Proof.
  intros rows rows' H E. induction E as [|fs gs rows rows' E EE IH]; [reflexivity|]. inversion H as [|? ? H1 H2]; subst. f_equal; [|apply IH; assumption].
  clear -E H1. induction E as [|f g fs gs E EE IH]; [reflexivity|]. inversion H1; subst. f_equal; [apply endings_refl; assumption|auto].
Qed.
Lemma detected_answers : forall rows T t l, table_text [44%N] rows T -> Forall (Forall (fun f => ~ In 13%N f)) rows -> Forall (Forall unspaced) rows ->
  tidy EOF T t -> answers true true [44%N] EOF (-1) t l -> l = firstn (length l) (map Row (full_rows rows) ++ repeat End (length l)).
Proof.
  intros rows T t l HT Hcr HU Ht Ha. assert (C6 : ~ In 13%N [44%N]) by (intros [X|[]]; discriminate).
  destruct (tidy_table 44 [] C6 EOF rows T HT t Ht) as [rows' [R1 R2]]. rewrite (no_returns rows rows' Hcr R1) in R2.
  eapply (answers_fun true true 44 [] EOF); [ | | | exact Ha | apply answers_firstn, table_answers_trim; eassumption | ].
  1,2,3: cbn; intuition discriminate.
  rewrite firstn_length, app_length, repeat_length. lia.
Qed.
Lemma row_prefix : forall srows rest l1 l2 m, map Row srows ++ l1 = firstn m (map Row rest ++ repeat End l2) -> exists later, rest = srows ++ later /\ l1 = firstn (m - length srows) (map Row later ++ repeat End l2).
Proof.
  induction srows as [|r srows IH]; intros rest l1 l2 m E.
  - exists rest. rewrite Nat.sub_0_r. auto.
  - destruct m as [|m]; [discriminate|]. destruct rest as [|r' rest]; [destruct l2; discriminate|]. cbn [map app firstn] in E. injection E as -> E.
    destruct (IH _ _ _ _ E) as [later [-> E2]]. exists later. auto.
Qed.
Lemma sampled_looked : forall w l rows rest n m, sampled w l rows None -> l = firstn m (map Row rest ++ repeat End n) -> looked_at w rest rows.
Proof.
  intros w l rows rest n m H E. inversion H as [rows0 l0 Hle|rows0 row a l0 Hle Hw|]; subst.
  - apply row_prefix in H0. destruct H0 as [later [-> E]]. exists later. split; [reflexivity|]. left.
    destruct later as [|x later]; [reflexivity|]. destruct (m - length rows)%nat; discriminate.
  - apply row_prefix in H0. destruct H0 as [later [-> E]]. exists later. split; [reflexivity|]. right.
    rewrite filter_app, app_length. cbn [filter]. unfold fits at 2. rewrite Nat.eqb_refl. cbn [length]. unfold fits in *. lia.
Qed.
(** ** Columns of a detected schema *)
Lemma doc_fields : forall pf fields, doc_map pf (csv_doc fields) =
  [(bs "items", VMap [(bs "items", VArr (map (doc_value pf) fields)); (bs "type", VStr (bs "array"))]); (bs "type", VStr (bs "array"))].
Proof. reflexivity. Qed.
Lemma rule_types : forall (pf : bytes -> option N) (R : nat -> bytes -> Prop) fields k i cols ps, columns_rule i (map (doc_value pf) fields) cols ps ->
  (forall j d, nth_error fields j = Some d -> exists ty, R (k + j)%nat ty /\ forall i c ps, column_rule i (doc_value pf d) c ps -> c_type c = [ty]) ->
  exists types, Forall2 (fun cl t => exists ts, c_type cl = t :: ts) cols types /\ length types = length fields /\ forall j ty, nth_error types j = Some ty -> R (k + j)%nat ty.
Proof.
  intros pf R. induction fields as [|d fields IH]; intros k i cols ps H HQ; cbn [map] in H; inversion H as [|? ? ? c cs p q H1 H2]; subst.
  - exists []. split; [constructor|]. split; [reflexivity|]. intros [|j] ty X; discriminate.
  - destruct (HQ 0%nat d eq_refl) as [ty [HR HT]]. rewrite Nat.add_0_r in HR.
    destruct (IH (S k) _ _ _ H2) as [types [T1 [T2 T3]]].
    { intros j d' Hj. destruct (HQ (S j) d' Hj) as [ty' X]. exists ty'. rewrite Nat.add_succ_r in X. exact X. }
    exists (ty :: types). split; [constructor; [exists []; eapply HT; eassumption|assumption]|]. split; [cbn; lia|].
    intros [|j] ty' Hj; cbn [nth_error] in Hj; [injection Hj as <-; rewrite Nat.add_0_r; assumption|]. rewrite Nat.add_succ_r. apply (T3 j). assumption.
Qed.
Lemma field_types : forall pf looks title cells d, field_spec looks title cells d -> exists ty, read_type looks cells ty /\
  (forall i c ps, column_rule i (doc_value pf d) c ps -> c_type c = [ty]) /\ (forall m, doc_value pf d = VMap m -> sorted m).
Proof.
  intros pf looks title cells d H. destruct H as [title' t Hc Ht]. exists (match t with Some t => type_name t | None => bs "string" end).
  split; [exists t; auto|].
  set (m := map (fun kv => (fst kv, doc_value pf (snd kv))) (member (bs "title") (match title' with [] => None | _ => Some title' end) ++ member (bs "type") (option_map type_name t))).
  assert (G : map_get (bs "type") m = option_map (fun t => VStr (type_name t)) t).
  { subst m. destruct title'; destruct t; reflexivity. }
  split.
  - intros i c ps H. change (doc_value pf (JObj _)) with (@VMap N m) in H. inversion H as [f Hf|m0 c0 ps0 qs Q1 Q2 Q3 Q4 Q5 Q6 Q7]; subst; [exfalso; eapply Hf; reflexivity|].
    destruct Q2 as [[x [X1 ->]]|[[x [X1 _]]|[X1 [X2 ->]]]]; unfold S_Tabular.member in *; rewrite G in *.
    + destruct t; [injection X1 as ->; reflexivity|discriminate].
    + destruct t; discriminate.
    + destruct t; [exfalso; eapply X1; reflexivity|reflexivity].
  - intros m0 E. injection E as <-. fold m. subst m. destruct title'; destruct t; cbn; repeat constructor.
Qed.
Lemma detected_columns : forall pf order looks titles h X fields, (forall m : list (bytes * gval N), Permutation (order m) m) -> length fields = length h ->
  (forall i (s : bytes), nth_error h i = Some s -> exists cells d, column i X cells /\ field_spec looks (titles i s) cells d /\ nth_error fields i = Some d) ->
  exists cols ps types, columns_from_schema order (doc_map pf (csv_doc fields)) = Ok (cols, ps) /\ Forall2 (fun cl t => exists ts, c_type cl = t :: ts) cols types /\
    length types = length h /\ forall i ty, nth_error types i = Some ty -> exists cells, column i X cells /\ read_type looks cells ty.
Proof.
  intros pf order looks titles h X fields Ho HL HF.
  assert (HD : forall j d, nth_error fields j = Some d -> exists cells title, column j X cells /\ field_spec looks title cells d).
  { intros j d Hj. assert (L : (j < length h)%nat) by (rewrite <- HL; apply nth_error_Some; congruence). destruct (nth_error h j) as [s|] eqn:E; [|apply nth_error_None in E; lia].
    destruct (HF j s E) as [cells [d' [C1 [C2 C3]]]]. assert (d' = d) by congruence. subst. eauto. }
  destruct (columns_exact (F:=N) order (doc_map pf (csv_doc fields)) (map (doc_value pf) fields) Ho) as [cols [ps [E1 [E2 _]]]].
  - split; [reflexivity|]. eexists. split; reflexivity.
  - intros m Hm. apply in_map_iff in Hm. destruct Hm as [d [Ed Hd]]. apply In_nth_error in Hd. destruct Hd as [j Hj]. destruct (HD j d Hj) as [cells [title [_ C2]]].
    destruct (field_types pf _ _ _ _ C2) as [ty [_ [_ S3]]]. auto.
  - destruct (rule_types pf (fun j ty => exists cells, column j X cells /\ read_type looks cells ty) fields 0 _ _ _ E2) as [types [T1 [T2 T3]]].
    { intros j d Hj. destruct (HD j d Hj) as [cells [title [C1 C2]]]. destruct (field_types pf _ _ _ _ C2) as [ty [S1 [S2 _]]]. exists ty. split; [exists cells; auto|assumption]. }
    exists cols, ps, types. repeat split; try assumption. lia.
Qed.
(** ** What the configuration says *)
Lemma detected_says : forall pf b v, new_csv_options (option_map (doc_map pf) (Some (csv_config b v))) = Ok (mkCSV b true 0 v).
Proof. intros pf [|] [|]; reflexivity. Qed.
Section DetectRead.
  Variable parse_float : bytes -> option N.
  Variable depth : nat.
  Variable surrogate : bytes.
  Variable load : bytes -> res book.
  Variable sheet_key : bytes -> bytes.
  Variable order : jmap -> jmap.
  Variables size osize dsize : nat.
  Variable unpack : bytes -> src -> res src.
  Variable float32_ok : bytes -> bool.
  Variable var_name : bytes -> bytes.
  Hypothesis opos : (0 < osize)%nat.
  Hypothesis deep_enough : (4 <= depth)%nat.
  Hypothesis order_perm : forall m : jmap, Permutation (order m) m.
  Notation open := (new_entry_reader load sheet_key order size dsize unpack).
  Notation rstep := (read_step parse_float depth surrogate osize).
  Notation detect := (detect_structure N parse_float float32_ok depth var_name).
  Notation guess_of := (guess_of N parse_float var_name (class float32_ok) int64_text).
  Notation shape_of := (shape_of parse_float).
  Notation reads := (reads open rstep).
  Notation fails := (fails open rstep).
  Notation holds := (S_Calculate.holds parse_float depth order unpack load sheet_key).
  Notation broken := (S_Calculate.broken parse_float depth order unpack).

  Lemma holds_reads : forall sh T vs, (forall s, s_rem s = T -> s_fin s = EOF -> holds sh s vs) -> reads sh T vs.
  Proof.
    intros sh T vs H s Hr Hf.
    destruct (holds_yields parse_float depth surrogate load sheet_key order size osize dsize unpack (fun _ => 0%Z) (fun _ => []) opos sh s vs (H s Hr Hf)) as [f0 [es [E1 E2]]].
    exists f0, es. split; [assumption|]. intros fuel Hfu. destruct (E2 fuel Hfu) as [r [r' [X1 [X2 _]]]]. eauto.
  Qed.
  Lemma broken_fails : forall sh T, (forall s, s_rem s = T -> s_fin s = EOF -> broken sh s) -> fails sh T.
  Proof.
    intros sh T H s Hr Hf.
    destruct (broken_yields parse_float depth surrogate load sheet_key order size osize dsize unpack (fun _ => 0%Z) (fun _ => []) opos sh s (H s Hr Hf)) as [f0 E].
    exists f0. intros fuel Hfu. destruct (E fuel Hfu) as [r [es [e [r' [X1 [X2 [X3 _]]]]]]]. exists r, es, e, r'. repeat split; auto. intros ->. apply X3. reflexivity.
  Qed.
  Lemma unsaid_not_enough : forall o f, unsaid o f -> forall st, o = Some st -> ~ enough st.
  Proof. intros o f H st E [_ [X _]]. destruct (H st E) as [_ [_ [Y _]]]. contradiction. Qed.
  (** What detecting the structure of a dataset that says nothing gives. *)
  Lemma detected_shape : forall d name f comp s size d' b, format_from_filename name = (f, comp, Ok tt) -> unsaid (ds_structure d) (format_string f) ->
    detect (Some d) (Some (mkBody name (Plain s) size)) = Some (Ok tt, d', b) ->
    exists d1 st' b' cfg m, d' = Some d1 /\ b = Some b' /\ S_Detect.holds (bf_reader b') (s_rem s) (s_fin s) /\ ds_structure d1 = Some st' /\ guess_of (s_rem s) (s_fin s) (format_string f) cfg m /\
      shape_of st' = mkShape (format_string f) comp (Some (doc_map parse_float m)) (option_map (doc_map parse_float) cfg).
  Proof.
    intros d name f comp s sz d' b Hn Hu E.
    destruct (detect_reading N parse_float float32_ok depth var_name deep_enough d name s sz (unsaid_not_enough _ _ Hu)) as [x [d1 [b1 [E1 [_ R]]]]].
    rewrite E in E1. injection E1 as <- -> ->.
    destruct R as [[e [R _]]|[_ [_ [R0 [_ [f' [comp' [cfg [m [st' [R1 [R2 [R3 R4]]]]]]]]]]]]]; [discriminate|].
    rewrite Hn in R1. injection R1 as <- <-. exists d1, st', b1, cfg, m. split; [reflexivity|]. split; [reflexivity|]. split; [assumption|]. split; [assumption|]. split; [assumption|].
    unfold M_DetectRead.shape_of. destruct (ds_structure d) as [st|]; [|subst st'; reflexivity].
    destruct (Hu st eq_refl) as [U1 [U2 [U3 U4]]]. destruct R4 as [F1 [F2 [F3 [F4 _]]]]. cbn [bare_structure st_format st_compression st_schema st_format_config] in *.
    rewrite U2 in F2. rewrite U3 in F3. rewrite U4 in F4.
    assert (G1 : st_format st' = format_string f) by (destruct F1 as [[X ->]|[_ ->]]; [destruct U1; [contradiction|assumption]|reflexivity]).
    rewrite G1. destruct F2 as [[X _]|[_ ->]]; [contradiction|]. destruct F3 as [[m0 [X _]]|[_ ->]]; [discriminate|].
    destruct (F4 G1) as [[m0 [X _]]|[_ ->]]; [discriminate|]. reflexivity.
  Qed.
  Lemma opens_only : forall T a b, opens_with T a -> opens_with T b -> a = b.
  Proof.
    intros T a b [w [r [E [Hw Ha]]]] [w' [r' [E' [Hw' Hb]]]]. subst T. revert w' E' Hw'. induction Hw as [|x w Hx Hw IH]; intros w' E' Hw'.
    - destruct w' as [|y w']; cbn in E'; injection E' as -> E'; [reflexivity|]. inversion Hw'; subst. contradiction.
    - destruct w' as [|y w']; cbn in E'; injection E' as -> E'; [contradiction|]. inversion Hw'; subst. apply (IH w' E'). assumption.
  Qed.
  Lemma blank_opens : forall w c r, blank w -> ~ json_blank c -> opens_with (w ++ c :: r) c.
  Proof. intros w c r H Hc. exists w, r. split; [reflexivity|]. split; [|assumption]. eapply Forall_impl; [|exact H]. unfold json_blank. cbn. intuition. Qed.
  Lemma head_kind : forall (n : N) (major : N), (major < 8)%N -> exists c r, cbor_head major n = c :: r /\ (c / 32 = major)%N.
  Proof.
    intros n major Hm. unfold cbor_head. repeat match goal with |- context [if ?c then _ else _] => destruct c eqn:? end; do 2 eexists; (split; [reflexivity|]).
    all: rewrite ?N.ltb_lt in *; try (rewrite N.div_add_l by lia; rewrite N.div_small by lia; lia).
  Qed.

  (** ** C81: documents that are no tables *)
  (** Detecting the structure of a dataset without one makes the body readable: any reader of those bytes with the new
      structure gives the values of the document and then the end. *)
  Theorem detected_read : forall d name f s size d' b vs, format_from_filename name = (f, [], Ok tt) -> unsaid (ds_structure d) (format_string f) -> s_fin s = EOF ->
    document parse_float depth (format_string f) (s_rem s) vs -> detect (Some d) (Some (mkBody name (Plain s) size)) = Some (Ok tt, d', b) ->
    exists d1 st' b', d' = Some d1 /\ ds_structure d1 = Some st' /\ b = Some b' /\ S_Detect.holds (bf_reader b') (s_rem s) EOF /\ reads (shape_of st') (s_rem s) vs.
  Proof.
    intros d name f s sz d' b vs Hn Hu Hf Hd E. destruct (detected_shape d name f [] s sz d' b Hn Hu E) as [d1 [st' [b' [cfg [m [E1 [E2 [E3 [E4 [G ES]]]]]]]]]].
    rewrite Hf in *. exists d1, st', b'. repeat split; try assumption. rewrite ES. clear E ES E1 E2 E3 E4 Hu Hn.
    generalize dependent (s_rem s). generalize dependent (format_string f). clear -opos deep_enough. intros F T Hd G. apply holds_reads. intros s' Hr' Hf'.
    assert (W : whole unpack [] s' T) by (left; auto). assert (C : content unpack [] s' T) by (left; auto). clear Hr' Hf'.
    destruct Hd as [vs T J|kvs T J|vs W1 W2 W3|m0 W1 W2 W3|lines vs W1 W2]; inversion G as [m' K|m' K| | |]; subst.
    - eapply ho_json; [|exact C|exact J]. split; [reflexivity|]. eexists. split; [reflexivity|].
      assert (O : opens_with T 91) by (destruct J; (apply blank_opens; [assumption|intros [X|[X|[X|X]]]; discriminate])).
      inversion K as [O' Em|O' Em| |]; subst; [reflexivity|]. discriminate (opens_only _ _ _ O O').
    - eapply ho_json_object; [|exact C|exact J]. split; [reflexivity|]. eexists. split; [reflexivity|].
      assert (O : opens_with T 123) by (destruct J; (apply blank_opens; [assumption|intros [X|[X|[X|X]]]; discriminate])).
      inversion K as [O' Em|O' Em| |]; subst; [|reflexivity]. discriminate (opens_only _ _ _ O O').
    - apply ho_cbor; try assumption. split; [reflexivity|]. eexists. split; [reflexivity|].
      destruct (head_kind (N.of_nat (length vs)) 4 eq_refl) as [c [r [H1 H2]]]. cbn [cbor_encode] in K. rewrite H1 in K. cbn [app] in K.
      inversion K as [c' r' H3 Ec Em|c' r' H3 Ec Em| |]; subst; [reflexivity|]. rewrite H2 in H3. discriminate.
    - apply ho_cbor_object; try assumption. split; [reflexivity|]. eexists. split; [reflexivity|].
      destruct (head_kind (N.of_nat (length m0)) 5 eq_refl) as [c [r [H1 H2]]]. cbn [cbor_encode] in K. rewrite H1 in K. cbn [app] in K.
      inversion K as [c' r' H3 Ec Em|c' r' H3 Ec Em| |]; subst; [|reflexivity]. rewrite H2 in H3. discriminate.
    - eapply ho_lines; try eassumption. split; [reflexivity|]. eexists. split; reflexivity.
  Qed.

  (** ** C81: tables *)
  Lemma detect_ok : forall d name f comp s size m n s' cfg, format_from_filename name = (f, comp, Ok tt) -> unsaid (ds_structure d) (format_string f) ->
    schema N parse_float float32_ok depth var_name (mkStructure [] comp 0 [] 0 0 (format_string f) None 0 [] [] None false) s = ((Ok m, n, s'), cfg) ->
    exists d' b, detect (Some d) (Some (mkBody name (Plain s) size)) = Some (Ok tt, d', b).
  Proof.
    intros d name f comp s sz m n s' cfg Hn Hu E. unfold M_Detect.detect_structure.
    replace (settled (ds_structure d)) with false.
    2: { symmetry. destruct (ds_structure d) as [st|] eqn:Ed; [|reflexivity]. destruct (Hu st eq_refl) as [_ [_ [U _]]]. unfold settled. rewrite U. cbn. rewrite andb_false_r. reflexivity. }
    cbn [bf_name bf_reader]. rewrite Hn. unfold from_reader. rewrite E. eauto.
  Qed.
  Lemma counted_any : forall rows, counted (-1) rows = map Row (full_rows rows).
  Proof. induction rows as [|r rows IH]; [reflexivity|]. cbn [counted full_rows filter]. destruct (blank_row r); cbn [negb]; [exact IH|]. cbn [map]. f_equal. exact IH. Qed.
  Lemma counted_width : forall w rows, (0 < w)%Z -> counted w rows = map (fun r => if (w =? Z.of_nat (length r))%Z then Row r else Count) (full_rows rows).
  Proof.
    intros w rows Hw. induction rows as [|r rows IH]; [reflexivity|]. cbn [counted full_rows filter]. destruct (blank_row r); cbn [negb]; [exact IH|].
    cbn [map]. replace (w =? 0)%Z with false by lia. replace (w <=? 0)%Z with false by lia. cbn [orb]. f_equal. exact IH.
  Qed.
  Lemma full_length : forall rows r, In r (full_rows rows) -> (0 < length r)%nat.
  Proof. intros rows r H. apply filter_In in H. destruct H as [_ H]. destruct r; [discriminate|cbn; lia]. Qed.
  Lemma counted_first : forall rows h rest, full_rows rows = h :: rest ->
    counted 0 rows = Row h :: map (fun r => if fits (length h) r then Row r else Count) rest.
  Proof.
    induction rows as [|r rows IH]; intros h rest E; [discriminate|]. cbn [counted]. cbn [full_rows filter] in E. destruct (blank_row r) eqn:B; cbn [negb] in E; [apply IH; exact E|].
    injection E as -> E. cbn [Z.leb Z.compare orb Z.eqb]. rewrite counted_width by (destruct h; [discriminate|cbn [length]; lia]). fold (full_rows rows) in E. rewrite E. f_equal.
    apply map_ext. intros a. unfold fits. replace (Z.of_nat (length h) =? Z.of_nat (length a))%Z with (length a =? length h)%nat; [reflexivity|].
    destruct (Nat.eqb_spec (length a) (length h)); destruct (Z.eqb_spec (Z.of_nat (length h)) (Z.of_nat (length a))); auto; lia.
  Qed.
  Lemma rows_all_fit : forall w rest, Forall (fun r => fits w r = true) rest -> map (fun r => if fits w r then Row r else Count) rest = map Row rest.
  Proof. intros w rest H. induction H as [|r rest Hr H IH]; [reflexivity|]. cbn [map]. now rewrite Hr, IH. Qed.
  Lemma rows_misfit : forall w rest data, Exists (fun r => fits w r = false) rest -> map (fun r => if fits w r then Row r else Count) rest <> map Row data.
  Proof.
    intros w rest data H E. revert data E. induction H as [r rest Hr|r rest H IH]; intros [|x data] E; try discriminate; cbn [map] in E.
    - rewrite Hr in E. discriminate.
    - injection E as _ E. exact (IH _ E).
  Qed.
  Lemma header_cells : forall types rows, exists vss, Forall2 (row_value N parse_float depth types) rows vss.
  Proof. intros types rows. induction rows as [|r rows [vss IH]]; [exists []; constructor|]. exists (decode N parse_float depth types r :: vss). constructor; [apply P_Csv.csv_row; reflexivity|assumption]. Qed.

  (** A table of cells without CR that do not begin with white space, with at least one row that is no empty line.
      Detection succeeds.  The first row is taken as titles if its cells look like names; a column has the type that most
      of the cells looked at have.  The rows are read with these types if all have as many cells as the first, or one
      without was looked at; otherwise reading fails. *)
  Theorem detected_table : forall d name s size rows h rest, format_from_filename name = (fCSV, [], Ok tt) -> unsaid (ds_structure d) (bs "csv") -> s_fin s = EOF ->
    table_text [44%N] rows (s_rem s) -> Forall (Forall (fun f => ~ In 13%N f)) rows -> Forall (Forall unspaced) rows -> full_rows rows = h :: rest ->
    exists d1 st' b' header sample types, detect (Some d) (Some (mkBody name (Plain s) size)) = Some (Ok tt, Some d1, Some b') /\
      ds_structure d1 = Some st' /\ S_Detect.holds (bf_reader b') (s_rem s) EOF /\ header_guess N parse_float int64_text h header /\ looked_at (length h) rest sample /\ length types = length h /\
      (forall i ty, nth_error types i = Some ty -> exists cells, S_Detect.column i ((if header then [] else [h]) ++ filter (fits (length h)) sample) cells /\ read_type (class float32_ok) cells ty) /\
      (Forall (fun r => length r = length h) rest \/ Exists (fun r => length r <> length h) sample ->
         exists vss, Forall2 (row_value N parse_float depth types) (if header then rest else h :: rest) vss /\ reads (shape_of st') (s_rem s) (map VArr vss)) /\
      (Exists (fun r => length r <> length h) rest -> Forall (fun r => length r = length h) sample -> fails (shape_of st') (s_rem s)).
  Proof.
    intros d name s sz rows h rest Hn Hu Hf HT Hcr HU HR.
    destruct (csv_detected N parse_float float32_ok depth var_name deep_enough s) as [t0 [l0 [y [n [s' [cfg0 [E0 [B0 [C0 [D0 _]]]]]]]]]]. rewrite Hf in *.
    assert (Hok : exists m, y = Ok m).
    { pose proof (detected_answers rows (s_rem s) t0 l0 HT Hcr HU B0 C0) as L. rewrite HR in L.
      assert (X : forall f, ~ In (Flaw f) l0).
      { intros f I. assert (J : In (Flaw f) (map Row (h :: rest) ++ repeat End (length l0))).
        { rewrite L in I. rewrite <- (firstn_skipn (length l0) (map Row (h :: rest) ++ repeat End (length l0))). apply in_or_app. left. exact I. }
        apply in_app_or in J. destruct J as [J|J]; [apply in_map_iff in J; destruct J as [? [J _]]; discriminate|apply repeat_spec in J; discriminate]. }
      destruct D0 as [l|e l|h0 l b r0 f D1 D2|h0 l b r0 fields D1 D2 D3 D4]; [| | |eauto].
      - exfalso. cbn [length firstn map app] in L. discriminate.
      - exfalso. apply (X (Source e)). left. reflexivity.
      - exfalso. inversion D2; subst; eapply X; right; apply in_or_app; right; left; reflexivity. }
    destruct Hok as [m0 ->]. clear B0 C0 D0.
    destruct (detect_ok d name fCSV [] s sz m0 (Z.of_nat n) s' (Some cfg0) Hn Hu E0) as [d' [b E]].
    destruct (detected_shape d name fCSV [] s sz d' b Hn Hu E) as [d1 [st' [b' [cfg [m [-> [-> [Hb [Hst [G ES]]]]]]]]]]. rewrite Hf in *.
    change (format_string fCSV) with (bs "csv") in *.
    inversion G as [| | | |t l m' cfg' B C D Eq1 Eq2 Eq3]; subst. clear G E0.
    pose proof (detected_answers rows (s_rem s) t l HT Hcr HU B C) as L. rewrite HR in L.
    remember (Ok m) as y eqn:Ey. destruct D as [l|e l|h0 l hd r0 f D1 D2|h0 l hd sample fields D1 D2 D3 D4]; try discriminate. injection Ey as <-.
    cbn [length firstn map app] in L. injection L as -> L. change (End :: repeat End (length l)) with (repeat End (S (length l))) in L. pose proof (sampled_looked _ _ _ _ _ _ D2 L) as HL.
    destruct (detected_columns parse_float order (class float32_ok) (fun i s => titled var_name hd i s) h _ fields order_perm D3 D4) as [cols [ps [types [K1 [K2 [K3 K4]]]]]].
    set (vr := existsb (fun r => negb (fits (length h) r)) sample) in *.
    assert (TS : table_shape order (shape_of st') cols types).
    { rewrite ES. split; [reflexivity|]. split; [exists ps; exact K1|exact K2]. }
    assert (SY : S_ConvertCsv.says (shape_of st') = mkCSV hd true 0 vr) by (rewrite ES; unfold S_ConvertCsv.says; cbn [sh_config]; rewrite detected_says; reflexivity).
    assert (SC : separator (shape_of st') = 44%N) by (unfold separator; rewrite SY; reflexivity).
    assert (CM : sh_compression (shape_of st') = []) by (rewrite ES; reflexivity).
    assert (DA : data_answers (shape_of st') rows = (if hd then @tl answer else fun x => x) (if vr then map Row (h :: rest) else Row h :: map (fun r => if fits (length h) r then Row r else Count) rest)).
    { unfold data_answers. rewrite SY. cbn [csv_variadic csv_header]. destruct vr; [rewrite counted_any, HR|rewrite (counted_first _ _ _ HR)]; destruct hd; reflexivity. }
    exists d1, st', b', hd, sample, types. split; [assumption|]. split; [assumption|]. split; [assumption|]. split; [assumption|]. split; [assumption|]. split; [assumption|]. split; [assumption|]. split.
    - intros HX. assert (DR : data_answers (shape_of st') rows = map Row (if hd then rest else h :: rest)).
      { rewrite DA. destruct vr eqn:EV; [destruct hd; reflexivity|]. assert (A : Forall (fun r => fits (length h) r = true) rest).
        { destruct HX as [HX|HX]; [eapply Forall_impl; [|exact HX]; intros r Hr; unfold fits; apply Nat.eqb_eq; exact Hr|].
          exfalso. apply Exists_exists in HX. destruct HX as [r [I1 I2]]. subst vr. assert (X : existsb (fun r => negb (fits (length h) r)) sample = true); [|congruence].
          apply existsb_exists. exists r. split; [assumption|]. unfold fits. apply Nat.eqb_neq in I2. rewrite I2. reflexivity. }
        rewrite (rows_all_fit _ _ A). destruct hd; reflexivity. }
      destruct (header_cells types (if hd then rest else h :: rest)) as [vss V]. exists vss. split; [assumption|]. apply holds_reads. intros s1 S1 S2.
      eapply ho_table; [exact TS|rewrite SC; reflexivity|rewrite CM; left; eauto|rewrite SC; exact HT|exact Hcr|exact DR|exact V].
    - intros HX HS. apply broken_fails. intros s1 S1 S2. eapply br_table; [exact TS|rewrite SC; reflexivity|rewrite CM; left; eauto|rewrite SC; exact HT|exact Hcr|].
      intros data. rewrite DA. assert (EV : vr = false).
      { destruct vr eqn:EV; [|reflexivity]. subst vr. apply existsb_exists in EV. destruct EV as [r [I1 I2]]. rewrite Forall_forall in HS. specialize (HS r I1). unfold fits in I2. apply Nat.eqb_eq in HS. rewrite HS in I2. discriminate. }
      rewrite EV. assert (HE : Exists (fun r => fits (length h) r = false) rest) by (eapply Exists_impl; [|exact HX]; intros r Hr; apply Nat.eqb_neq; exact Hr).
      destruct hd; cbn [tl]; [apply rows_misfit; assumption|]. intros X. destruct data as [|x data]; [discriminate|]. cbn [map] in X. injection X as _ X. exact (rows_misfit _ _ _ HE X).
  Qed.

  (** ** C81: which bodies have a structure that can be detected *)
  (** Documents of CBOR and of lines always have one; a JSON document has one if the first read gives 100 bytes or more
      than blanks. *)
  Theorem detected_always : forall d name f s size vs, format_from_filename name = (f, [], Ok tt) -> unsaid (ds_structure d) (format_string f) -> s_fin s = EOF ->
    document parse_float depth (format_string f) (s_rem s) vs ->
    (f = fJSON -> forall b e s1, src_read 100 s = (b, e, s1) -> length b = 100%nat \/ Exists (fun c => ~ json_blank c) b) ->
    exists d' b, detect (Some d) (Some (mkBody name (Plain s) size)) = Some (Ok tt, d', b).
  Proof.
    intros d name f s sz vs Hn Hu Hf Hd HJ.
    assert (If : In f (map snd ext_formats)).
    { unfold format_from_filename in Hn. destruct (match parse_compression _ with Some c => _ | None => _ end) as [c ext].
      destruct (alookup beqb ext ext_formats) as [f0|] eqn:EA; [|discriminate]. injection Hn as -> _. apply P_Formats.alookup_In in EA; [|intros a b; apply beqb_eq]. apply (in_map snd) in EA. exact EA. }
    cbn in If. destruct If as [<-|[<-|[<-|[<-|[<-|[<-|[<-|[]]]]]]]].
    - destruct (cbor_schema s) as [[r n] s'] eqn:E. destruct (cbor_detected s r n s' E) as [K [_ _]].
      assert (Hm : exists m, r = Ok m).
      { generalize dependent (s_rem s). intros T Hd K. inversion Hd as [| |vs0 W1 W2 W3 EF ET EV|m0 W1 W2 W3 EF ET EV|]; subst.
        - destruct (head_kind (N.of_nat (length vs)) 4 eq_refl) as [c [q [H1 H2]]]. cbn [cbor_encode] in K. rewrite H1 in K. cbn [app] in K. inversion K; subst; eauto; contradiction.
        - destruct (head_kind (N.of_nat (length m0)) 5 eq_refl) as [c [q [H1 H2]]]. cbn [cbor_encode] in K. rewrite H1 in K. cbn [app] in K. inversion K; subst; eauto; contradiction. }
      destruct Hm as [m ->]. eapply detect_ok; [exact Hn|exact Hu|]. unfold schema. cbn [st_format]. change (structure_data_format (format_string fCBOR)) with fCBOR.
      cbn [Z.eqb Pos.eqb fUnknown fCBOR]. rewrite E. reflexivity.
    - destruct (json_schema s) as [[r n] s'] eqn:E. destruct (json_detected s r n s' E) as [_ [_ [K _]]].
      destruct (src_read 100 s) as [[b e] s1] eqn:ER. specialize (K b e s1 eq_refl Hf (HJ eq_refl b e s1 eq_refl)).
      assert (Hm : exists m, r = Ok m).
      { assert (O : opens_with (s_rem s) 91 \/ opens_with (s_rem s) 123).
        { generalize dependent (s_rem s). intros T Hd K. inversion Hd as [vs0 T0 J EF ET EV|kvs T0 J EF ET EV| | |]; subst; [left|right]; destruct J;
            (apply blank_opens; [assumption|intros [X|[X|[X|X]]]; discriminate]). }
        destruct K as [K|K|c e0 K N1 N2|e0 K]; eauto; exfalso.
        - destruct O as [O|O]; pose proof (opens_only _ _ _ O K); congruence.
        - destruct O as [[w [q [E0 [_ Hc]]]]|[w [q [E0 [_ Hc]]]]]; rewrite E0 in K; apply Forall_app in K; destruct K as [_ K]; inversion K; contradiction. }
      destruct Hm as [m ->]. eapply detect_ok; [exact Hn|exact Hu|]. unfold schema. cbn [st_format]. change (structure_data_format (format_string fJSON)) with fJSON.
      cbn [Z.eqb Pos.eqb fUnknown fCBOR fJSON]. rewrite E. reflexivity.
    - change (format_string fCSV) with (bs "csv") in Hd. inversion Hd.
    - change (format_string fXML) with (bs "xml") in Hd. inversion Hd.
    - change (format_string fXLSX) with (bs "xlsx") in Hd. inversion Hd.
    - eapply detect_ok; [exact Hn|exact Hu|]. reflexivity.
    - eapply detect_ok; [exact Hn|exact Hu|]. reflexivity.
  Qed.
  (** A compressed body of lines can be read after detection, for nothing of it is looked at. *)
  Theorem detected_packed_lines : forall d name comp s size d' b lines vs, format_from_filename name = (fNDJSON, comp, Ok tt) -> unsaid (ds_structure d) (bs "ndjson") ->
    Forall line lines -> Forall2 (fun v l => sline N parse_float depth v (l ++ [10%N])) vs lines ->
    detect (Some d) (Some (mkBody name (Plain s) size)) = Some (Ok tt, d', b) ->
    exists d1 st', d' = Some d1 /\ ds_structure d1 = Some st' /\ forall s1, whole unpack comp s1 (stream lines []) ->
      exists f0 es, map e_val es = vs /\ forall fuel, (f0 <= fuel)%nat -> exists r r', open (shape_of st') s1 = Ok r /\ yields (rstep fuel) r es EOF r'.
  Proof.
    intros d name comp s sz d' b lines vs Hn Hu HL HS E. destruct (detected_shape d name fNDJSON comp s sz d' b Hn Hu E) as [d1 [st' [b' [cfg [m [-> [_ [_ [Hst [G ES]]]]]]]]]].
    exists d1, st'. split; [reflexivity|]. split; [assumption|]. intros s1 W. rewrite ES.
    change (format_string fNDJSON) with (bs "ndjson") in G |- *. inversion G; subst.
    destruct (holds_yields parse_float depth surrogate load sheet_key order size osize dsize unpack (fun _ => 0%Z) (fun _ => []) opos
      (mkShape (bs "ndjson") comp (Some (doc_map parse_float (type_only (bs "array")))) (option_map (doc_map parse_float) None)) s1 vs) as [f0 [es [E1 E2]]].
    { eapply ho_lines; [split; [reflexivity|eexists; split; reflexivity]|exact W|exact HL|exact HS]. }
    exists f0, es. split; [assumption|]. intros fuel Hfu. destruct (E2 fuel Hfu) as [r [r' [X1 [X2 _]]]]. eauto.
  Qed.
  (** A compressed body of JSON or CBOR is refused: its first byte, 31 for gzip and 40 for zstandard, opens no array or object. *)
  Theorem packed_refused : forall d name f comp s size c r, format_from_filename name = (f, comp, Ok tt) -> f = fJSON \/ f = fCBOR -> unsaid (ds_structure d) (format_string f) ->
    s_rem s = c :: r -> c = 31%N \/ c = 40%N -> exists e b, detect (Some d) (Some (mkBody name (Plain s) size)) = Some (Err e, Some d, b).
  Proof.
    intros d name f comp s sz c r Hn Hff Hu Hs Hc.
    destruct (detect_reading N parse_float float32_ok depth var_name deep_enough d name s sz (unsaid_not_enough _ _ Hu)) as [x [d1 [b1 [E1 [_ R]]]]].
    destruct R as [[e [-> [-> _]]]|[-> [_ [_ [_ [f' [comp' [cfg [m [st' [R1 [R2 _]]]]]]]]]]]]; [eauto|]. exfalso.
    rewrite Hn in R1. injection R1 as <- <-. rewrite Hs in R2. destruct Hff as [-> | ->].
    - change (format_string fJSON) with (bs "json") in R2. inversion R2 as [m' K| | | |]; subst.
      assert (O : opens_with (c :: r) c) by (exists [], r; split; [reflexivity|]; split; [constructor|]; destruct Hc as [-> | ->]; intros [X|[X|[X|X]]]; discriminate).
      inversion K as [O' Em|O' Em| |]; pose proof (opens_only _ _ _ O O'); destruct Hc; subst; discriminate.
    - change (format_string fCBOR) with (bs "cbor") in R2. inversion R2 as [|m' K| | |]; subst.
      inversion K as [c' r' H3 Ec Em|c' r' H3 Ec Em| |]; destruct Hc; subst; discriminate.
  Qed.
  (** A spreadsheet cannot be read after detection, whatever it holds: the detected schema has no columns. *)
  Theorem detected_book_unreadable : forall d name comp s size d' b, format_from_filename name = (fXLSX, comp, Ok tt) -> unsaid (ds_structure d) (bs "xlsx") ->
    detect (Some d) (Some (mkBody name (Plain s) size)) = Some (Ok tt, d', b) ->
    exists d1 st', d' = Some d1 /\ ds_structure d1 = Some st' /\ forall s1, exists e, open (shape_of st') s1 = Err e.
  Proof.
    intros d name comp s sz d' b Hn Hu E. destruct (detected_shape d name fXLSX comp s sz d' b Hn Hu E) as [d1 [st' [b' [cfg [m [-> [_ [_ [Hst [G ES]]]]]]]]]].
    exists d1, st'. split; [reflexivity|]. split; [assumption|]. intros s1. rewrite ES.
    change (format_string fXLSX) with (bs "xlsx") in G |- *. inversion G; subst. unfold new_entry_reader. cbn [sh_format].
    change (structure_data_format (bs "xlsx")) with fXLSX. cbn [Z.eqb Pos.eqb fCBOR fJSON fCSV fXLSX]. unfold open_xlsx, new_xlsx_reader. cbn [sh_compression sh_schema some_map].
    destruct (s_fin s1); destruct comp; eexists; reflexivity.
  Qed.
End DetectRead.
Print Assumptions detected_read.
Print Assumptions detected_table.
Print Assumptions detected_always.
Print Assumptions detected_packed_lines.
Print Assumptions packed_refused.
Print Assumptions detected_book_unreadable.

(** ** Concrete cases, and claims that do not hold. *)
From Verif Require P_ConvertCsv.
Import P_ConvertCsv.
Definition digits (s : bytes) : option N := option_map Z.to_N (parse_signed s).
Definition demo_ok (s : bytes) : bool := match digits s with Some _ => true | None => false end.
Definition demo_detect (name text : bytes) : option structure :=
  match detect_structure N digits demo_ok 8 (fun s => s) (Some (dataset_ref [])) (Some (mkBody name (Plain (mkSrc text EOF [(1%nat, false); (3%nat, false)])) None)) with
  | Some (Ok tt, Some d, _) => ds_structure d
  | _ => None
  end.
Definition demo_open : shape -> src -> res ereader := new_entry_reader (fun _ => Err EOF) (fun n => n) (fun m => m) 16 16 demo_unpack.
Fixpoint demo_drain (n : nat) (r : ereader) : list (gval N) * option err :=
  match n with
  | O => ([], None)
  | S n => match read_step digits 8 (bs "?") 16 60 r with
           | (Ok e, r') => let '(vs, x) := demo_drain n r' in (e_val e :: vs, x)
           | (Err e, _) => ([], Some e)
           | _ => ([], None)
           end
  end.
(** The structure is detected, and then the same bytes are read. *)
Definition demo_body (name text : bytes) : option (list (gval N) * option err) :=
  match demo_detect name text with
  | Some st => match demo_open (shape_of digits st) (mkSrc text EOF []) with Ok r => Some (demo_drain 9 r) | _ => None end
  | None => None
  end.
Example detected_read_ex :
  demo_body (bs "a.json") (bs "[[1,true],{}]") = Some ([VArr [VInt 1; VBool true]; VMap []], Some EOF) /\
  demo_body (bs "b.json") (bs "{""x"":[2]}") = Some ([VArr [VInt 2]], Some EOF) /\
  demo_body (bs "c.cbor") (cbor_encode (VMap [(bs "k", VInt 7)])) = Some ([VInt 7], Some EOF) /\
  demo_body (bs "d.ndjson") (bs "[1]" ++ nl ++ bs "null" ++ nl) = Some ([VArr [VFloat 1%N]; VNil], Some EOF) /\
  demo_body (bs "d.ndjson.gz") (bs "gzip" ++ bs "[1]" ++ nl) = Some ([VArr [VFloat 1%N]], Some EOF) /\
  format_from_filename (bs "a.json") = (fJSON, [], Ok tt) /\ unsaid None (bs "json").
Proof. split; [vm_compute; reflexivity|]. split; [vm_compute; reflexivity|]. split; [vm_compute; reflexivity|]. split; [vm_compute; reflexivity|]. split; [vm_compute; reflexivity|]. split; [vm_compute; reflexivity|]. intros x X. discriminate. Qed.
Example detected_document_ex : document digits 8 (bs "cbor") (cbor_encode (VMap [(bs "k", VInt 7)])) [VInt 7].
Proof. apply (do_cbor_object digits 8 [(bs "k", VInt 7)]); [cbn; repeat split; try lia; repeat constructor|reflexivity|reflexivity]. Qed.
Lemma demo_written : forall t u, existsb (fun c => existsb (N.eqb c) [34; 10; 13; 44]%N) t = false -> u = t -> written [44%N] t u.
Proof.
  intros t u H ->. apply w_plain; try (intros Hin;
    match type of Hin with In ?x _ => assert (X : existsb (fun c => existsb (N.eqb c) [34; 10; 13; 44]%N) t = true) by (apply existsb_exists; exists x; auto); congruence end).
  intros [a [b ->]]. rewrite existsb_app, orb_false_iff in H. destruct H as [_ H]. discriminate H.
Qed.
Lemma demo_unspaced : forall f, match f with [] => True | c :: _ => (32 < c < 128)%N end -> unspaced f.
Proof.
  intros f H b Hb [r E]. destruct f as [|c f].
  - unfold blanks in Hb. repeat (destruct Hb as [<-|Hb]; [discriminate E|]). destruct Hb.
  - unfold blanks in Hb. repeat (destruct Hb as [<-|Hb]; [cbn in E; injection E as -> _; lia|]). destruct Hb.
Qed.
(** A table with titles; one without, whose row with another number of cells was looked at. *)
Example detected_table_ex : let rows := [[bs "name"; bs "age"]; [bs "ann"; bs "3"]; [bs "bob"; bs "x"]; [bs "cy"; bs "4"]] in
  let T := bs "name,age" ++ nl ++ bs "ann,3" ++ nl ++ bs "bob,x" ++ nl ++ bs "cy,4" ++ nl in
  table_text [44%N] rows T /\ Forall (Forall (fun f => ~ In 13%N f)) rows /\ Forall (Forall unspaced) rows /\ full_rows rows = rows /\
  demo_body (bs "t.csv") T = Some ([VArr [VStr (bs "ann"); VInt 3]; VArr [VStr (bs "bob"); VStr (bs "x")]; VArr [VStr (bs "cy"); VInt 4]], Some EOF) /\
  demo_body (bs "t.csv") (bs "a,1" ++ nl ++ bs "b" ++ nl ++ bs "c,2,3" ++ nl) = Some ([VArr [VStr (bs "a"); VInt 1]; VArr [VStr (bs "b")]; VArr [VStr (bs "c"); VStr (bs "2"); VStr (bs "3")]], Some EOF).
Proof.
  cbv zeta. split; [|split; [|split; [|split; [reflexivity|split; vm_compute; reflexivity]]]].
  - apply (tt_row _ _ (bs "name,age")); [|apply (tt_row _ _ (bs "ann,3")); [|apply (tt_row _ _ (bs "bob,x")); [|apply (tt_row _ _ (bs "cy,4")); [|constructor]]]].
    + change (bs "name,age") with (bs "name" ++ [44%N] ++ bs "age"). apply lt_more; [discriminate|apply demo_written; reflexivity|apply lt_one, demo_written; reflexivity].
    + change (bs "ann,3") with (bs "ann" ++ [44%N] ++ bs "3"). apply lt_more; [discriminate|apply demo_written; reflexivity|apply lt_one, demo_written; reflexivity].
    + change (bs "bob,x") with (bs "bob" ++ [44%N] ++ bs "x"). apply lt_more; [discriminate|apply demo_written; reflexivity|apply lt_one, demo_written; reflexivity].
    + change (bs "cy,4") with (bs "cy" ++ [44%N] ++ bs "4"). apply lt_more; [discriminate|apply demo_written; reflexivity|apply lt_one, demo_written; reflexivity].
  - repeat constructor; cbn; intuition discriminate.
  - repeat constructor; apply demo_unspaced; cbn; lia.
Qed.
Example packed_refused_ex : format_from_filename (bs "a.cbor.gz") = (fCBOR, bs "gzip", Ok tt) /\ demo_detect (bs "a.cbor.gz") [31; 139; 8]%N = None.
Proof. split; vm_compute; reflexivity. Qed.
Example detected_book_ex : format_from_filename (bs "a.xlsx") = (fXLSX, [], Ok tt) /\ exists st, demo_detect (bs "a.xlsx") (bs "PK") = Some st.
Proof. split; [vm_compute; reflexivity|]. eexists. vm_compute. reflexivity. Qed.
(** Not every row of a table is read after detection: a first row of texts is taken as titles. *)
Theorem detected_all_rows_refuted : demo_body (bs "t.csv") (bs "ann" ++ nl ++ bs "bob" ++ nl) = Some ([VArr [VStr (bs "bob")]], Some EOF).
Proof. vm_compute. reflexivity. Qed.
(** A column found to be of integers need not hold one: detection skips white space before a cell, a reader does not. *)
Theorem detected_integers_refuted : exists st, demo_detect (bs "t.csv") (bs " 1" ++ nl ++ bs " 2" ++ nl) = Some st /\
  st_schema st = Some (csv_doc [M_Doc.JObj [(bs "title", M_Doc.JStr (bs "field_1")); (bs "type", M_Doc.JStr (bs "integer"))]]) /\
  demo_body (bs "t.csv") (bs " 1" ++ nl ++ bs " 2" ++ nl) = Some ([VArr [VStr (bs " 1")]; VArr [VStr (bs " 2")]], Some EOF).
Proof. eexists. split; [vm_compute; reflexivity|]. split; [reflexivity|]. vm_compute. reflexivity. Qed.
Print Assumptions detected_all_rows_refuted.
Print Assumptions detected_integers_refuted.
