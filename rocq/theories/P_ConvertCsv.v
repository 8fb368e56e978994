(** C77: converting bodies from and to tables of comma-separated values. *)
From Verif Require Import Base M_Decimal M_Bufio L_Bufio M_Utf8 S_Utf8 M_Sink M_Json M_JsonWrite S_JsonText S_JsonBack L_JsonRead L_JsonDoc P_Json M_Cbor S_Cbor L_Cbor L_CborWrite P_Cbor
  M_Columns M_Tabular M_CsvText M_Csv S_Csv S_CsvCells S_NDJson L_NDJson M_NDJson M_Xlsx M_Formats M_Stream S_Stream L_Stream M_Convert S_Convert S_ConvertCsv L_CsvBack L_Convert L_ConvertCsv P_Convert.
From Verif Require P_Csv.

Section ConvertCsv.
  Variable parse_float : bytes -> option N.
  Variable fmt_plain : N -> bytes.
  Variable fmt_json : N -> option bytes.
  Variable depth : nat.
  Variable surrogate : bytes.
  Variable save : book -> bytes.
  Variable load : bytes -> res book.
  Variables sheet_key keep : bytes -> bytes.
  Variable order : jmap -> jmap.
  Variables size osize wsize dsize : nat.
  Variable unpack : bytes -> src -> res src.
  Variable pack : bytes -> bytes -> bytes.
  Hypothesis wbig : (4 <= wsize)%nat.
  Hypothesis opos : (0 < osize)%nat.
  Notation convert := (convert parse_float fmt_plain fmt_json depth surrogate save load sheet_key keep order size osize wsize dsize unpack pack).
  Notation write_step := (write_step fmt_plain fmt_json sheet_key keep wsize).
  Notation float_reads := (float_reads N parse_float).
  Notation jdoc_array := (jdoc_array N float_reads).
  Notation comes_back := (comes_back N fmt_json).
  Notation content := (content unpack).
  Notation whole := (whole unpack).
  Notation delivered := (delivered pack).
  Notation cell_text := (cell_text N fmt_plain fmt_json).
  Notation row_value := (row_value N parse_float depth).
  Notation table_shape := (table_shape order).

  (** C77: a JSON array becomes a table: the titles, if the structure asks for them, and a row for every chosen value
      before the first one that is no array.  That one and all after it are dropped, with success. *)
  Theorem convert_json_to_csv : forall in_ out cols types s vs doc limit offset all fuel, typed in_ fJSON (bs "array") -> table_shape out cols types ->
    valid_delim (separator out) = true -> content (sh_compression in_) s doc -> known (sh_compression out) -> jdoc_array vs doc -> (3 * length doc + 3 <= fuel)%nat ->
    exists b text, convert fuel in_ out s limit offset all = Ok b /\ delivered (sh_compression out) text b /\
      table_text (encode_rune (separator out)) (head_row out cols ++ map (map cell_text) (leading_rows (chosen all offset limit vs))) text.
  Proof.
    intros in_ out cols types s vs doc limit offset all fuel Hi Ho V Hc Hk Hd Hf. pose proof (jarray_length parse_float load sheet_key keep unpack pack _ _ Hd) as L.
    destruct (json_source parse_float depth surrogate load sheet_key order size osize dsize unpack in_ _ s doc (number_from 0 vs) EOF fuel Hi (or_introl eq_refl) Hc) as [r [r' [Hr Hy]]].
    { intros s' Hs. exists (S (length doc)). apply (json_reads_array N parse_float surrogate vs doc Hd); auto. }
    destruct (to_csv parse_float fmt_plain fmt_json depth surrogate save load sheet_key keep order size osize wsize dsize unpack pack wbig opos out cols types Ho V Hk) as [w [Hw HT]].
    destruct (HT (chosen all offset limit (number_from 0 vs))) as [w' [text [Hcl [Hdl Ht]]]].
    rewrite map_chosen, numbers_vals in Ht. eexists _, text. split; [|split; [exact Hdl|assumption]]. unfold M_Convert.convert. rewrite Hw, Hr.
    rewrite (convert_until _ _ _ _ _ _ _ _ _ w limit offset all fuel Hy) by (rewrite numbers_length; lia). rewrite Hcl. reflexivity.
  Qed.

  (** C77: a table becomes a JSON array: an array for every chosen row before the first one that has another number of
      cells, of the values its cells stand for.  That one and all after it are dropped, with success. *)
  Theorem convert_csv_to_json : float_format N fmt_json parse_float ->
    forall in_ out cols types s rows text limit offset all fuel, table_shape in_ cols types -> valid_delim (separator in_) = true ->
    typed out fJSON (bs "array") -> whole (sh_compression in_) s text -> known (sh_compression out) ->
    table_text (encode_rune (separator in_)) rows text -> (length text < fuel)%nat ->
    exists rows', Forall2 (Forall2 endings) rows rows' /\
    forall vss vs', Forall2 (row_value types) (before_refusal (data_answers in_ rows')) vss ->
      Forall2 comes_back (chosen all offset limit (map VArr vss)) vs' ->
      exists b doc, convert fuel in_ out s limit offset all = Ok b /\ delivered (sh_compression out) doc b /\ jdoc_array vs' doc.
  Proof.
    intros Hfmt in_ out cols types s rows text limit offset all fuel Hi V Ho Hw Hk HT Hf.
    destruct (csv_source parse_float fmt_plain fmt_json depth surrogate save load sheet_key keep order size osize wsize dsize unpack pack wbig opos in_ cols types s text rows fuel Hi V Hw HT) as [rows' [R1 [r [r' [e [Hr Hy]]]]]].
    exists rows'. split; [assumption|]. intros vss vs' Hv Hb.
    set (es := map (fun fs => mkEntry 0 [] (VArr (decode N parse_float depth types fs))) (before_refusal (data_answers in_ rows'))) in *.
    assert (EV : map e_val es = map VArr vss).
    { unfold es. clear -Hv. induction Hv as [|fs vs l vss H HF IH]; [reflexivity|]. cbn [map e_val]. f_equal; [f_equal; apply P_Csv.csv_row; assumption|exact IH]. }
    destruct (to_json fmt_plain fmt_json save sheet_key keep order wsize pack out _ Ho (or_introl eq_refl) Hk) as [ind [w [Hind [Hwr Hjs]]]]. change (is_object (bs "array")) with false in Hjs.
    set (ces := chosen all offset limit es) in *.
    assert (Hb2 : Forall2 (fun e v => comes_back (e_val e) v) ces vs').
    { assert (EM : chosen all offset limit (map VArr vss) = map e_val ces) by (unfold ces; rewrite map_chosen, EV; reflexivity).
      rewrite EM in Hb. clear -Hb. revert vs' Hb. induction ces as [|x l IH]; intros vs' Hb; inversion Hb; subst; constructor; auto. }
    destruct (json_array_round_trip N fmt_json parse_float surrogate ind None ces vs' Hfmt Hind Hb2) as [os [doc [E [Hn [_ [Hd _]]]]]].
    destruct (Hjs _ _ _ E Hn) as [w' [Hcl Hdl]]. eexists _, doc. split; [|split; [exact Hdl|assumption]].
    unfold M_Convert.convert. rewrite Hwr, Hr. rewrite (convert_until _ _ _ _ _ _ _ _ _ w limit offset all fuel Hy).
    - fold ces. rewrite Hcl. reflexivity.
    - unfold es. rewrite map_length. pose proof (before_length (data_answers in_ rows')). pose proof (table_length _ _ _ HT). pose proof (P_Csv.Forall2_same_length _ _ _ _ _ R1).
      unfold data_answers in *. pose proof (counted_length rows' (if csv_variadic (says in_) then -1 else 0)) as CL. cbv zeta in *.
      destruct (csv_header (says in_)); [destruct (counted _ rows'); cbn [tl length] in *; lia|lia].
  Qed.

  (** C77: a table becomes the CBOR array of the same values. *)
  Theorem convert_csv_to_cbor : forall in_ out cols types s rows text limit offset all fuel, table_shape in_ cols types -> valid_delim (separator in_) = true ->
    typed out fCBOR (bs "array") -> whole (sh_compression in_) s text -> known (sh_compression out) ->
    table_text (encode_rune (separator in_)) rows text -> (length text < fuel)%nat ->
    exists rows' vss b, Forall2 (Forall2 endings) rows rows' /\ Forall2 (row_value types) (before_refusal (data_answers in_ rows')) vss /\
      convert fuel in_ out s limit offset all = Ok b /\ delivered (sh_compression out) (cbor_encode (VArr (chosen all offset limit (map VArr vss)))) b.
  Proof.
    intros in_ out cols types s rows text limit offset all fuel Hi V Ho Hw Hk HT Hf.
    destruct (csv_source parse_float fmt_plain fmt_json depth surrogate save load sheet_key keep order size osize wsize dsize unpack pack wbig opos in_ cols types s text rows fuel Hi V Hw HT) as [rows' [R1 [r [r' [e [Hr Hy]]]]]].
    set (es := map (fun fs => mkEntry 0 [] (VArr (decode N parse_float depth types fs))) (before_refusal (data_answers in_ rows'))) in *.
    destruct (to_cbor_array fmt_plain fmt_json save sheet_key keep order wsize pack out (chosen all offset limit es) Ho Hk) as [w [w' [b [Hwr [Hcl [Hb Hdl]]]]]].
    exists rows', (map (decode N parse_float depth types) (before_refusal (data_answers in_ rows'))), b. split; [assumption|]. split; [|split].
    - generalize (before_refusal (data_answers in_ rows')). intros l. induction l as [|fs l IH]; constructor; [apply P_Csv.csv_row; reflexivity|exact IH].
    - unfold M_Convert.convert. rewrite Hwr, Hr. rewrite (convert_until _ _ _ _ _ _ _ _ _ w limit offset all fuel Hy).
      + rewrite Hcl, Hb. reflexivity.
      + unfold es. rewrite map_length. pose proof (before_length (data_answers in_ rows')). pose proof (table_length _ _ _ HT). pose proof (P_Csv.Forall2_same_length _ _ _ _ _ R1).
        unfold data_answers in *. pose proof (counted_length rows' (if csv_variadic (says in_) then -1 else 0)) as CL. cbv zeta in *.
        destruct (csv_header (says in_)); [destruct (counted _ rows'); cbn [tl length] in *; lia|lia].
    - rewrite map_chosen in Hdl. unfold es in Hdl. rewrite map_map in Hdl. cbn [e_val] in Hdl. rewrite map_map. assumption.
  Qed.

  (** C77: there and back through a table.  Rows with as many cells as there are columns, each of its column's own type,
      come back. *)
  Notation own_row := (P_Csv.own_row N parse_float fmt_plain fmt_json depth).
  Definition kept_row (types : list bytes) (v v' : gval N) : Prop := own_row types (mkEntry 0 [] v) (Ok (mkEntry 0 [] v')).
  Lemma kept_rows : strict_format N fmt_json parse_float -> forall types us us', Forall2 (kept_row types) us us' ->
    exists vss, us' = map VArr vss /\ length (leading_rows us) = length us /\
      Forall2 (row_value types) (map (map cell_text) (leading_rows us)) vss /\
      Forall (Forall (fun f => ~ In 13%N f)) (map (map cell_text) (leading_rows us)) /\
      Forall (fun fs => blank_row fs = false) (map (map cell_text) (leading_rows us)) /\
      Forall (fun fs => length fs = length types) (map (map cell_text) (leading_rows us)).
  Proof.
    intros Hfmt types us us' H. induction H as [|v v' us us' He HR IH]; [exists []; cbn; repeat split; constructor|].
    destruct He as [vs [vs' [E1 [E2 [E3 [E4 [E5 [E6 E7]]]]]]]]. cbn [e_val] in E1. injection E2 as ->. subst v.
    destruct IH as [vss [-> [I1 [I2 [I3 [I4 I5]]]]]]. exists (vs' :: vss). cbn [map leading_rows length]. split; [reflexivity|]. split; [congruence|].
    split; [|split; [|split; [|]]]; constructor; auto; [| |rewrite map_length; assumption].
    - left. rewrite map_length. split; [lia|]. clear - E3 E4 E5 Hfmt. revert vs vs' E3 E4 E5. induction types as [|ty types IH]; intros vs vs' E3 E4 E5.
      + destruct vs; [|discriminate]. destruct vs'; [|discriminate]. constructor.
      + destruct vs as [|v vs]; [discriminate|]. destruct vs' as [|v' vs']; [discriminate|]. cbn [map]. constructor.
        * apply P_Csv.csv_own_type; [assumption|]. apply (E5 0%nat ty v v'); reflexivity.
        * cbn [length] in E3, E4. apply IH; [lia|lia|]. intros i ty0 v0 v0' A B C. apply (E5 (S i)); assumption.
    - clear - E6. induction E6; constructor; assumption.
  Qed.
  Lemma before_rows : forall rows, before_refusal (map Row rows) = rows.
  Proof. induction rows as [|fs rows IH]; [reflexivity|]. cbn. rewrite IH. reflexivity. Qed.
  Theorem convert_through_csv : float_format N fmt_json parse_float -> strict_format N fmt_json parse_float -> lossless_end unpack pack ->
    forall a b cols types s vs us' vs' doc limit offset all fuel, typed a fJSON (bs "array") -> table_shape b cols types ->
    valid_delim (separator b) = true -> (csv_header (says b) = true -> blank_row (titles cols) = false) ->
    content (sh_compression a) s doc -> known (sh_compression a) -> known (sh_compression b) -> jdoc_array vs doc -> (3 * length doc + 3 <= fuel)%nat ->
    Forall2 (kept_row types) (chosen all offset limit vs) us' -> Forall2 comes_back us' vs' ->
    exists mid, convert fuel a b s limit offset all = Ok mid /\
      forall s2 fuel2, s_rem s2 = mid -> s_fin s2 = EOF -> (forall text, delivered (sh_compression b) text mid -> (length text < fuel2)%nat) ->
      exists fin doc2, convert fuel2 b a s2 0 0 true = Ok fin /\ delivered (sh_compression a) doc2 fin /\ jdoc_array vs' doc2.
  Proof.
    intros Hf1 Hf2 Hll a b cols types s vs us' vs' doc limit offset all fuel Ha Hb V HT Hc Hka Hkb Hd Hfu Hk Hcb.
    destruct (convert_json_to_csv a b cols types s vs doc limit offset all fuel Ha Hb V Hc Hkb Hd Hfu) as [mid [text [Hm [Hdl Ht]]]].
    exists mid. split; [assumption|]. intros s2 fuel2 Hs2 He2 Hfu2.
    assert (W : whole (sh_compression b) s2 text).
    { destruct Hdl as [[E1 E2]|[f [E1 E2]]]; [left; split; [assumption|split; congruence]|].
      right. destruct (Hll f text s2) as [s' [U1 [U2 U3]]]; [congruence|assumption|]. exists f, s'. auto. }
    destruct (convert_csv_to_json Hf1 b a cols types s2 _ text 0 0 true fuel2 Hb V Ha W Hka Ht (Hfu2 _ Hdl)) as [rows' [R1 R2]].
    destruct (kept_rows Hf2 _ _ _ Hk) as [vss [-> [K1 [K2 [K3 [K4 K5]]]]]].
    assert (TL : length types = length cols) by (destruct Hb as [_ [_ HF]]; symmetry; eapply P_Csv.Forall2_same_length; eassumption).
    apply (R2 vss vs'); [|exact Hcb].
    assert (X : before_refusal (data_answers b rows') = map (map cell_text) (leading_rows (chosen all offset limit vs))); [|rewrite X; assumption].
    unfold data_answers, head_row in *. cbv zeta. destruct (csv_header (says b)) eqn:EH.
    - cbn [app] in R1. inversion R1 as [|t0 t' r0 rows H1 H2]; subst.
      assert (HL : length t' = length cols) by (rewrite <- (P_Csv.Forall2_same_length _ _ _ _ _ H1); unfold titles; apply map_length).
      assert (HB : blank_row t' = false).
      { specialize (HT eq_refl). revert HT H1. generalize (titles cols). intros t0 HT H1. destruct t0 as [|f [|g t0]]; [discriminate| |]; inversion H1 as [|? f' ? ? He HR]; subst.
        - inversion HR; subst. destruct f; [discriminate|]. destruct f'; [exfalso; apply endings_nil in He; [discriminate|reflexivity]|reflexivity].
        - inversion HR; subst. destruct f'; reflexivity. }
      cbn [counted]. rewrite HB. cbn [tl].
      destruct (P_Csv.csv_rows_come_back (if csv_variadic (says b) then -1 else Z.of_nat (length cols)) _ rows K3 K4) as [-> HC]; [|assumption|].
      + destruct (csv_variadic (says b)); [left; lia|right]. exists (length cols). split; [right; reflexivity|]. rewrite <- TL. assumption.
      + destruct (csv_variadic (says b)); [|rewrite HL]; cbn [Z.eqb]; rewrite HC; apply before_rows.
    - cbn [app] in R1.
      destruct (P_Csv.csv_rows_come_back (if csv_variadic (says b) then -1 else 0) _ rows' K3 K4) as [-> HC]; [|assumption|].
      + destruct (csv_variadic (says b)); [left; lia|right]. exists (length types). split; [left; reflexivity|assumption].
      + rewrite HC. apply before_rows.
  Qed.
End ConvertCsv.
Print Assumptions convert_json_to_csv.
Print Assumptions convert_csv_to_json.
Print Assumptions convert_csv_to_cbor.
Print Assumptions convert_through_csv.

(** ** Concrete cases, and claims that do not hold. *)
Definition demo_col (title ty : string) : gval N := VMap [(bs "title", VStr (bs title)); (bs "type", VStr (bs ty))].
Definition demo_schema (cols : list (gval N)) : jmap :=
  [(bs "items", VMap [(bs "items", VArr cols); (bs "type", VStr (bs "array"))]); (bs "type", VStr (bs "array"))].
Definition as_table : shape := mkShape (bs "csv") [] (Some (demo_schema [demo_col "id" "integer"; demo_col "name" "string"; demo_col "tags" "array"]))
  (Some [(bs "headerRow", VBool true)]).
Definition as_packed : shape := mkShape (bs "csv") (bs "gzip") (Some (demo_schema [demo_col "a" "string"; demo_col "b" "boolean"]))
  (Some [(bs "separator", VStr (bs ";"))]).
Definition nl : bytes := [10%N].
(** Success does not mean that all entries were taken: a value that is no array ends a table, and so does a row with
    another number of cells when the table is read. *)
Theorem convert_table_rows_refuted :
  demo_convert 200 as_json as_table (from (bs "[[1,""x"",[]],{""id"":2},[3,""y"",[]]]")) 0 0 true = Ok (bs "id,name,tags" ++ nl ++ bs "1,x,[]" ++ nl) /\
  demo_convert 200 as_table as_json (from (bs "id,name,tags" ++ nl ++ bs "1,x,[]" ++ nl ++ bs "2,y" ++ nl ++ bs "3,z,[]" ++ nl)) 0 0 true = Ok (bs "[[1,""x"",[]]]").
Proof. vm_compute. split; reflexivity. Qed.
(** The claim that a conversion to a table and back keeps a document is false, even if no row ends it: null becomes an empty
    text, a text that reads as a number becomes one, and a row that is short of cells is gone. *)
Theorem convert_table_keeps_refuted : ~ (forall doc mid fin, demo_convert 200 as_json as_table (from doc) 0 0 true = Ok mid ->
  demo_convert 200 as_table as_json (from mid) 0 0 true = Ok fin -> fin = doc) /\
  demo_convert 200 as_table as_json (from (zero_ok (demo_convert 200 as_json as_table (from (bs "[[""7"",null,[]],[]]")) 0 0 true))) 0 0 true = Ok (bs "[[7,"""",[]]]").
Proof.
  split; [|vm_compute; reflexivity]. intros H.
  specialize (H (bs "[[""7"",null,[]],[]]") (bs "id,name,tags" ++ nl ++ bs "7,,[]" ++ nl ++ nl) (bs "[[7,"""",[]]]")).
  assert (X : bs "[[7,"""",[]]]" = bs "[[""7"",null,[]],[]]") by (apply H; vm_compute; reflexivity). discriminate X.
Qed.
Print Assumptions convert_table_rows_refuted.
Print Assumptions convert_table_keeps_refuted.

Example convert_json_to_csv_ex :
  (exists cols, table_shape (fun m => m) as_packed cols [bs "string"; bs "boolean"] /\ titles cols = [bs "a"; bs "b"]) /\
  valid_delim (separator as_packed) = true /\ known (sh_compression as_packed) /\
  demo_convert 200 as_json as_packed (from (bs "[[""x;y"",true],[""q"",false],[null,{""k"":null}],5,[""z"",true]]")) 3 1 false =
    Ok (bs "gzip" ++ bs "q;false" ++ nl ++ bs ";""{""""k"""":null}""" ++ nl).
Proof.
  split; [|split; [vm_compute; reflexivity|split; [right; eexists; reflexivity|vm_compute; reflexivity]]].
  eexists [_; _]. split; [split; [reflexivity|split; [eexists; vm_compute; reflexivity|repeat constructor; eexists; reflexivity]]|reflexivity].
Qed.
Example convert_csv_to_json_ex :
  let text := bs "id,name,tags" ++ nl ++ bs "1,""a,b"",[true]" ++ nl ++ nl ++ bs "x,,no" ++ nl in
  let rows := [[bs "id"; bs "name"; bs "tags"]; [bs "1"; bs "a,b"; bs "[true]"]; []; [bs "x"; []; bs "no"]] in
  table_text (encode_rune (separator as_table)) rows text /\ whole demo_unpack [] (from text) text /\
  before_refusal (data_answers as_table rows) = [[bs "1"; bs "a,b"; bs "[true]"]; [bs "x"; []; bs "no"]] /\
  demo_convert 200 as_table as_json (from text) 0 0 true = Ok (bs "[[1,""a,b"",[true]],[""x"","""",""no""]]") /\
  demo_convert 200 as_table as_json (from text) 1 1 false = Ok (bs "[[""x"","""",""no""]]").
Proof.
  cbv zeta. split; [|split; [left; auto|split; [vm_compute; reflexivity|split; vm_compute; reflexivity]]].
  assert (P : forall t u, existsb (fun c => existsb (N.eqb c) [34; 10; 13; 44]%N) t = false -> u = t -> written [44%N] t u).
  { intros t u H ->. apply w_plain; try (intros Hin;
      match type of Hin with In ?x _ => assert (X : existsb (fun c => existsb (N.eqb c) [34; 10; 13; 44]%N) t = true) by (apply existsb_exists; exists x; auto); congruence end).
    intros [a [b ->]]. rewrite existsb_app, orb_false_iff in H. destruct H as [_ H]. discriminate H. }
  change (encode_rune (separator as_table)) with [44%N].
  apply (tt_row _ _ (bs "id,name,tags")).
  { change (bs "id,name,tags") with (bs "id" ++ [44%N] ++ bs "name" ++ [44%N] ++ bs "tags"). repeat (apply lt_more; [discriminate|apply P; reflexivity|]); apply lt_one, P; reflexivity. }
  apply (tt_row _ _ (bs "1,""a,b"",[true]")).
  { change (bs "1,""a,b"",[true]") with (bs "1" ++ [44%N] ++ bs """a,b""" ++ [44%N] ++ bs "[true]"). constructor; [discriminate|apply P; reflexivity|].
    constructor; [discriminate|apply (w_quoted _ (bs "a,b")); discriminate|]. constructor. apply P; reflexivity. }
  apply (tt_row _ _ []); [constructor|].
  apply (tt_row _ _ (bs "x,,no")); [|constructor].
  change (bs "x,,no") with (bs "x" ++ [44%N] ++ [] ++ [44%N] ++ bs "no"). repeat (apply lt_more; [discriminate|apply P; reflexivity|]); apply lt_one, P; reflexivity.
Qed.
Example convert_through_csv_ex :
  let mid := demo_convert 200 as_json as_packed (from (bs "[[""x;y"",true],[""q"",false]]")) 0 0 true in
  demo_convert 200 as_packed as_json (from (zero_ok mid)) 0 0 true = Ok (bs "[[""x;y"",true],[""q"",false]]") /\
  demo_convert 200 as_packed as_cbor (from (zero_ok mid)) 0 0 true = Ok (bs "gzip" ++ cbor_encode (VArr [VArr [VStr (bs "x;y"); VBool true]; VArr [VStr (bs "q"); VBool false]])) /\
  kept_row demo_parse (fun _ => []) (fun _ => None) 8 [bs "string"; bs "boolean"] (VArr [VStr (bs "x;y"); VBool true]) (VArr [VStr (bs "x;y"); VBool true]).
Proof.
  cbv zeta. split; [vm_compute; reflexivity|]. split; [vm_compute; reflexivity|].
  exists [VStr (bs "x;y"); VBool true], [VStr (bs "x;y"); VBool true]. repeat (split; [reflexivity|]). split; [|split; [|reflexivity]].
  - intros [|[|i]] ty v v'; cbn [nth_error]; intros A B C; try (destruct i; discriminate); injection A as <-; injection B as <-; injection C as <-; constructor.
    vm_compute. intuition discriminate.
  - repeat constructor; vm_compute; intuition discriminate.
Qed.
