(** C80: conversions between any two formats, and chains of them. *)
From Coq Require Import ZArith Lia.
From Verif Require Import Base M_Decimal M_Bufio L_Bufio M_Utf8 M_Float M_Sink M_Json M_JsonWrite S_JsonText S_JsonBack L_JsonRead L_JsonDoc P_Json M_Cbor S_Cbor L_Cbor P_Cbor
  M_Columns M_Tabular M_CsvText M_Csv S_Csv S_CsvCells S_NDJson L_NDJson M_NDJson P_NDJson M_Xlsx S_Xlsx M_Formats M_Stream S_Stream L_Stream M_Convert S_Convert S_ConvertCsv L_CsvBack L_Convert L_ConvertCsv P_Convert
  M_Stats S_Stats L_Stats P_Stats M_Calculate S_Calculate L_Calculate P_Calculate S_ConvertAny.
From Verif Require P_Csv L_UnmarshalInv L_Xlsx P_Xlsx P_ConvertCsv.

Section Any.
  Variable parse_float : bytes -> option N.
  Variable fmt_plain : N -> bytes.
  Variable fmt_json : N -> option bytes.
  Variable depth : nat.
  Variable surrogate : bytes.
  Variable save : book -> bytes.
  Variable load : bytes -> res book.
  Variables sheet_key keep : bytes -> bytes.
  Variable order : jmap -> jmap.
  Variables size osize wsize dsize : nat.
  Variable unpack : bytes -> src -> res src.
  Variable pack : bytes -> bytes -> bytes.
  Hypothesis wbig : (4 <= wsize)%nat.
  Hypothesis opos : (0 < osize)%nat.
  Notation convert := (convert parse_float fmt_plain fmt_json depth surrogate save load sheet_key keep order size osize wsize dsize unpack pack).
  Notation convert_writer := (convert_writer sheet_key order wsize).
  Notation write_step := (write_step fmt_plain fmt_json sheet_key keep wsize).
  Notation close_step := (close_step save).
  Notation dest_bytes := (dest_bytes pack).
  Notation holds := (holds parse_float depth order unpack load sheet_key).
  Notation storable := (storable parse_float fmt_plain fmt_json depth keep order).
  Notation own_cells := (own_cells parse_float fmt_plain fmt_json depth).
  Notation cell_text := (cell_text N fmt_plain fmt_json).
  Notation row_value := (row_value N parse_float depth).
  Notation delivered := (delivered pack).
  Notation row_is := (row_is N fmt_plain fmt_json).
  Notation taken := (taken N fmt_plain fmt_json).

  Lemma delivered_whole : lossless_end unpack pack -> forall comp data b s, delivered comp data b -> s_rem s = b -> s_fin s = EOF -> whole unpack comp s data.
  Proof.
    intros HL comp data b s [[H1 H2]|[f [H1 H2]]] Hs Hf; [left; subst; auto|]. right. destruct (HL f _ s (eq_trans Hs H2) Hf) as [s2 [E2 [E3 E4]]]. exists f, s2. auto.
  Qed.

  (** ** Workbooks *)
  Lemma xlsx_accepts : forall c es w os w', xlsx_write_entries N fmt_plain fmt_json sheet_key keep w es = (os, w') -> Forall (fun o => o = None) os ->
    accepts write_step (c, WXlsx w) es (c, WXlsx w').
  Proof.
    intros c. induction es as [|e es IH]; intros w os w' H Ho; cbn [xlsx_write_entries] in H; [inversion H; constructor|].
    destruct (xlsx_write_entry N fmt_plain fmt_json sheet_key keep w e) as [o w1] eqn:E. destruct (xlsx_write_entries N fmt_plain fmt_json sheet_key keep w1 es) as [os1 w2] eqn:E2. inversion H; subst.
    inversion Ho; subst. econstructor; [unfold M_Convert.write_step; cbn [fst snd]; rewrite E; reflexivity|]. eapply IH; eassumption.
  Qed.
  Lemma kept_cells : forall sheet rows, L_Xlsx.holds keep sheet rows -> cells_are sheet (map (map keep) rows).
  Proof.
    intros sheet rows H c r. rewrite H. destruct c; [reflexivity|]. destruct r; [reflexivity|]. unfold at_cell. rewrite nth_error_map. destruct (nth_error rows r) as [row|]; [|reflexivity].
    cbn [option_map]. rewrite nth_error_map. reflexivity.
  Qed.
  Lemma sheet_rows_are : strict_format N fmt_json parse_float -> forall types es vs', Forall2 (fun v v' => own_cells types v v' (sheet_row fmt_plain fmt_json keep)) (map e_val es) vs' ->
    exists rows vss, vs' = map VArr vss /\ taken es rows /\ Forall (fun row => 0 < Z.of_nat (length row) <= 17576)%Z rows /\ Forall2 (row_value types) (map (map keep) rows) vss /\
      Forall (fun e => exists row, row_is e row) es.
  Proof.
    intros Hf types es vs' H. remember (map e_val es) as l eqn:E. revert es E. induction H as [|v v' l vs' Hv H IH]; intros es E; destruct es as [|e es]; try discriminate.
    - exists [], []. repeat split; constructor.
    - cbn [map] in E. injection E as -> ->. destruct (IH es eq_refl) as (rows & vss & -> & I1 & I2 & I3 & I4). destruct Hv as (vs & ws & E1 & -> & E4 & E5 & E2 & E3 & E6).
      assert (Q : exists row, Forall2 (cell_is N fmt_plain fmt_json) vs row /\ length row = length vs /\ cell_values N parse_float depth types (map keep row) ws).
      { clear - E4 E5 E6 Hf. revert types ws E4 E5. induction vs as [|v vs IH]; intros types ws E4 E5.
        - destruct types; [|discriminate]. inversion E5; subst. exists []. repeat split; constructor.
        - destruct types as [|ty types]; [discriminate|]. cbn [combine] in E5. inversion E5 as [|? v' ? vs2 H1 H2]; subst. cbn [fst snd] in H1.
          destruct (IH (fun u t Hu => E6 u t (or_intror Hu)) types vs2) as (row & Q1 & Q2 & Q3); [cbn in E4; lia|exact H2|].
          destruct (P_Xlsx.own_cell N parse_float fmt_plain fmt_json depth Hf _ _ _ H1) as (t & T1 & T2). exists (t :: row). split; [constructor; assumption|]. split; [cbn; lia|].
          cbn [map]. rewrite (E6 v t (or_introl eq_refl) T1). constructor; assumption. }
      destruct Q as (row & Q1 & Q2 & Q3). exists (row :: rows), (ws :: vss). split; [reflexivity|].
      split; [constructor; [exists vs; auto|exact I1]|]. split; [constructor; [destruct vs; [congruence|]; rewrite Q2; cbn [length]; cbn [length] in E3; lia|exact I2]|].
      split; [cbn [map]; constructor; [left; rewrite map_length; split; [lia|exact Q3]|exact I3]|]. constructor; [exists row, vs; auto|exact I4].
  Qed.
  Lemma to_xlsx : strict_format N fmt_json parse_float -> forall out types name es vs', sheet_shape order out types name ->
    Forall2 (fun v v' => own_cells types v v' (sheet_row fmt_plain fmt_json keep)) (map e_val es) vs' ->
    exists w w' bk sheet rows vss, convert_writer out = Ok w /\ close_step (write_until write_step w es) = (None, w') /\ dest_bytes w' = save bk /\
      map_get (sheet_key name) bk = Some sheet /\ cells_are sheet rows /\ Forall (fun row => row <> []) rows /\ Forall2 (row_value types) rows vss /\ vs' = map VArr vss.
  Proof.
    intros Hf out types name es vs' [Hff [Hcm [Hnm [cols [ps [Hcols Hty]]]]]] Hv.
    destruct (sheet_rows_are Hf types es vs' Hv) as (rows & vss & -> & T1 & T2 & T3 & T4).
    destruct (P_Xlsx.names_config N _ _ Hnm) as [t [Ec En]].
    assert (NW : new_xlsx_writer N sheet_key order (sh_compression out) (some_map (sh_schema out)) (sh_config out) good_sink = Ok (mkXw 0 name (new_sheet sheet_key (new_file sheet_key) name) good_sink)).
    { unfold new_xlsx_writer. rewrite Hcm, Hcols, (firsts_are _ _ Hty), Ec, En. reflexivity. }
    set (w0 := mkXw 0 name (new_sheet sheet_key (new_file sheet_key) name) good_sink) in *.
    destruct (P_Xlsx.new_writer_inv N sheet_key _ _ _ _ _ _ NW) as (R0 & D0 & B0 & _).
    destruct (xlsx_write_entries N fmt_plain fmt_json sheet_key keep w0 es) as [xs w1] eqn:E.
    destruct (P_Xlsx.entries_hold N fmt_plain fmt_json sheet_key keep es rows T1) with (w := w0) (rows := @nil (list bytes)) (sh := @nil (place * bytes)) (xs := xs) (w' := w1) as (R & D & S0 & sh & B & H);
      [eapply Forall_impl; [|exact T2]; cbn; intros; lia|rewrite R0; reflexivity|exact B0| |exact E|].
    { intros c r. destruct c; [reflexivity|]. destruct r; [reflexivity|]. unfold at_cell. destruct r; reflexivity. }
    cbn [app] in H.
    assert (HX : Forall (fun o => o = None) xs).
    { clear - R T4. induction R as [|e y es ys H1 H IH]; [constructor|]. inversion T4 as [|? ? A B]; subst. constructor; [apply H1; exact A|apply IH; exact B]. }
    exists (None, WXlsx w0), (None, WXlsx (mkXw (xw_rows w1) (xw_sheet w1) (xw_book w1) (mkSink (save (xw_book w1)) []))), (xw_book w1), sh, (map (map keep) rows), vss.
    split; [|split; [|split; [reflexivity|split; [exact B|split; [apply kept_cells; exact H|split; [|split; [exact T3|reflexivity]]]]]]].
    - unfold M_Convert.convert_writer, new_entry_writer. rewrite Hff. cbn [Z.eqb Pos.eqb fCBOR fJSON fCSV fXLSX]. unfold make_xlsx. rewrite NW. reflexivity.
    - rewrite (write_until_all _ _ _ _ (xlsx_accepts None _ _ _ _ E HX)). unfold M_Convert.close_step, xlsx_close. cbn [fst snd]. rewrite D, D0. reflexivity.
    - apply Forall_map. eapply Forall_impl; [|exact T2]. cbn. intros a Ha X. destruct a; [cbn in Ha; lia|discriminate X].
  Qed.

  (** ** Tables *)
  Lemma table_rows_are : forall types vs vs', Forall2 (fun v v' => own_cells types v v' (table_row fmt_plain fmt_json)) vs vs' -> Forall2 (P_ConvertCsv.kept_row parse_float fmt_plain fmt_json depth types) vs vs'.
  Proof.
    intros types vs vs' H. induction H as [|v v' vs vs' Hv H IH]; constructor; [|assumption]. destruct Hv as (cs & cs' & -> & -> & E1 & E2 & E3 & E4).
    exists cs, cs'. split; [reflexivity|]. split; [reflexivity|]. split; [assumption|]. split.
    - pose proof (P_Csv.Forall2_same_length _ _ _ _ _ E2) as L. rewrite combine_length in L. lia.
    - split; [|split; assumption]. clear -E2 E1. revert cs cs' E1 E2. induction types as [|t types IH]; intros cs cs' E1 E2 i ty v v' A B C; [destruct i; discriminate|].
      destruct cs as [|c cs]; [destruct i; discriminate|]. cbn [combine] in E2. inversion E2 as [|? c' ? cs2 H1 H2]; subst. destruct i as [|i]; cbn [nth_error] in *.
      + injection A as <-. injection B as <-. injection C as <-. exact H1.
      + cbn in E1. eapply IH; try eassumption. lia.
  Qed.
  Lemma same_endings : forall rows, Forall (Forall (fun f => ~ In 13%N f)) rows -> Forall2 (Forall2 endings) rows rows.
  Proof.
    intros rows H. induction H as [|fs rows Hf H IH]; constructor; [|assumption]. clear -Hf. induction Hf as [|f fs Hf H IH]; constructor; [|assumption].
    clear -Hf. induction f as [|c f IH]; constructor; [intros ->; apply Hf; left; reflexivity|]. apply IH. intros X. apply Hf. right. exact X.
  Qed.
  Lemma to_table : strict_format N fmt_json parse_float -> forall out cols types vs vs', table_shape order out cols types ->
    (csv_header (says out) = true -> blank_row (titles cols) = false /\ Forall (fun f => ~ In 13%N f) (titles cols)) ->
    Forall2 (fun v v' => own_cells types v v' (table_row fmt_plain fmt_json)) vs vs' ->
    let rows := head_row out cols ++ map (map cell_text) (leading_rows vs) in
    exists vss, vs' = map VArr vss /\ Forall (Forall (fun f => ~ In 13%N f)) rows /\
      data_answers out rows = map Row (map (map cell_text) (leading_rows vs)) /\ Forall2 (row_value types) (map (map cell_text) (leading_rows vs)) vss.
  Proof.
    intros Hf out cols types vs vs' Ht HT Hv rows. apply table_rows_are in Hv.
    destruct (P_ConvertCsv.kept_rows parse_float fmt_plain fmt_json depth surrogate load sheet_key keep osize wsize dsize unpack pack wbig opos Hf types vs vs' Hv) as [vss [-> [K1 [K2 [K3 [K4 K5]]]]]].
    assert (TL : length types = length cols) by (destruct Ht as [_ [_ HF]]; symmetry; eapply P_Csv.Forall2_same_length; eassumption).
    exists vss. split; [reflexivity|]. unfold rows. clear rows. unfold head_row, data_answers. cbv zeta. destruct (csv_header (says out)).
    - destruct (HT eq_refl) as [HB HC]. split; [constructor; assumption|]. split; [|assumption]. cbn [app counted]. rewrite HB. cbn [tl].
      assert (HL : length (titles cols) = length cols) by (unfold titles; apply map_length).
      destruct (P_Csv.csv_rows_come_back (if csv_variadic (says out) then -1 else Z.of_nat (length cols)) _ (map (map cell_text) (leading_rows vs)) K3 K4) as [_ HQ]; [|apply same_endings; assumption|].
      + destruct (csv_variadic (says out)); [left; lia|right]. exists (length cols). split; [right; reflexivity|]. rewrite <- TL. assumption.
      + destruct (csv_variadic (says out)); [|rewrite HL]; cbn [Z.eqb]; exact HQ.
    - cbn [app]. split; [assumption|]. split; [|assumption].
      destruct (P_Csv.csv_rows_come_back (if csv_variadic (says out) then -1 else 0) _ (map (map cell_text) (leading_rows vs)) K3 K4) as [_ HQ]; [|apply same_endings; assumption|exact HQ].
      destruct (csv_variadic (says out)); [left; lia|right]. exists (length types). split; [left; reflexivity|assumption].
  Qed.

  (** ** Any format *)
  Theorem convert_holds : float_format N fmt_json parse_float -> strict_format N fmt_json parse_float -> lossless_end unpack pack -> (forall b, load (save b) = Ok b) ->
    forall in_ out s vs vs' limit offset all, holds in_ s vs -> storable out (chosen all offset limit vs) vs' ->
    exists b f0, (forall fuel, (f0 <= fuel)%nat -> convert fuel in_ out s limit offset all = Ok b) /\
      forall s', s_rem s' = b -> s_fin s' = EOF -> holds out s' vs'.
  Proof.
    intros Hf1 Hf2 HL HB in_ out s vs vs' limit offset all Hh Hs.
    destruct (holds_yields parse_float depth surrogate load sheet_key order size osize dsize unpack (fun _ => 0%Z) (fun _ => []) opos in_ s vs Hh) as [f0 [es [Ev Y]]].
    set (ces := chosen all offset limit es) in *. assert (EV : map e_val ces = chosen all offset limit vs) by (unfold ces; rewrite map_chosen, Ev; reflexivity). rewrite <- EV in Hs. clear EV Hh.
    assert (GO : forall w w', convert_writer out = Ok w -> close_step (write_until write_step w ces) = (None, w') -> forall fuel, (f0 <= fuel)%nat -> convert fuel in_ out s limit offset all = Ok (dest_bytes w')).
    { intros w w' Hw Hc fuel Hfu. destruct (Y fuel Hfu) as [r [r' [Hr [Hy Hl]]]]. unfold M_Convert.convert. rewrite Hw, Hr.
      rewrite (convert_until _ _ _ _ _ _ _ _ _ w limit offset all fuel Hy Hl). fold ces. rewrite Hc. reflexivity. }
    clearbody ces. destruct Hs as [Ht Hk Hb|Ht Hk HW HN HR ->|Ht Hk Hb|cols types Ht HV Hk HT Hb|types name Ht Hb].
    - destruct (to_json fmt_plain fmt_json save sheet_key keep order wsize pack out _ Ht (or_introl eq_refl) Hk) as [ind [w [Hind [Hw Hjs]]]]. change (is_object (bs "array")) with false in Hjs.
      assert (Hb2 : Forall2 (fun e v => comes_back N fmt_json (e_val e) v) ces vs').
      { clear -Hb. revert vs' Hb. induction ces as [|x l IH]; intros vs' Hb; inversion Hb; subst; constructor; auto. }
      destruct (json_array_round_trip N fmt_json parse_float surrogate ind None ces vs' Hf1 Hind Hb2) as [os [doc [E [Hn [_ [Hd _]]]]]].
      destruct (Hjs _ _ _ E Hn) as [w' [Hcl Hdl]]. exists (dest_bytes w'), f0. split; [apply (GO w w' Hw Hcl)|]. intros s' Hr Hfi.
      eapply ho_json; [exact Ht| |exact Hd]. eapply whole_content, delivered_whole; eassumption.
    - destruct (to_cbor_array fmt_plain fmt_json save sheet_key keep order wsize pack out ces Ht Hk) as [w [w' [b [Hw [Hcl [Hb Hdl]]]]]].
      exists (dest_bytes w'), f0. split; [apply (GO w w' Hw Hcl)|]. intros s' Hr Hfi. rewrite Hb in Hr.
      apply ho_cbor; try assumption. eapply delivered_whole; eassumption.
    - pose proof Ht as [Hff [m [Hm _]]]. destruct (to_nd parse_float fmt_plain fmt_json save sheet_key keep order wsize pack Hf2 out m ces Hff Hm Hk) as [w [w' [ls [Hw [Hcl [Hdl HF]]]]]].
      { clear -Hb. remember (map e_val ces) as l eqn:E. revert ces E. induction Hb as [|v v' l vs' [_ [_ H]] Hb IH]; intros [|e ces] E; try discriminate; constructor; injection E as -> ->; auto. }
      exists (dest_bytes w'), f0. split; [apply (GO w w' Hw Hcl)|]. intros s' Hr Hfi.
      apply (ho_lines parse_float depth order unpack load sheet_key out s' ls vs' Ht); [eapply delivered_whole; eassumption| |].
      + clear -HF. induction HF as [|v l vs ls [H _] HF IH]; constructor; auto.
      + clear -HF Hb. revert ls HF. induction Hb as [|v v' vs vs' [H1 [H2 _]] Hb IH]; intros ls HF; inversion HF as [|? l ? ls1 [_ H] HF1]; subst; constructor; auto.
        destruct (H v' depth H1 H2) as [w1 [t [w2 [A1 [A2 [A3 ->]]]]]]. exists w1, t, (w2 ++ [10%N]). repeat split; auto.
        * apply Forall_app. split; [assumption|]. constructor; [auto|constructor].
        * rewrite <- !app_assoc. reflexivity.
    - destruct (to_csv parse_float fmt_plain fmt_json depth surrogate save load sheet_key keep order size osize wsize dsize unpack pack wbig opos out cols types Ht HV Hk) as [w [Hw HQ]].
      destruct (HQ ces) as [w' [text [Hcl [Hdl Htx]]]]. exists (dest_bytes w'), f0. split; [apply (GO w w' Hw Hcl)|]. intros s' Hr Hfi.
      destruct (to_table Hf2 out cols types _ vs' Ht HT Hb) as [vss [-> [HC [HA HR]]]].
      eapply ho_table; try eassumption. eapply delivered_whole; eassumption.
    - destruct (to_xlsx Hf2 out types name ces vs' Ht Hb) as [w [w' [bk [sheet [rows [vss [Hw [Hcl [Hd [Hg [HC [HN [HR ->]]]]]]]]]]]]].
      exists (dest_bytes w'), f0. split; [apply (GO w w' Hw Hcl)|]. intros s' Hr Hfi. rewrite Hd in Hr.
      eapply ho_book; try eassumption. rewrite Hr. apply HB.
  Qed.

  (** ** Chains *)
  Notation whole_body := (fun fuel a b s => convert fuel a b s 0%Z 0%Z true).
  Notation chain := (chain whole_body).
  Notation stored_along := (stored_along parse_float fmt_plain fmt_json depth keep order).
  Hypothesis floats : float_format N fmt_json parse_float.
  Hypothesis strict : strict_format N fmt_json parse_float.
  Hypothesis packs : lossless_end unpack pack.
  Hypothesis books : forall b, load (save b) = Ok b.

  Theorem chain_ends : forall l in_ s vs vs', holds in_ s vs -> stored_along vs l vs' -> exists out s', chain in_ s l out s'.
  Proof.
    induction l as [|o l IH]; intros in_ s vs vs' Hh Ha.
    - exists in_, s. constructor.
    - inversion Ha as [|? ? vs1 ? ? Hs Hr]; subst.
      destruct (convert_holds floats strict packs books in_ o s vs vs1 0 0 true Hh Hs) as [b [f0 [HC HH]]].
      destruct (IH o (mkSrc b EOF []) vs1 vs' (HH (mkSrc b EOF []) eq_refl eq_refl) Hr) as [out [s' HCh]]. exists out, s'. apply (ch_next whole_body in_ s o b (mkSrc b EOF []) l out s'); [exists f0; exact HC|reflexivity|reflexivity|exact HCh].
  Qed.
  Theorem chain_holds : forall l in_ s vs vs' out s', holds in_ s vs -> stored_along vs l vs' -> chain in_ s l out s' -> holds out s' vs'.
  Proof.
    induction l as [|o l IH]; intros in_ s vs vs' out s' Hh Ha Hc.
    - inversion Ha; subst. inversion Hc; subst. assumption.
    - inversion Ha as [|? ? vs1 ? ? Hs Hr]; subst. inversion Hc as [|? ? ? b s1 ? ? ? [f1 HB] H1 H2 HN]; subst.
      destruct (convert_holds floats strict packs books in_ o s vs vs1 0 0 true Hh Hs) as [b [f0 [HC HH]]].
      assert (E : b = s_rem s1). { specialize (HB (f0 + f1)%nat ltac:(lia)). specialize (HC (f0 + f1)%nat ltac:(lia)). cbv beta in HB. rewrite HC in HB. injection HB as ->. reflexivity. }
      eapply IH; [apply HH; [symmetry; exact E|assumption]|exact Hr|exact HN].
  Qed.
  Variable estimate : list bytes -> Z.
  Variable top_keys : list bytes -> list (bytes * Z).
  Variable float : N -> f64.
  Notation calc := (calculate_dataset parse_float depth surrogate load sheet_key order size osize dsize unpack estimate top_keys float).
  Theorem chain_counts : forall l l' in_ s vs out s' out' s'' ws, holds in_ s vs -> stored_along vs l vs -> stored_along vs l' vs -> chain in_ s l out s' -> chain in_ s l' out' s'' ->
    Forall2 (means float) vs ws -> exists f0 st, (Forall proper ws -> report estimate top_keys sketched ws st) /\
      forall fuel, (f0 <= fuel)%nat -> calc fuel (Some s') (Some out) = Ok st /\ calc fuel (Some s'') (Some out') = Ok st.
  Proof.
    intros l l' in_ s vs out s' out' s'' ws Hh Ha Ha' Hc Hc' HM.
    eapply (calculate_whole parse_float depth surrogate load sheet_key order size osize dsize unpack); try eassumption.
    - eapply (chain_holds l); eassumption.
    - eapply (chain_holds l'); eassumption.
    - clear. induction ws; constructor; [constructor|assumption].
  Qed.
End Any.
Print Assumptions convert_holds.
Print Assumptions chain_ends.
Print Assumptions chain_holds.
Print Assumptions chain_counts.

(** ** Concrete cases, and claims that do not hold. *)
Import P_ConvertCsv P_EntryBuffer.
(** A way to write workbooks as bytes that can be read back: every list after its length. *)
Section Store.
  Context {A : Type}.
  Variable put : A -> bytes.
  Variable get : bytes -> option (A * bytes).
  Hypothesis back : forall a t, get (put a ++ t) = Some (a, t).
  Definition put_list (l : list A) : bytes := N.of_nat (length l) :: flat_map put l.
  Fixpoint get_n (n : nat) (s : bytes) : option (list A * bytes) :=
    match n with O => Some ([], s) | S n' => match get s with Some (a, t) => match get_n n' t with Some (l, u) => Some (a :: l, u) | None => None end | None => None end end.
  Definition get_list (s : bytes) : option (list A * bytes) := match s with [] => None | n :: t => get_n (N.to_nat n) t end.
  Lemma list_back : forall l t, get_list (put_list l ++ t) = Some (l, t).
  Proof.
    intros l t. unfold put_list. cbn [app get_list]. rewrite Nat2N.id. induction l as [|a l IH]; [reflexivity|]. cbn [length flat_map get_n]. rewrite <- app_assoc, back, IH. reflexivity.
  Qed.
End Store.
Definition get_one (s : bytes) : option (N * bytes) := match s with [] => None | c :: t => Some (c, t) end.
Definition put_text (t : bytes) : bytes := put_list (fun c => [c]) t.
Definition get_text : bytes -> option (bytes * bytes) := get_list get_one.
Lemma text_back : forall a t, get_text (put_text a ++ t) = Some (a, t).
Proof. apply list_back. reflexivity. Qed.
Definition put_cell (c : place * bytes) : bytes := N.of_nat (fst (fst c)) :: N.of_nat (snd (fst c)) :: put_text (snd c).
Definition get_cell (s : bytes) : option ((place * bytes) * bytes) :=
  match s with c :: r :: t => match get_text t with Some (v, u) => Some ((N.to_nat c, N.to_nat r, v), u) | None => None end | _ => None end.
Lemma cell_back : forall a t, get_cell (put_cell a ++ t) = Some (a, t).
Proof. intros [[c r] v] t. unfold put_cell. cbn [fst snd app get_cell]. rewrite text_back, !Nat2N.id. reflexivity. Qed.
Definition put_sheet (x : bytes * sheet) : bytes := put_text (fst x) ++ put_list put_cell (snd x).
Definition get_sheet (s : bytes) : option ((bytes * sheet) * bytes) :=
  match get_text s with Some (n, t) => match get_list get_cell t with Some (x, u) => Some ((n, x), u) | None => None end | None => None end.
Lemma sheet_back : forall a t, get_sheet (put_sheet a ++ t) = Some (a, t).
Proof. intros [n x] t. unfold put_sheet, get_sheet. cbn [fst snd]. rewrite <- app_assoc, text_back, (list_back _ _ cell_back). reflexivity. Qed.
Definition save_book (b : book) : bytes := put_list put_sheet b.
Definition load_book (s : bytes) : res book := match get_list get_sheet s with Some (b, _) => Ok b | None => Err (EMsg "zip: not a valid zip file") end.
Lemma book_back : forall b, load_book (save_book b) = Ok b.
Proof. intros b. unfold load_book, save_book. rewrite <- (app_nil_r (put_list put_sheet b)), (list_back _ _ sheet_back). reflexivity. Qed.

Definition any_convert : nat -> shape -> shape -> src -> Z -> Z -> bool -> res bytes :=
  convert demo_parse (fun _ => []) (fun _ => None) 8 (bs "?") save_book load_book (fun n => n) (fun s => s) (fun m => m) demo_size 16 16 16 demo_unpack demo_pack.
Definition as_book : shape := mkShape (bs "xlsx") [] (Some (demo_schema [demo_col "a" "string"; demo_col "b" "boolean"])) None.
Lemma demo_lossless_end : lossless_end demo_unpack demo_pack.
Proof. intros f b s H Hf. eexists. split; [reflexivity|]. cbn [s_rem s_fin]. rewrite H. unfold demo_pack. rewrite skipn_app, skipn_all, Nat.sub_diag. split; [reflexivity|assumption]. Qed.
Lemma demo_formats : float_format N (fun _ => None) demo_parse /\ strict_format N (fun _ => None) demo_parse.
Proof. split; intros f t H; discriminate H. Qed.
(** Two rows through every format. *)
Example chain_ex : let vs := [VArr [VStr (bs "x;y"); VBool true]; VArr [VStr (bs "q"); VBool false]] in
  stored_along demo_parse (fun _ => []) (fun _ => None) 8 (fun s => s) (fun m => m) vs [as_packed; as_book; as_lines; as_cbor; as_json] vs /\
  let step a b x := from (zero_ok (any_convert 60 a b x 0 0 true)) in
  let s0 := from (bs "[[""x;y"",true],[""q"",false]]") in
  let s1 := step as_json as_packed s0 in let s2 := step as_packed as_book s1 in let s3 := step as_book as_lines s2 in let s4 := step as_lines as_cbor s3 in
  s_rem s1 = bs "gzip" ++ bs """x;y"";true" ++ nl ++ bs "q;false" ++ nl /\
  load_book (s_rem s2) = Ok [(bs "Sheet1", [((2%nat, 2%nat), bs "false"); ((1%nat, 2%nat), bs "q"); ((2%nat, 1%nat), bs "true"); ((1%nat, 1%nat), bs "x;y")])] /\
  s_rem s3 = bs "[""x;y"",true]" ++ nl ++ bs "[""q"",false]" ++ nl /\ s_rem s4 = bs "gzip" ++ cbor_encode (VArr vs) /\ any_convert 60 as_cbor as_json s4 0 0 true = Ok (s_rem s0).
Proof.
  cbv zeta. split; [|vm_compute; repeat split].
  assert (OC : forall also : list (gval N) -> Prop, (also [VStr (bs "x;y"); VBool true]) -> also [VStr (bs "q"); VBool false] ->
    Forall2 (fun v v' => own_cells demo_parse (fun _ => []) (fun _ => None) 8 [bs "string"; bs "boolean"] v v' also)
      [VArr [VStr (bs "x;y"); VBool true]; VArr [VStr (bs "q"); VBool false]] [VArr [VStr (bs "x;y"); VBool true]; VArr [VStr (bs "q"); VBool false]]).
  { intros also H1 H2. constructor; [|constructor; [|constructor]]; eexists _, _; (split; [reflexivity|]); (split; [reflexivity|]); (split; [reflexivity|]); (split; [|assumption]);
      (constructor; [constructor; cbn; intuition discriminate|constructor; [constructor|constructor]]). }
  apply (sa_next _ _ _ _ _ _ _ as_packed [VArr [VStr (bs "x;y"); VBool true]; VArr [VStr (bs "q"); VBool false]]).
  { eapply (so_table _ _ _ _ _ _ as_packed _ _ [_; _] [bs "string"; bs "boolean"]).
    - split; [reflexivity|split; [eexists; vm_compute; reflexivity|repeat constructor; eexists; reflexivity]].
    - reflexivity.
    - right. eexists. reflexivity.
    - discriminate.
    - apply OC; (split; [|reflexivity]); repeat constructor; cbn; intuition discriminate. }
  apply (sa_next _ _ _ _ _ _ _ as_book [VArr [VStr (bs "x;y"); VBool true]; VArr [VStr (bs "q"); VBool false]]).
  { eapply (so_sheet _ _ _ _ _ _ as_book _ _ [bs "string"; bs "boolean"] (bs "Sheet1")).
    - split; [reflexivity|]. split; [reflexivity|]. split; [|eexists [_; _], _; split; [vm_compute; reflexivity|repeat constructor; eexists; reflexivity]].
      constructor.
    - apply OC; (split; [discriminate|split; [cbn; lia|reflexivity]]). }
  apply (sa_next _ _ _ _ _ _ _ as_lines [VArr [VStr (bs "x;y"); VBool true]; VArr [VStr (bs "q"); VBool false]]).
  { apply so_lines; [split; [reflexivity|eexists; split; reflexivity]|left; reflexivity|].
    constructor; [|constructor; [|constructor]]; (split; [|split]);
      try (apply lb_arr; constructor; [apply lb_str, cleaned_ascii; reflexivity|constructor; [constructor|constructor]]);
      try (constructor; constructor; [constructor|constructor; [constructor|constructor]]);
      intros X; inversion X as [|? v Hin Hv|]; subst; destruct Hin as [<-|[<-|[]]]; inversion Hv. }
  apply (sa_next _ _ _ _ _ _ _ as_cbor [VArr [VStr (bs "x;y"); VBool true]; VArr [VStr (bs "q"); VBool false]]).
  { apply so_cbor; [split; [reflexivity|eexists; split; reflexivity]|right; eexists; reflexivity|repeat constructor; cbn; lia|cbn; lia|reflexivity|reflexivity]. }
  apply (sa_next _ _ _ _ _ _ _ as_json [VArr [VStr (bs "x;y"); VBool true]; VArr [VStr (bs "q"); VBool false]]); [|constructor].
  apply so_json; [split; [reflexivity|eexists; split; reflexivity]|left; reflexivity|].
  constructor; [|constructor; [|constructor]]; apply cb_arr; (constructor; [apply cb_str, cleaned_ascii; reflexivity|constructor; [constructor|constructor]]).
Qed.
(** What the chain starts from is a JSON body of these values. *)
Example chain_start_ex : holds demo_parse 8 (fun m => m) demo_unpack load_book (fun n => n) as_json (from (bs "[[""x;y"",true],[""q"",false]]")) [VArr [VStr (bs "x;y"); VBool true]; VArr [VStr (bs "q"); VBool false]].
Proof.
  assert (B : blank []) by constructor.
  assert (C : forall t, forallb (fun c => negb (c =? 34)%N && negb (c =? 92)%N) t = true -> jchars t t).
  { induction t as [|c t IH]; intros H; [constructor|]. cbn [forallb] in H. apply andb_true_iff in H. destruct H as [H1 H2]. apply andb_true_iff in H1. destruct H1 as [H0 H1].
    constructor; [intros ->; discriminate H0|intros ->; discriminate H1|auto]. }
  assert (R : forall (s : bytes) (b : bool) (t : bytes), forallb (fun c => negb (c =? 34)%N && negb (c =? 92)%N) s = true -> t = bs "[""" ++ s ++ bs """," ++ bs (if b then "true" else "false") ++ bs "]" ->
    jtext N (float_reads N demo_parse) (VArr [VStr s; VBool b]) t).
  { intros s b t Hs ->. pose proof (jt_arr N (float_reads N demo_parse) (VStr s) [VBool b] [] _ ([] ++ 44%N :: [] ++ bs (if b then "true" else "false") ++ []) B (jt_str _ _ s s (C s Hs))) as X.
    match type of X with _ -> jtext _ _ _ ?u => replace (bs "[""" ++ s ++ bs """," ++ bs (if b then "true" else "false") ++ bs "]") with u by (destruct b; cbn; rewrite <- !app_assoc; reflexivity) end.
    apply X. apply jl_cons; [assumption|assumption|destruct b; constructor|constructor; assumption]. }
  apply (ho_json _ _ _ _ _ _ as_json _ (bs "[[""x;y"",true],[""q"",false]]")); [split; [reflexivity|eexists; split; reflexivity]|left; auto|].
  apply (jda_cons N _ _ [_] [] [] (bs "[""x;y"",true]") (bs ",[""q"",false]")); [assumption|assumption|apply R; reflexivity|].
  apply (jl_cons N _ _ [] [] [] (bs "[""q"",false]") []); [assumption|assumption|apply R; reflexivity|constructor; assumption].
Qed.
(** Not every chain keeps the values: a sheet makes a text of null, and a text that reads as a boolean becomes one; lines make
    floats of integers. *)
Theorem chain_keeps_refuted : let back a b x := any_convert 60 b a (from (zero_ok (any_convert 60 a b (from x) 0 0 true))) 0 0 true in
  back as_json as_book (bs "[[null,""true""]]") = Ok (bs "[["""",true]]") /\
  back as_cbor as_book (bs "gzip" ++ cbor_encode (VArr [VArr [VNil; VStr (bs "no")]])) = Ok (bs "gzip" ++ cbor_encode (VArr [VArr [VStr []; VStr (bs "no")]])) /\
  any_convert 60 as_lines as_cbor (from (zero_ok (any_convert 60 as_json as_lines (from (bs "[[7]]")) 0 0 true))) 0 0 true <> any_convert 60 as_json as_cbor (from (bs "[[7]]")) 0 0 true.
Proof. vm_compute. repeat split; discriminate. Qed.
Print Assumptions chain_keeps_refuted.
