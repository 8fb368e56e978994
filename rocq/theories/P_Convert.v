(** C70: converting bodies from one format to another with ConvertFile. *)
From Verif Require Import Base M_Decimal M_Bufio L_Bufio M_Utf8 S_Utf8 M_Sink M_Json M_JsonWrite S_JsonText S_JsonBack L_JsonRead L_JsonDoc P_Json M_Cbor S_Cbor L_Cbor L_CborWrite P_Cbor
  M_Columns M_Tabular M_CsvText M_Csv M_NDJson S_NDJson P_NDJson M_Xlsx M_Formats M_Stream S_Stream L_Stream M_Convert S_Convert L_Convert.
From Verif Require Import L_JsonBuf.
From Verif Require L_Tabular L_UnmarshalInv.

Section Convert.
  Variable parse_float : bytes -> option N.
  Variable fmt_plain : N -> bytes.
  Variable fmt_json : N -> option bytes.
  Variable depth : nat.
  Variable surrogate : bytes.
  Variable save : book -> bytes.
  Variable load : bytes -> res book.
  Variables sheet_key keep : bytes -> bytes.
  Variable order : jmap -> jmap.
  Variables size osize wsize dsize : nat.
  Variable unpack : bytes -> src -> res src.
  Variable pack : bytes -> bytes -> bytes.
  Notation convert := (convert parse_float fmt_plain fmt_json depth surrogate save load sheet_key keep order size osize wsize dsize unpack pack).
  Notation new_entry_reader := (new_entry_reader load sheet_key order size dsize unpack).
  Notation read_step := (read_step parse_float depth surrogate osize).
  Notation write_step := (write_step fmt_plain fmt_json sheet_key keep wsize).
  Notation convert_writer := (convert_writer sheet_key order wsize).
  Notation close_step := (close_step save).
  Notation dest_bytes := (dest_bytes pack).
  Notation float_reads := (float_reads N parse_float).
  Notation jdoc_array := (jdoc_array N float_reads).
  Notation jdoc_object := (jdoc_object N float_reads).
  Notation comes_back := (comes_back N fmt_json).
  Notation content := (content unpack).
  Notation delivered := (delivered pack).

  Lemma opened : forall comp s data, content comp s data -> exists s', wrap_decompressor unpack comp s = Ok s' /\ s_rem s' = data.
  Proof.
    intros comp s data [[-> H]|[f [s' [Hp [Hu Hr]]]]]; [exists s; auto|]. exists s'. split; [|assumption].
    destruct comp; [discriminate|]. cbn [wrap_decompressor]. rewrite Hp. assumption.
  Qed.
  Lemma wrapped : forall comp, known comp -> exists c, wrap_compressor comp = Ok c /\
    forall w, delivered comp (dest_bytes (None, w)) (dest_bytes (c, w)).
  Proof.
    intros comp [->|[f Hf]].
    - exists None. split; [reflexivity|]. intros w. left. auto.
    - exists (Some f). destruct comp; [discriminate|]. cbn [wrap_compressor]. rewrite Hf. split; [reflexivity|].
      intros w. right. exists f. split; [assumption|]. reflexivity.
  Qed.
  Lemma typed_top : forall sh f tlt, typed sh f tlt -> tlt = bs "array" \/ tlt = bs "object" ->
    structure_data_format (sh_format sh) = f /\ (exists m, required (sh_schema sh) = Ok m) /\ get_top_level_type (sh_schema sh) = Ok tlt.
  Proof.
    intros sh f tlt [Hf [m [Hm Ht]]] Ho. rewrite Hm. split; [assumption|]. split; [exists m; reflexivity|]. cbn [get_top_level_type]. rewrite Ht.
    destruct Ho as [->| ->]; reflexivity.
  Qed.

  (** Sources *)
  Lemma json_source : forall in_ tlt s doc es e fuel, typed in_ fJSON tlt -> tlt = bs "array" \/ tlt = bs "object" ->
    content (sh_compression in_) s doc ->
    (forall s', s_rem s' = doc -> exists n, read_json N parse_float surrogate (is_object tlt) size s' n fuel = Ok (es, Err e)) ->
    exists r r', new_entry_reader in_ s = Ok r /\ yields (read_step fuel) r es e r'.
  Proof.
    intros in_ tlt s doc es e fuel Ht Ho Hc Hr. destruct (typed_top _ _ _ Ht Ho) as [Hf [[m Hm] Hg]]. destruct (opened _ _ _ Hc) as [s' [Hw Hs]].
    destruct (Hr s' Hs) as [n Hn]. unfold read_json in Hn.
    destruct (run_json (read_loop N parse_float surrogate n fuel (mkJs (is_object tlt) false 0)) (mkJst (new_bufr size s') 0)) as [[x st']|e0| |] eqn:E; try discriminate.
    injection Hn as ->. apply (json_yields parse_float depth surrogate osize) in E. destruct E as [r' Hy].
    eexists _, r'. split; [|exact Hy]. unfold M_Convert.new_entry_reader. rewrite Hf. cbn [Z.eqb Pos.eqb fJSON fCBOR].
    unfold open_json. rewrite Hm, Hg. cbn [rthen]. rewrite Hw. reflexivity.
  Qed.
  Lemma cbor_source : forall in_ tlt s doc es fuel, typed in_ fCBOR tlt -> tlt = bs "array" \/ tlt = bs "object" ->
    content (sh_compression in_) s doc -> (2 * length doc < fuel)%nat ->
    (forall s', s_rem s' = doc -> exists e, cbor_read_all (is_object tlt) s' = (es, Err e)) ->
    exists r r' e, new_entry_reader in_ s = Ok r /\ yields (read_step fuel) r es e r'.
  Proof.
    intros in_ tlt s doc es fuel Ht Ho Hc Hfu Hr. destruct (typed_top _ _ _ Ht Ho) as [Hf [[m Hm] Hg]]. destruct (opened _ _ _ Hc) as [s' [Hw Hs]].
    destruct (Hr s' Hs) as [e1 Hn].
    rewrite (cbor_read_fuel_irrelevant (is_object tlt) s' (S (length (s_rem s'))) fuel) in Hn by (rewrite Hs; lia).
    destruct (run_buf (plain tt (cbor_read_loop (S (length (s_rem s'))) fuel (is_object tlt) cbor_start)) (new_bufr cbor_buf_size s')) as [[es1 x] b'] eqn:E.
    cbn [fst] in Hn. injection Hn as <- ->. apply (cbor_yields parse_float depth surrogate osize) in E. destruct E as [r' Hy].
    eexists _, r', e1. split; [|exact Hy]. unfold M_Convert.new_entry_reader. rewrite Hf. cbn [Z.eqb Pos.eqb fCBOR].
    unfold open_cbor. rewrite Hm. cbn [rthen]. rewrite Hw. cbn [rthen]. rewrite Hg. reflexivity.
  Qed.

  Lemma map_chosen : forall A B (f : A -> B) all offset limit l, map f (chosen all offset limit l) = chosen all offset limit (map f l).
  Proof.
    intros A B f all offset limit l. unfold chosen, window. destruct all; [reflexivity|]. destruct (limit <? 0)%Z; rewrite <- ?firstn_map, <- skipn_map; reflexivity.
  Qed.
  Lemma numbers_vals : forall (vs : list (gval N)) i, map e_val (number_from i vs) = vs.
  Proof. induction vs as [|v vs IH]; intros i; [reflexivity|]. cbn. rewrite IH. reflexivity. Qed.
  Lemma numbers_length : forall (vs : list (gval N)) i, length (number_from i vs) = length vs.
  Proof. induction vs as [|v vs IH]; intros i; [reflexivity|]. cbn. rewrite IH. reflexivity. Qed.
  Lemma array_vals : forall vs i, map e_val (array_entries i vs) = vs.
  Proof. induction vs as [|v vs IH]; intros i; [reflexivity|]. cbn. rewrite IH. reflexivity. Qed.
  Lemma jarray_length : forall vs doc, jdoc_array vs doc -> (length vs < length doc)%nat.
  Proof. intros vs doc H. apply jdoc_array_gdoc in H. apply gdoc_length in H. lia. Qed.

  (** A CBOR writer takes all entries of an array. *)
  Lemma to_cbor_array : forall out es, typed out fCBOR (bs "array") -> known (sh_compression out) ->
    exists w w' b, convert_writer out = Ok w /\ close_step (write_until write_step w es) = (None, w') /\ dest_bytes w' = b /\
      delivered (sh_compression out) (cbor_encode (VArr (map e_val es))) b.
  Proof.
    intros out es Ht Hk. destruct (typed_top _ _ _ Ht (or_introl eq_refl)) as [Hf [[m Hm] Hg]]. destruct (wrapped _ Hk) as [c [Hc Hd]].
    exists (c, WCbor (new_cbor_writer false) []). eexists _, _. split; [|split; [|split; [reflexivity|]]].
    - unfold M_Convert.convert_writer, new_entry_writer. rewrite Hf. cbn [Z.eqb Pos.eqb fCBOR fJSON]. unfold make_cbor. rewrite Hm, Hg, Hc. reflexivity.
    - change (new_cbor_writer false) with (mkCw false [] []). rewrite cbor_array_until. unfold M_Convert.close_step. cbn [fst snd app]. reflexivity.
    - apply (Hd (WCbor _ (cbor_close (mkCw false (map e_val es) [])))).
  Qed.

  (** C70: a JSON array becomes the CBOR array of the chosen values. *)
  Theorem convert_json_to_cbor : forall in_ out s vs doc limit offset all fuel, typed in_ fJSON (bs "array") -> typed out fCBOR (bs "array") ->
    content (sh_compression in_) s doc -> known (sh_compression out) -> jdoc_array vs doc -> (3 * length doc + 3 <= fuel)%nat ->
    exists b, convert fuel in_ out s limit offset all = Ok b /\ delivered (sh_compression out) (cbor_encode (VArr (chosen all offset limit vs))) b.
  Proof.
    intros in_ out s vs doc limit offset all fuel Hi Ho Hc Hk Hd Hf. pose proof (jarray_length _ _ Hd) as L.
    destruct (json_source in_ _ s doc (number_from 0 vs) EOF fuel Hi (or_introl eq_refl) Hc) as [r [r' [Hr Hy]]].
    { intros s' Hs. exists (S (length doc)). apply (json_reads_array N parse_float surrogate vs doc Hd); auto. }
    destruct (to_cbor_array out (chosen all offset limit (number_from 0 vs)) Ho Hk) as [w [w' [b [Hw [Hcl [Hb Hdl]]]]]].
    exists b. rewrite map_chosen, numbers_vals in Hdl. split; [|assumption]. unfold M_Convert.convert. rewrite Hw, Hr.
    rewrite (convert_until _ _ _ _ _ _ _ _ _ w limit offset all fuel Hy) by (rewrite numbers_length; lia). rewrite Hcl, Hb. reflexivity.
  Qed.

  (** A JSON writer, compact or pretty. *)
  Lemma to_json : forall out tlt, typed out fJSON tlt -> tlt = bs "array" \/ tlt = bs "object" -> known (sh_compression out) ->
    exists ind w, blank ind /\ convert_writer out = Ok w /\
      forall es os doc, json_write N fmt_json (is_object tlt) ind good_sink None es = (os, None, doc) -> Forall (fun o => o = None) os ->
        exists w', close_step (write_until write_step w es) = (None, w') /\ delivered (sh_compression out) doc (dest_bytes w').
  Proof.
    intros out tlt Ht Ho Hk. destruct (typed_top _ _ _ Ht Ho) as [Hf [[m Hm] Hg]]. destruct (wrapped _ Hk) as [c [Hc Hd]].
    assert (M : forall ind, make_json ind out good_sink = Ok (c, WJson (new_jwriter (is_object tlt) ind good_sink))).
    { intros ind. unfold make_json. rewrite Hm, Hg, Hc. reflexivity. }
    assert (X : exists ind, blank ind /\ convert_writer out = Ok (c, WJson (new_jwriter (is_object tlt) ind good_sink))).
    { unfold M_Convert.convert_writer, new_entry_writer. rewrite Hf. cbn [Z.eqb Pos.eqb fJSON fCBOR]. rewrite M. cbn [rthen].
      destruct (map_get (bs "pretty") (some_map (sh_config out))) as [[ |[|] | | | | | | ]|]; rewrite ?M;
        solve [exists []; split; [constructor|reflexivity] | exists [32%N]; split; [repeat constructor|reflexivity]]. }
    destruct X as [ind [Hi Hw]]. exists ind. eexists. split; [assumption|]. split; [eassumption|].
    intros es os doc H Hn. unfold json_write in H. destruct (json_write_all N fmt_json (new_jwriter (is_object tlt) ind good_sink) es) as [os1 w1] eqn:E1.
    destruct (json_close None w1) as [x w2] eqn:E2. injection H as -> -> <-.
    rewrite (write_until_all _ _ _ _ (json_accepts fmt_plain fmt_json sheet_key keep wsize c _ _ _ _ E1 Hn)).
    unfold M_Convert.close_step. cbn [fst snd]. rewrite E2. eexists. split; [reflexivity|]. apply (Hd (WJson w2)).
  Qed.

  (** C70: a written CBOR array becomes a JSON array.  The values end before the first one that cannot be read, and
      that is not reported. *)
  Theorem convert_cbor_to_json : float_format N fmt_json parse_float ->
    forall in_ out s vs vs' limit offset all fuel, typed in_ fCBOR (bs "array") -> typed out fJSON (bs "array") ->
    content (sh_compression in_) s (cbor_encode (VArr vs)) -> known (sh_compression out) ->
    Forall wf_value vs -> (N.of_nat (length vs) < 2 ^ 44)%N -> (2 * length (cbor_encode (VArr vs)) < fuel)%nat ->
    Forall2 comes_back (chosen all offset limit (longest readable vs)) vs' ->
    exists b doc, convert fuel in_ out s limit offset all = Ok b /\ delivered (sh_compression out) doc b /\ jdoc_array vs' doc.
  Proof.
    intros Hfmt in_ out s vs vs' limit offset all fuel Hi Ho Hc Hk Hwf Hlen Hf Hb.
    set (es0 := array_entries 0 vs).
    assert (E0 : cbor_close (snd (cbor_write_all (new_cbor_writer false) es0)) = cbor_encode (VArr vs)).
    { destruct (cbor_writer_array es0) as [_ ->]. unfold es0. rewrite array_vals. reflexivity. }
    destruct (cbor_source in_ _ s _ (array_entries 0 (longest readable vs)) fuel Hi (or_introl eq_refl) Hc Hf) as [r [r' [e [Hr Hy]]]].
    { intros s' Hs. pose proof (cbor_round_trip_array es0 (s_fin s') (s_sched s')) as T. rewrite E0 in T. unfold es0 in T. rewrite array_vals in T. cbv zeta in T.
      replace (mkSrc (cbor_encode (VArr vs)) (s_fin s') (s_sched s')) with s' in T by (destruct s'; cbn in *; subst; reflexivity).
      change (is_object (bs "array")) with false. destruct (cbor_read_all false s') as [got o]. destruct T as [-> T].
      - apply (proj1 (Forall_map e_val wf_value _)). rewrite array_vals. assumption.
      - rewrite <- (map_length e_val), array_vals. assumption.
      - destruct (forallb readable vs); [exists (s_fin s'); rewrite T; reflexivity|]. destruct T as [x [-> _]]. exists x. reflexivity. }
    destruct (to_json out _ Ho (or_introl eq_refl) Hk) as [ind [w [Hind [Hw Hjs]]]]. change (is_object (bs "array")) with false in Hjs.
    set (ces := chosen all offset limit (array_entries 0 (longest readable vs))) in *.
    assert (Hb2 : Forall2 (fun e v => comes_back (e_val e) v) ces vs').
    { assert (EM : chosen all offset limit (longest readable vs) = map e_val ces) by (unfold ces; rewrite map_chosen, array_vals; reflexivity).
      rewrite EM in Hb. clear -Hb. revert vs' Hb. induction ces as [|x l IH]; intros vs' Hb; inversion Hb; subst; constructor; auto. }
    destruct (json_array_round_trip N fmt_json parse_float surrogate ind None ces vs' Hfmt Hind Hb2) as [os [doc [E [Hn [_ [Hd _]]]]]].
    destruct (Hjs _ _ _ E Hn) as [w' [Hcl Hdl]]. exists (dest_bytes w'), doc. split; [|split; assumption].
    unfold M_Convert.convert. rewrite Hw, Hr. rewrite (convert_until _ _ _ _ _ _ _ _ _ w limit offset all fuel Hy).
    - fold ces. rewrite Hcl. reflexivity.
    - rewrite <- (map_length e_val), array_vals. rewrite encode_arr, app_length in Hf.
      assert (L1 : forall l : list (gval N), (length (longest readable l) <= length l)%nat) by (induction l as [|x l IH]; cbn; [lia|]; destruct (readable x); cbn; lia).
      assert (L2 : forall l, (length l <= length (flat_map cbor_encode l))%nat).
      { induction l as [|x l IH]; cbn; [lia|]. rewrite app_length. enough (1 <= length (cbor_encode x))%nat by lia.
        destruct x; cbn [cbor_encode length]; try lia; rewrite ?app_length; unfold cbor_head;
          repeat match goal with |- context [if ?c then _ else _] => destruct c end; cbn [length]; lia. }
      specialize (L1 vs). specialize (L2 vs). lia.
  Qed.

  (** C70: there and back through CBOR.  All chosen values that CBOR can carry come back; the values after the first
      one it cannot carry are dropped, with success reported both times. *)
  Theorem convert_through_cbor : float_format N fmt_json parse_float -> lossless unpack pack ->
    forall a b s vs vs' doc limit offset all fuel, typed a fJSON (bs "array") -> typed b fCBOR (bs "array") ->
    content (sh_compression a) s doc -> known (sh_compression a) -> known (sh_compression b) -> jdoc_array vs doc ->
    let us := chosen all offset limit vs in
    Forall wf_value us -> (N.of_nat (length us) < 2 ^ 44)%N ->
    (3 * length doc + 3 <= fuel)%nat -> (2 * length (cbor_encode (VArr us)) < fuel)%nat ->
    Forall2 comes_back (longest readable us) vs' ->
    exists mid, convert fuel a b s limit offset all = Ok mid /\
      forall s2, s_rem s2 = mid -> exists fin doc2, convert fuel b a s2 0 0 true = Ok fin /\ delivered (sh_compression a) doc2 fin /\ jdoc_array vs' doc2.
  Proof.
    intros Hfmt Hll a b s vs vs' doc limit offset all fuel Ha Hb Hc Hka Hkb Hd us Hwf Hlen Hf1 Hf2 Hback.
    destruct (convert_json_to_cbor a b s vs doc limit offset all fuel Ha Hb Hc Hkb Hd Hf1) as [mid [Hm Hdl]].
    exists mid. split; [assumption|]. intros s2 Hs2.
    destruct (convert_cbor_to_json Hfmt b a s2 us vs' 0 0 true fuel Hb Ha) as [fin [doc2 [H1 [H2 H3]]]]; auto; [|exists fin, doc2; auto].
    fold us in Hdl. destruct Hdl as [[E1 E2]|[f [E1 E2]]]; [left; split; [assumption|congruence]|].
    right. destruct (Hll f (cbor_encode (VArr us)) s2) as [s' [U1 U2]]; [congruence|]. exists f, s'. auto.
  Qed.

  (** Objects *)
  Lemma cbor_object_until : forall c out kvs seen m, sorted m -> (forall k, In k seen <-> map_get k m <> None) ->
    exists m', write_until write_step (c, WCbor (mkCw true [] m) out) (object_entries kvs) = (c, WCbor (mkCw true [] m') out) /\ sorted m' /\
      forall k v, map_get k m' = Some v <-> map_get k m = Some v \/ In (k, v) (fresh_keys seen kvs).
  Proof.
    intros c out. induction kvs as [|[k v] kvs IH]; intros seen m Hs Hseen.
    - exists m. cbn. split; [reflexivity|]. split; [assumption|]. intros k v. tauto.
    - cbn [object_entries map write_until fst snd fresh_keys]. fold (object_entries kvs).
      destruct k as [|k0 kr].
      { exists m. cbn [beqb orb]. split; [reflexivity|]. split; [assumption|]. intros k v'. cbn [In]. tauto. }
      set (k := k0 :: kr) in *. assert (W : write_step (c, WCbor (mkCw true [] m) out) (mkEntry 0 k v) =
        match map_get k m with Some _ => (Some (EMsg "key already written"), (c, WCbor (mkCw true [] m) out))
        | None => (None, (c, WCbor (mkCw true [] (map_set k v m)) out)) end).
      { unfold M_Convert.write_step, cbor_write_entry. cbn [fst snd cw_obj cw_arr cw_map e_key e_val]. unfold k at 1. fold k. destruct (map_get k m); reflexivity. }
      rewrite W. destruct (map_get k m) as [v0|] eqn:G.
      + assert (E : existsb (beqb k) seen = true).
        { apply existsb_exists. exists k. split; [apply Hseen; congruence|apply beqb_refl]. }
        rewrite E, orb_true_r. exists m. split; [reflexivity|]. split; [assumption|]. intros k1 v1. cbn [In]. tauto.
      + assert (E : existsb (beqb k) seen = false).
        { apply Bool.not_true_is_false. intros H. apply existsb_exists in H. destruct H as [x [Hx Hx2]]. apply beqb_eq in Hx2. subst x.
          apply Hseen in Hx. congruence. }
        rewrite E. replace (beqb k []) with false by reflexivity. cbn [orb].
        destruct (IH (k :: seen) (map_set k v m)) as [m' [E1 [E2 E3]]].
        * apply sorted_set. assumption.
        * intros k1. cbn [In]. destruct (list_eq_dec N.eq_dec k1 k) as [->|Hne].
          -- rewrite map_get_set_eq. split; [discriminate|auto].
          -- rewrite map_get_set_neq by assumption. rewrite <- Hseen. split; [intros [H|H]; congruence || assumption|auto].
        * exists m'. split; [assumption|]. split; [assumption|]. intros k1 v1. rewrite E3. cbn [In].
          destruct (list_eq_dec N.eq_dec k1 k) as [->|Hne].
          -- rewrite map_get_set_eq, G. split.
             ++ intros [H|H]; [right; left; congruence|right; right; assumption].
             ++ intros [H|[H|H]]; [discriminate|left; congruence|right; assumption].
          -- rewrite map_get_set_neq by assumption. split; [intros [H|H]; auto|]. intros [H|[H|H]]; auto. injection H as -> _. congruence.
  Qed.
  Lemma to_cbor_object : forall out kvs, typed out fCBOR (bs "object") -> known (sh_compression out) ->
    exists w w' b m, convert_writer out = Ok w /\ close_step (write_until write_step w (object_entries kvs)) = (None, w') /\ dest_bytes w' = b /\
      delivered (sh_compression out) (cbor_encode (VMap m)) b /\ sorted m /\ forall k v, map_get k m = Some v <-> In (k, v) (fresh_keys [] kvs).
  Proof.
    intros out kvs Ht Hk. destruct (typed_top _ _ _ Ht (or_intror eq_refl)) as [Hf [[m Hm] Hg]]. destruct (wrapped _ Hk) as [c [Hc Hd]].
    destruct (cbor_object_until c [] kvs [] []) as [m' [E1 [E2 E3]]].
    { exact I. }
    { intros k. cbn. split; [tauto|congruence]. }
    exists (c, WCbor (new_cbor_writer true) []). eexists _, _, m'. split; [|split; [|split; [reflexivity|split; [|split; [assumption|]]]]].
    - unfold M_Convert.convert_writer, new_entry_writer. rewrite Hf. cbn [Z.eqb Pos.eqb fCBOR fJSON]. unfold make_cbor. rewrite Hm, Hg, Hc. reflexivity.
    - change (new_cbor_writer true) with (mkCw true [] []). rewrite E1. unfold M_Convert.close_step. cbn [fst snd]. reflexivity.
    - apply (Hd (WCbor _ (cbor_close (mkCw true [] m')))).
    - intros k v. rewrite E3. cbn. split; [intros [H|H]; [discriminate|assumption]|auto].
  Qed.
  Lemma object_length : forall kvs doc, jdoc_object kvs doc -> (length kvs < length doc)%nat.
  Proof. intros kvs doc H. apply jdoc_object_gdoc in H. apply gdoc_length in H. lia. Qed.
  Lemma chosen_entries : forall all offset limit kvs, chosen all offset limit (object_entries kvs) = object_entries (chosen all offset limit kvs).
  Proof. intros. unfold object_entries. symmetry. apply map_chosen. Qed.

  (** C70: a JSON object becomes a CBOR map of the chosen entries before the first one whose key is empty or was
      there before; what follows is dropped without an error. *)
  Theorem convert_json_object_to_cbor : forall in_ out s kvs doc limit offset all fuel, typed in_ fJSON (bs "object") -> typed out fCBOR (bs "object") ->
    content (sh_compression in_) s doc -> known (sh_compression out) -> jdoc_object kvs doc -> (3 * length doc + 3 <= fuel)%nat ->
    exists b m, convert fuel in_ out s limit offset all = Ok b /\ delivered (sh_compression out) (cbor_encode (VMap m)) b /\
      sorted m /\ forall k v, map_get k m = Some v <-> In (k, v) (fresh_keys [] (chosen all offset limit kvs)).
  Proof.
    intros in_ out s kvs doc limit offset all fuel Hi Ho Hc Hk Hd Hf. pose proof (object_length _ _ Hd) as L.
    destruct (json_source in_ _ s doc (keyed kvs) EOF fuel Hi (or_intror eq_refl) Hc) as [r [r' [Hr Hy]]].
    { intros s' Hs. exists (S (length doc)). apply (json_reads_object N parse_float surrogate kvs doc Hd); auto. }
    destruct (to_cbor_object out (chosen all offset limit kvs) Ho Hk) as [w [w' [b [m [Hw [Hcl [Hb [Hdl [Hs Hg]]]]]]]]].
    exists b, m. split; [|auto]. unfold M_Convert.convert. rewrite Hw, Hr.
    rewrite (convert_until _ _ _ _ _ _ _ _ _ w limit offset all fuel Hy) by (unfold keyed; rewrite map_length; lia).
    change (keyed kvs) with (object_entries kvs). rewrite chosen_entries, Hcl, Hb. reflexivity.
  Qed.

  (** C70: a written CBOR map becomes a JSON object with its pairs in key order, up to the first that cannot be read. *)
  Lemma pair_bytes_some : forall kv, (1 <= length (pair_bytes kv))%nat.
  Proof.
    intros kv. unfold pair_bytes. rewrite !app_length. unfold cbor_head.
    repeat match goal with |- context [if ?c then _ else _] => destruct c end; cbn [length]; lia.
  Qed.
  Lemma longest_front : forall A (p : A -> bool) l, exists r, l = longest p l ++ r.
  Proof.
    induction l as [|x l [r IH]]; [exists []; reflexivity|]. cbn [longest]. destruct (p x); [exists r; cbn [app]; congruence|exists (x :: l); reflexivity].
  Qed.
  Lemma nodup_front : forall A (l r : list A), NoDup (l ++ r) -> NoDup l /\ NoDup r.
  Proof.
    induction l as [|x l IH]; intros r H; [split; [constructor|assumption]|]. inversion H; subst. destruct (IH r H3). split; [|assumption].
    constructor; [|assumption]. intros X. apply H2. apply in_or_app. auto.
  Qed.
  Lemma chosen_split : forall A all offset limit (l : list A), exists a b, l = a ++ chosen all offset limit l ++ b.
  Proof.
    intros A all offset limit l. unfold chosen, window. destruct all; [exists [], []; rewrite app_nil_r; reflexivity|].
    set (n := Z.to_nat offset). destruct (limit <? 0)%Z.
    - exists (firstn n l), []. rewrite app_nil_r, firstn_skipn. reflexivity.
    - exists (firstn n l), (skipn (Z.to_nat limit) (skipn n l)). rewrite firstn_skipn, firstn_skipn. reflexivity.
  Qed.
  Lemma chosen_part : forall A all offset limit (l : list A) x, In x (chosen all offset limit l) -> In x l.
  Proof. intros A all offset limit l x H. destruct (chosen_split A all offset limit l) as [a [b E]]. rewrite E. apply in_or_app. right. apply in_or_app. auto. Qed.
  Lemma chosen_nodup : forall A all offset limit (l : list A), NoDup l -> NoDup (chosen all offset limit l).
  Proof. intros A all offset limit l H. destruct (chosen_split A all offset limit l) as [a [b E]]. rewrite E in H. apply nodup_front in H as [_ H]. apply nodup_front in H. tauto. Qed.
  Theorem convert_cbor_object_to_json : float_format N fmt_json parse_float ->
    forall in_ out s m kvs limit offset all fuel, typed in_ fCBOR (bs "object") -> typed out fJSON (bs "object") ->
    content (sh_compression in_) s (cbor_encode (VMap m)) -> known (sh_compression out) ->
    wf_value (VMap m) -> map_get [] m = None -> (2 * length (cbor_encode (VMap m)) < fuel)%nat ->
    Forall2 (fun kv kv' => cleaned (fst kv) (fst kv') /\ comes_back (snd kv) (snd kv')) (chosen all offset limit (longest readable_pair m)) kvs ->
    exists b doc, convert fuel in_ out s limit offset all = Ok b /\ delivered (sh_compression out) doc b /\ jdoc_object kvs doc.
  Proof.
    intros Hfmt in_ out s m kvs limit offset all fuel Hi Ho Hc Hk Hwf He Hf Hb. assert (Hs : sorted m) by (apply wf_map in Hwf; tauto).
    assert (NI : forall k, In k (map fst m) -> k <> []).
    { intros k Hin ->. apply in_map_iff in Hin. destruct Hin as [[k v] [E Hin]]. cbn in E. subst k. apply (L_Tabular.map_get_in m [] v (L_Tabular.sorted_nodup m Hs)) in Hin. congruence. }
    assert (FV : forall k, map_get k m = first_value k (object_entries m)).
    { intros k. destruct k as [|k0 kr]; [exact He|]. unfold first_value. generalize (k0 :: kr). clear. intros k.
      induction m as [|[k1 v1] l IH]; [reflexivity|]. cbn [map_get find object_entries map fst snd e_key e_val]. destruct (beqb k k1); [reflexivity|]. exact IH. }
    assert (E0 : cbor_close (snd (cbor_write_all (new_cbor_writer true) (object_entries m))) = cbor_encode (VMap m)).
    { destruct (cbor_writer_object (object_entries m)) as [os [w [m1 [-> [EW [S1 [G1 _]]]]]]]. cbn [snd]. rewrite EW.
      replace m1 with m by (apply sorted_ext; auto; intros k; rewrite FV, G1; reflexivity). reflexivity. }
    destruct (cbor_source in_ _ s _ (object_entries (longest readable_pair m)) fuel Hi (or_intror eq_refl) Hc Hf) as [r [r' [e [Hr Hy]]]].
    { intros s' Hs'. pose proof (cbor_round_trip_object (object_entries m) m (s_fin s') (s_sched s') Hs FV Hwf) as T. rewrite E0 in T.
      replace (mkSrc (cbor_encode (VMap m)) (s_fin s') (s_sched s')) with s' in T by (destruct s'; cbn in *; subst; reflexivity).
      change (is_object (bs "object")) with true. destruct (cbor_read_all true s') as [got o]. destruct T as [-> T].
      destruct (forallb readable_pair m); [exists (s_fin s'); rewrite T; reflexivity|]. destruct T as [x [-> _]]. exists x. reflexivity. }
    destruct (to_json out _ Ho (or_intror eq_refl) Hk) as [ind [w [Hind [Hw Hjs]]]]. change (is_object (bs "object")) with true in Hjs.
    set (cs := chosen all offset limit (longest readable_pair m)) in *.
    assert (SUB : forall x, In x cs -> In x m).
    { intros x Hx. assert (In x (longest readable_pair m)).
      { unfold cs in Hx. apply chosen_part in Hx. assumption. }
      destruct (longest_front _ readable_pair m) as [r0 E]. rewrite E. apply in_or_app. auto. }
    assert (ND : NoDup (map fst cs)).
    { assert (D : NoDup (map fst m)) by (apply L_Tabular.sorted_nodup; assumption). destruct (longest_front _ readable_pair m) as [r0 E].
      rewrite E, map_app in D. apply nodup_front in D as [D _]. unfold cs. rewrite map_chosen. apply chosen_nodup. assumption. }
    destruct (json_object_round_trip N fmt_json parse_float surrogate ind None (object_entries cs) kvs Hfmt Hind) as [os [doc [E [Hn [_ [Hd _]]]]]].
    { apply Forall_forall. intros x Hx. apply in_map_iff in Hx. destruct Hx as [kv [<- Hkv]]. cbn [e_key]. apply NI. apply in_map. auto. }
    { unfold object_entries. rewrite map_map. cbn [e_key]. assumption. }
    { clear -Hb. induction Hb; constructor; auto. }
    destruct (Hjs _ _ _ E Hn) as [w' [Hcl Hdl]]. exists (dest_bytes w'), doc. split; [|split; assumption].
    unfold M_Convert.convert. rewrite Hw, Hr. rewrite (convert_until _ _ _ _ _ _ _ _ _ w limit offset all fuel Hy).
    - rewrite chosen_entries. fold cs. rewrite Hcl. reflexivity.
    - unfold object_entries. rewrite map_length. rewrite encode_map, app_length in Hf.
      assert (L1 : forall l : list (bytes * gval N), (length (longest readable_pair l) <= length l)%nat) by (induction l as [|x l IH]; cbn; [lia|]; destruct (readable_pair x); cbn; lia).
      assert (L2 : forall l, (length l <= length (flat_map pair_bytes l))%nat).
      { induction l as [|x l IH]; cbn [flat_map length]; [lia|]. rewrite app_length. pose proof (pair_bytes_some x). lia. }
      specialize (L1 m). specialize (L2 m). lia.
  Qed.

  (** C70: a JSON array that was cut short converts all the same: to the values before the cut, and perhaps one more. *)
  Theorem convert_truncated_json : forall in_ out s vs q c q' fuel, typed in_ fJSON (bs "array") -> typed out fCBOR (bs "array") ->
    content (sh_compression in_) s q -> known (sh_compression out) -> jdoc_array vs (q ++ c :: q') -> ~ ends_escaped q ->
    (3 * length (q ++ c :: q') + 3 <= fuel)%nat ->
    exists b n x, convert fuel in_ out s 0 0 true = Ok b /\ (length x <= 1)%nat /\ delivered (sh_compression out) (cbor_encode (VArr (firstn n vs ++ x))) b.
  Proof.
    intros in_ out s vs q c q' fuel Hi Ho Hc Hk Hd He Hf. pose proof (jarray_length _ _ Hd) as L.
    destruct (opened _ _ _ Hc) as [s0 [Hw0 Hs0]].
    destruct (json_truncated_array N parse_float surrogate vs q c q' Hd size s0 (S (length (q ++ c :: q'))) fuel Hs0) as [[n [x [e [Hx [_ HR]]]]]|[_ HX]]; auto; [|contradiction].
    assert (SRC : exists r r', new_entry_reader in_ s = Ok r /\ yields (read_step fuel) r (firstn n (number_from 0 vs) ++ x) e r').
    { destruct (typed_top _ _ _ Hi (or_introl eq_refl)) as [Hff [[m Hm] Hg]]. unfold read_json in HR.
      destruct (run_json (read_loop N parse_float surrogate (S (length (q ++ c :: q'))) fuel (mkJs false false 0)) (mkJst (new_bufr size s0) 0)) as [[y st']|e0| |] eqn:E; try discriminate.
      injection HR as ->. apply (json_yields parse_float depth surrogate osize) in E. destruct E as [r' Hy].
      eexists _, r'. split; [|exact Hy]. unfold M_Convert.new_entry_reader. rewrite Hff. cbn [Z.eqb Pos.eqb fJSON fCBOR].
      unfold open_json. rewrite Hm, Hg. cbn [rthen]. rewrite Hw0. reflexivity. }
    destruct SRC as [r [r' [Hr Hy]]].
    destruct (to_cbor_array out (firstn n (number_from 0 vs) ++ x) Ho Hk) as [w [w' [b [Hw [Hcl [Hb Hdl]]]]]].
    exists b, n, (map e_val x). split; [|split; [rewrite map_length; assumption|]].
    - unfold M_Convert.convert. rewrite Hw, Hr. rewrite (convert_until _ _ _ _ _ _ _ _ _ w 0%Z 0%Z true fuel Hy).
      + cbn [chosen]. rewrite Hcl, Hb. reflexivity.
      + rewrite app_length, firstn_length, numbers_length. lia.
    - rewrite map_app, <- firstn_map, numbers_vals in Hdl. exact Hdl.
  Qed.

  (** NDJSON *)
  Lemma to_nd : strict_format N fmt_json parse_float -> forall out m es, structure_data_format (sh_format out) = fNDJSON -> sh_schema out = Some m ->
    known (sh_compression out) -> Forall (fun e => ~ refused N fmt_json (e_val e)) es ->
    exists w w' ls, convert_writer out = Ok w /\ close_step (write_until write_step w es) = (None, w') /\
      delivered (sh_compression out) (stream ls []) (dest_bytes w') /\ Forall2 (text_line N parse_float) (map e_val es) ls.
  Proof.
    intros Hfmt out m es Hf Hm Hk Hr. destruct (wrapped _ Hk) as [c [Hc Hd]].
    destruct (nd_write_all N fmt_json (mkNw None good_sink) es) as [os wn] eqn:E.
    destruct (ndjson_nil_means_written N fmt_json parse_float Hfmt good_sink es os (k_out (w_sink wn))) as [ls [part [Eo [HF [Hlen [Hpart Hplan]]]]]].
    { unfold nd_write. rewrite E. reflexivity. }
    specialize (Hplan eq_refl).
    assert (Hn : Forall (fun o => o = None) os).
    { clear -Hplan Hr. induction Hplan; constructor; inversion Hr; subst; [apply H; assumption|auto]. }
    rewrite Hpart in Eo by (clear -Hplan Hr; induction Hplan; constructor; inversion Hr; subst; [left; apply H; assumption|auto]).
    assert (K : kept N es (map is_nil os) = es).
    { clear -Hplan Hr. induction Hplan; [reflexivity|]. inversion Hr; subst. rewrite (proj2 H) by assumption. cbn. f_equal. auto. }
    rewrite K in HF.
    exists (c, WNd (mkNw None good_sink)), (c, WNd wn), ls. split; [|split; [|split]].
    - unfold M_Convert.convert_writer, new_entry_writer. rewrite Hf. cbn [Z.eqb Pos.eqb fCBOR fJSON fCSV fXLSX fNDJSON]. unfold make_nd, required. rewrite Hm. cbn [rthen]. rewrite Hc. reflexivity.
    - rewrite (write_until_all _ _ _ _ (nd_accepts fmt_plain fmt_json sheet_key keep wsize c _ _ _ _ E Hn)). reflexivity.
    - specialize (Hd (WNd wn)). replace (dest_bytes (None, WNd wn)) with (k_out (w_sink wn)) in Hd by reflexivity. rewrite Eo in Hd. exact Hd.
    - clear -HF. induction HF; constructor; auto.
  Qed.
  (** C70: a JSON array becomes one line for each chosen value, and so does a JSON object, whose keys are dropped:
      nothing in the lines tells the two apart. *)
  Theorem convert_json_to_ndjson : strict_format N fmt_json parse_float ->
    forall in_ out m s tlt vs keys doc limit offset all fuel, typed in_ fJSON tlt -> structure_data_format (sh_format out) = fNDJSON -> sh_schema out = Some m ->
    content (sh_compression in_) s doc -> known (sh_compression out) ->
    (tlt = bs "array" /\ jdoc_array vs doc) \/ (tlt = bs "object" /\ length keys = length vs /\ jdoc_object (combine keys vs) doc) ->
    Forall (fun v => ~ refused N fmt_json v) (chosen all offset limit vs) -> (3 * length doc + 3 <= fuel)%nat ->
    exists b ls, convert fuel in_ out s limit offset all = Ok b /\ delivered (sh_compression out) (stream ls []) b /\
      Forall2 (text_line N parse_float) (chosen all offset limit vs) ls.
  Proof.
    intros Hfmt in_ out m s tlt vs keys doc limit offset all fuel Hi Ho Hm Hc Hk Hd Hn Hf.
    assert (SRC : exists es r r', new_entry_reader in_ s = Ok r /\ yields (read_step fuel) r es EOF r' /\ map e_val es = vs /\ (length es < fuel)%nat).
    { destruct Hd as [[-> Hd]|[-> [Hl Hd]]].
      - pose proof (jarray_length _ _ Hd) as L. destruct (json_source in_ _ s doc (number_from 0 vs) EOF fuel Hi (or_introl eq_refl) Hc) as [r [r' [Hr Hy]]].
        { intros s' Hs. exists (S (length doc)). apply (json_reads_array N parse_float surrogate vs doc Hd); auto. }
        exists (number_from 0 vs), r, r'. rewrite numbers_vals, numbers_length. repeat split; auto. lia.
      - pose proof (object_length _ _ Hd) as L. destruct (json_source in_ _ s doc (keyed (combine keys vs)) EOF fuel Hi (or_intror eq_refl) Hc) as [r [r' [Hr Hy]]].
        { intros s' Hs. exists (S (length doc)). apply (json_reads_object N parse_float surrogate _ doc Hd); auto. }
        exists (keyed (combine keys vs)), r, r'. repeat split; auto.
        + unfold keyed. rewrite map_map. cbn [e_val]. clear -Hl. revert vs Hl. induction keys as [|k keys IH]; intros [|v vs] Hl; try discriminate; [reflexivity|]. cbn. f_equal. apply IH. cbn in Hl. lia.
        + unfold keyed. rewrite map_length. lia. }
    destruct SRC as [es [r [r' [Hr [Hy [Hv Hl]]]]]]. subst vs. rewrite <- map_chosen in *.
    destruct (to_nd Hfmt out m (chosen all offset limit es) Ho Hm Hk) as [w [w' [ls [Hw [Hcl [Hdl HF]]]]]]; [apply (proj1 (Forall_map e_val (fun v => ~ refused N fmt_json v) _)); exact Hn|].
    exists (dest_bytes w'), ls. split; [|split; assumption].
    unfold M_Convert.convert. rewrite Hw, Hr. rewrite (convert_until _ _ _ _ _ _ _ _ _ w limit offset all fuel Hy Hl). rewrite Hcl. reflexivity.
  Qed.
  (** C70: lines of JSON become a JSON array of their values, up to the first line that is not JSON. *)
  Theorem convert_ndjson_to_json : float_format N fmt_json parse_float ->
    forall in_ out s vs vs' lines more rest limit offset all fuel, typed in_ fNDJSON (bs "array") -> typed out fJSON (bs "array") ->
    content (sh_compression in_) s (stream (lines ++ more) rest) -> known (sh_compression out) ->
    Forall line (lines ++ more) -> line rest -> Forall2 (fun v l => sline N parse_float depth v (l ++ [10%N])) vs lines ->
    (more = [] \/ exists l ls, more = l :: ls /\ forall v, ~ sline N parse_float depth v (l ++ [10%N])) -> (length vs < fuel)%nat ->
    Forall2 comes_back (chosen all offset limit vs) vs' ->
    exists b doc, convert fuel in_ out s limit offset all = Ok b /\ delivered (sh_compression out) doc b /\ jdoc_array vs' doc.
  Proof.
    intros Hfmt in_ out s vs vs' lines more rest limit offset all fuel Hi Ho Hc Hk Hl Hr Hv Hm Hf Hb.
    destruct (typed_top _ _ _ Hi (or_introl eq_refl)) as [Hff [[m Hq] Hg]]. destruct (opened _ _ _ Hc) as [s0 [Hw0 Hs0]].
    assert (SRC : exists e r', yields (read_step fuel) (RNd (mkNd 0 (new_bufr dsize s0))) (array_entries 0 vs) e r').
    { destruct (ndjson_lines N parse_float depth dsize s0 (lines ++ more) rest 1 Hl Hr Hs0) as [os [Hos HR]].
      assert (SPL : forall vs lines, Forall2 (fun v l => sline N parse_float depth v (l ++ [10%N])) vs lines -> forall n os, outcomes N parse_float depth n (lines ++ more) os ->
        exists os2, os = map (fun x => Ok x) (array_entries (Z.of_nat n) vs) ++ os2 /\ exists n2, outcomes N parse_float depth n2 more os2).
      { induction 1 as [|v l vs0 ls0 Hvl Hrest IH]; intros n os0 H0; cbn [app] in H0.
        - exists os0. split; [reflexivity|]. exists n. assumption.
        - inversion H0 as [|n0 l0 ls1 v1 os1 HS HO|n0 l0 ls1 e1 os1 HS HE HO]; subst; [|exfalso; eapply HS; eassumption].
          destruct (IH (S n) os1 HO) as [os2 [-> Hn2]]. exists os2. split; [|assumption]. cbn [array_entries map app].
          rewrite (L_UnmarshalInv.sline_fun N parse_float _ _ _ _ Hvl HS). replace (Z.of_nat (S n)) with (Z.of_nat n + 1)%Z by lia. reflexivity. }
      destruct (SPL vs lines Hv 0%nat os Hos) as [os2 [-> [n2 Hn2]]]. clear SPL. unfold nd_read in HR.
      assert (Hlen : length os2 = length more) by (clear -Hn2; induction Hn2; cbn; congruence).
      assert (Hvl : length vs = length lines) by (clear -Hv; induction Hv; cbn; congruence).
      assert (Hal : length (array_entries 0 vs) = length vs) by (rewrite <- (map_length e_val), array_vals; reflexivity).
      destruct Hm as [->|[l [ls [-> Hbad]]]].
      - destruct os2; [|discriminate]. exists (s_fin s0). apply (nd_yields parse_float depth surrogate osize fuel (array_entries 0 vs) (s_fin s0) []).
        rewrite app_nil_r in HR. cbn [length repeat] in *. rewrite app_nil_r in HR. change (Z.of_nat 0) with 0%Z in HR. rewrite <- HR. f_equal. lia.
      - inversion Hn2 as [|n0 l0 ls1 v1 os1 HS HO|n0 l0 ls1 e1 os1 HS HE HO]; subst; [exfalso; eapply Hbad; eassumption|].
        exists e1. apply (nd_yields parse_float depth surrogate osize fuel (array_entries 0 vs) e1 (os1 ++ [Err (s_fin s0)])).
        change (Z.of_nat 0) with 0%Z in HR. cbn [repeat] in HR. rewrite <- app_assoc in HR. cbn [app] in HR. rewrite <- HR. f_equal. rewrite !app_length in *. cbn [length] in *. lia. }
    destruct SRC as [e [r' Hy]].
    destruct (to_json out _ Ho (or_introl eq_refl) Hk) as [ind [w [Hind [Hw Hjs]]]]. change (is_object (bs "array")) with false in Hjs.
    set (ces := chosen all offset limit (array_entries 0 vs)) in *.
    assert (Hb2 : Forall2 (fun e v => comes_back (e_val e) v) ces vs').
    { assert (EM : chosen all offset limit vs = map e_val ces) by (unfold ces; rewrite map_chosen, array_vals; reflexivity).
      rewrite EM in Hb. clear -Hb. revert vs' Hb. induction ces as [|x l IH]; intros vs' Hb; inversion Hb; subst; constructor; auto. }
    destruct (json_array_round_trip N fmt_json parse_float surrogate ind None ces vs' Hfmt Hind Hb2) as [os [doc [E [Hn [_ [Hd _]]]]]].
    destruct (Hjs _ _ _ E Hn) as [w' [Hcl Hdl]]. exists (dest_bytes w'), doc. split; [|split; assumption].
    assert (HR : new_entry_reader in_ s = Ok (RNd (mkNd 0 (new_bufr dsize s0)))).
    { unfold M_Convert.new_entry_reader. rewrite Hff. cbn [Z.eqb Pos.eqb fCBOR fJSON fCSV fXLSX fNDJSON]. unfold open_nd. rewrite Hq, Hg. cbn [rthen]. rewrite Hw0. reflexivity. }
    unfold M_Convert.convert. rewrite Hw, HR. rewrite (convert_until _ _ _ _ _ _ _ _ _ w limit offset all fuel Hy).
    - fold ces. rewrite Hcl. reflexivity.
    - rewrite <- (map_length e_val), array_vals. lia.
  Qed.

  (** C70: structures that cannot be converted: no format that can be read or written, no schema where one is needed,
      or a compression that is not known. *)
  Theorem convert_setup_reader : forall in_ out s limit offset all fuel,
    let f := structure_data_format (sh_format in_) in
    (~ In f [fJSON; fCBOR; fCSV; fNDJSON; fXLSX] \/ (In f [fJSON; fCBOR; fNDJSON] /\ sh_schema in_ = None) \/
     (f = fNDJSON /\ exists m tlt, sh_schema in_ = Some m /\ map_get (bs "type") m = Some (VStr tlt) /\ tlt <> bs "array") \/
     (sh_compression in_ <> [] /\ parse_compression (sh_compression in_) = None)) ->
    forall b, convert fuel in_ out s limit offset all <> Ok b.
  Proof.
    intros in_ out s limit offset all fuel f H b. assert (R : forall r, new_entry_reader in_ s <> Ok r).
    2: { unfold M_Convert.convert, convert_file. destruct (convert_writer out); try discriminate. destruct (new_entry_reader in_ s) eqn:E; try discriminate. exfalso. eapply R. reflexivity. }
    intros r. unfold M_Convert.new_entry_reader. fold f. cbn [In] in H.
    assert (D : sh_compression in_ <> [] -> parse_compression (sh_compression in_) = None -> forall s', wrap_decompressor unpack (sh_compression in_) s <> Ok s').
    { intros H1 H2 s'. destruct (sh_compression in_) eqn:E; [congruence|]. cbn [wrap_decompressor]. rewrite H2. discriminate. }
    assert (NT : forall A (x : res A) B (g : A -> res B) y, (forall a, x = Ok a -> g a <> Ok y) -> rthen x g <> Ok y) by (intros A [] B g y Hg; cbn; auto; discriminate).
    destruct (Z.eqb f fCBOR) eqn:E1; [apply Z.eqb_eq in E1|destruct (Z.eqb f fJSON) eqn:E2; [apply Z.eqb_eq in E2|destruct (Z.eqb f fCSV) eqn:E3; [apply Z.eqb_eq in E3|
      destruct (Z.eqb f fXLSX) eqn:E4; [apply Z.eqb_eq in E4|destruct (Z.eqb f fNDJSON) eqn:E5; [apply Z.eqb_eq in E5|destruct (Z.eqb f fUnknown); discriminate]]]]].
    - destruct H as [H|[[_ H]|[[H _]|[H1 H2]]]].
      + exfalso. apply H. rewrite E1. auto.
      + unfold open_cbor. rewrite H. discriminate.
      + rewrite E1 in H. discriminate.
      + unfold open_cbor. apply NT. intros a _. apply NT. intros s' Hs'. exfalso. eapply D; eassumption.
    - destruct H as [H|[[_ H]|[[H _]|[H1 H2]]]].
      + exfalso. apply H. rewrite E2. auto.
      + unfold open_json. rewrite H. discriminate.
      + rewrite E2 in H. discriminate.
      + unfold open_json. apply NT. intros a _. apply NT. intros t _. apply NT. intros s' Hs'. exfalso. eapply D; eassumption.
    - destruct H as [H|[[[H|[H|[H|[]]]] _]|[[H _]|[H1 H2]]]]; try (rewrite E3 in H; discriminate).
      + exfalso. apply H. rewrite E3. auto.
      + unfold open_csv. apply NT. intros a _. apply NT. intros s' Hs'. exfalso. eapply D; eassumption.
    - destruct H as [H|[[[H|[H|[H|[]]]] _]|[[H _]|[H1 H2]]]]; try (rewrite E4 in H; discriminate).
      + exfalso. apply H. rewrite E4. auto 7.
      + unfold open_xlsx, new_xlsx_reader. destruct (sh_compression in_) eqn:EC; [congruence|]. destruct (s_fin s); discriminate.
    - destruct H as [H|[[_ H]|[[_ [m [tlt [Hm [Ht Hx]]]]]|[H1 H2]]]].
      + exfalso. apply H. rewrite E5. auto.
      + unfold open_nd. rewrite H. discriminate.
      + unfold open_nd. rewrite Hm. cbn [required rthen]. apply NT. intros t Hg.
        assert (t = tlt) as -> by (cbn [get_top_level_type] in Hg; rewrite Ht in Hg; repeat match type of Hg with context [if ?c then _ else _] => destruct c end; congruence).
        destruct (beqb tlt (bs "array")) eqn:EB; [apply beqb_eq in EB; congruence|]. discriminate.
      + unfold open_nd. apply NT. intros a _. apply NT. intros t _. destruct (negb (beqb t (bs "array"))); [discriminate|]. apply NT. intros s' Hs'. exfalso. eapply D; eassumption.
  Qed.
  Theorem convert_setup_writer : forall in_ out s limit offset all fuel,
    let f := structure_data_format (sh_format out) in
    (~ In f [fJSON; fCBOR; fCSV; fNDJSON; fXLSX] \/ (In f [fJSON; fCBOR; fNDJSON] /\ sh_schema out = None) \/
     (sh_compression out <> [] /\ parse_compression (sh_compression out) = None)) ->
    forall b, convert fuel in_ out s limit offset all <> Ok b.
  Proof.
    intros in_ out s limit offset all fuel f H b. assert (R : forall w, new_entry_writer sheet_key order wsize out good_sink <> Ok w).
    2: { unfold M_Convert.convert, convert_file, M_Convert.convert_writer. destruct (new_entry_writer sheet_key order wsize out good_sink) eqn:E; cbn [rthen]; try discriminate. exfalso. eapply R. reflexivity. }
    intros r. unfold new_entry_writer. fold f. cbn [In] in H.
    assert (D : sh_compression out <> [] -> parse_compression (sh_compression out) = None -> forall c, wrap_compressor (sh_compression out) <> Ok c).
    { intros H1 H2 s'. destruct (sh_compression out) eqn:E; [congruence|]. cbn [wrap_compressor]. rewrite H2. discriminate. }
    assert (NT : forall A (x : res A) B (g : A -> res B) y, (forall a, x = Ok a -> g a <> Ok y) -> rthen x g <> Ok y) by (intros A [] B g y Hg; cbn; auto; discriminate).
    destruct (Z.eqb f fCBOR) eqn:E1; [apply Z.eqb_eq in E1|destruct (Z.eqb f fJSON) eqn:E2; [apply Z.eqb_eq in E2|destruct (Z.eqb f fCSV) eqn:E3; [apply Z.eqb_eq in E3|
      destruct (Z.eqb f fXLSX) eqn:E4; [apply Z.eqb_eq in E4|destruct (Z.eqb f fNDJSON) eqn:E5; [apply Z.eqb_eq in E5|destruct (Z.eqb f fUnknown); discriminate]]]]].
    - destruct H as [H|[[_ H]|[H1 H2]]].
      + exfalso. apply H. rewrite E1. auto.
      + unfold make_cbor. rewrite H. discriminate.
      + unfold make_cbor. apply NT. intros a _. apply NT. intros t _. apply NT. intros s' Hs'. exfalso. eapply D; eassumption.
    - destruct H as [H|[[_ H]|[H1 H2]]].
      + exfalso. apply H. rewrite E2. auto.
      + unfold make_json. rewrite H. discriminate.
      + unfold make_json. apply NT. intros a _. apply NT. intros t _. apply NT. intros s' Hs'. exfalso. eapply D; eassumption.
    - destruct H as [H|[[[H|[H|[H|[]]]] _]|[H1 H2]]]; try (rewrite E3 in H; discriminate).
      + exfalso. apply H. rewrite E3. auto.
      + unfold make_csv. apply NT. intros a _. apply NT. intros s' Hs'. exfalso. eapply D; eassumption.
    - destruct H as [H|[[[H|[H|[H|[]]]] _]|[H1 H2]]]; try (rewrite E4 in H; discriminate).
      + exfalso. apply H. rewrite E4. auto 7.
      + unfold make_xlsx, new_xlsx_writer. destruct (sh_compression out) eqn:EC; [congruence|]. discriminate.
    - destruct H as [H|[[_ H]|[H1 H2]]].
      + exfalso. apply H. rewrite E5. auto.
      + unfold make_nd. rewrite H. discriminate.
      + unfold make_nd. apply NT. intros a _. apply NT. intros s' Hs'. exfalso. eapply D; eassumption.
  Qed.
End Convert.

(** Concrete instances: numbers in lines are read as their length, floats cannot be written, and compressed bytes are the
    bytes after the name of the compression. *)
Definition demo_pack (f b : bytes) : bytes := f ++ b.
Definition demo_unpack (f : bytes) (s : src) : res src := Ok (mkSrc (skipn (length f) (s_rem s)) (s_fin s) (s_sched s)).
Lemma demo_lossless : lossless demo_unpack demo_pack.
Proof.
  intros f b s H. eexists. split; [reflexivity|]. cbn [s_rem]. rewrite H. unfold demo_pack. rewrite skipn_app, skipn_all, Nat.sub_diag. reflexivity.
Qed.
Definition demo_parse (t : bytes) : option N := Some (N.of_nat (length t)).
Definition demo_convert : nat -> shape -> shape -> src -> Z -> Z -> bool -> res bytes :=
  convert demo_parse (fun _ => []) (fun _ => None) 8 (bs "?") (fun _ => []) (fun _ => Err EOF) (fun n => n) (fun s => s) (fun m => m) 16 16 16 16 demo_unpack demo_pack.
Definition as_json : shape := mkShape (bs "json") [] (Some [(bs "type", VStr (bs "array"))]) None.
Definition as_pretty : shape := mkShape (bs "json") [] (Some [(bs "type", VStr (bs "array"))]) (Some [(bs "pretty", VBool true)]).
Definition as_cbor : shape := mkShape (bs "cbor") (bs "gzip") (Some [(bs "type", VStr (bs "array"))]) None.
Definition as_lines : shape := mkShape (bs "ndjson") [] (Some [(bs "type", VStr (bs "array"))]) None.
Definition as_object (f : bytes) : shape := mkShape f [] (Some [(bs "type", VStr (bs "object"))]) None.
Definition from (b : bytes) : src := mkSrc b EOF [].
Definition zero_ok (r : res bytes) : bytes := match r with Ok b => b | _ => [] end.

(** The claim that a conversion to CBOR and back keeps a document is false: an integer below -24 is written but not read,
    and ends the array. *)
Theorem convert_keeps_values_refuted : ~ (forall doc mid fin, demo_convert 100 as_json as_cbor (from doc) 0 0 true = Ok mid ->
  demo_convert 100 as_cbor as_json (from mid) 0 0 true = Ok fin -> fin = doc).
Proof.
  intros H. specialize (H (bs "[1,-25,2]") (bs "gzip" ++ [131; 1; 56; 24; 2]%N) (bs "[1]")).
  assert (X : bs "[1]" = bs "[1,-25,2]") by (apply H; vm_compute; reflexivity). discriminate X.
Qed.
(** Success does not mean that all entries were taken: a key that comes twice ends an object, a line that is not JSON ends
    the lines, and a document that was cut short is taken as it is. *)
Theorem convert_all_entries_refuted :
  demo_convert 100 (as_object (bs "json")) (as_object (bs "cbor")) (from (bs "{""a"":1,""a"":2,""b"":3}")) 0 0 true = Ok (cbor_encode (VMap [(bs "a", VInt 1)])) /\
  demo_convert 100 as_lines as_json (from (bs "true" ++ [10%N] ++ bs "tru" ++ [10%N] ++ bs "null" ++ [10%N])) 0 0 true = Ok (bs "[true]") /\
  demo_convert 100 as_json as_lines (from (bs "[true,{""a"":tr")) 0 0 true = Ok (bs "true" ++ [10%N]).
Proof. vm_compute. repeat split. Qed.
(** Two documents that differ become the same lines, and the lines of an object cannot be read under its schema. *)
Theorem convert_lines_tell_refuted :
  demo_convert 100 (as_object (bs "json")) (as_object (bs "ndjson")) (from (bs "{""a"":true,""b"":null}")) 0 0 true = Ok (bs "true" ++ [10%N] ++ bs "null" ++ [10%N]) /\
  demo_convert 100 as_json as_lines (from (bs "[true,null]")) 0 0 true = Ok (bs "true" ++ [10%N] ++ bs "null" ++ [10%N]) /\
  demo_convert 100 (as_object (bs "ndjson")) (as_object (bs "json")) (from (bs "true" ++ [10%N] ++ bs "null" ++ [10%N])) 0 0 true =
    Err (EWrap "creating entry reader" 0 (EMsg "NDJSON top level type must be 'array'")).
Proof. vm_compute. repeat split. Qed.

Example convert_json_to_cbor_ex : typed as_json fJSON (bs "array") /\ typed as_cbor fCBOR (bs "array") /\ known (sh_compression as_cbor) /\
  demo_convert 200 as_json as_cbor (from (bs "[1,[""x"",-24],{""b"":null,""a"":true},7]")) 2 1 false =
    Ok (bs "gzip" ++ cbor_encode (VArr [VArr [VStr (bs "x"); VInt (-24)]; VMap [(bs "a", VBool true); (bs "b", VNil)]])).
Proof.
  split; [split; [reflexivity|eexists; split; reflexivity]|]. split; [split; [reflexivity|eexists; split; reflexivity]|].
  split; [right; eexists; reflexivity|]. vm_compute. reflexivity.
Qed.
Example convert_through_cbor_ex :
  let mid := demo_convert 200 as_json as_cbor (from (bs "[1,[""x"",-24],{""b"":null,""a"":true},7]")) 2 1 false in
  demo_convert 200 as_cbor as_json (from (zero_ok mid)) 0 0 true = Ok (bs "[[""x"",-24],{""a"":true,""b"":null}]") /\
  demo_convert 200 as_cbor as_pretty (from (zero_ok mid)) 1 0 false = Ok (bs "[" ++ [10%N] ++ bs " [" ++ [10%N] ++ bs "  ""x""," ++ [10%N] ++ bs "  -24" ++ [10%N] ++ bs " ]" ++ [10%N] ++ bs "]").
Proof. vm_compute. repeat split. Qed.
Example convert_through_cbor_values_ex : let us := [VArr [VStr (bs "x"); VInt (-24)]; VMap [(bs "a", VBool true); (bs "b", VNil)]] in
  Forall wf_value us /\ longest readable us = us /\ Forall2 (comes_back N (fun _ => None)) us us.
Proof.
  cbv zeta. split; [repeat constructor; cbn; lia|]. split; [reflexivity|].
  constructor; [|constructor; [|constructor]].
  - repeat constructor; [apply cleaned_ascii; reflexivity| |]; unfold fits_int64; lia.
  - apply (cb_map _ _ _ [(bs "a", VBool true); (bs "b", VNil)]). repeat constructor; apply cleaned_ascii; reflexivity.
Qed.

Example convert_object_ex :
  let doc := bs "{""b"":[1],""a"":null,""c"":""x""}" in
  demo_convert 200 (as_object (bs "json")) (as_object (bs "cbor")) (from doc) 0 0 true = Ok (cbor_encode (VMap [(bs "a", VNil); (bs "b", VArr [VInt 1]); (bs "c", VStr (bs "x"))])) /\
  fresh_keys [] [(bs "b", VArr [VInt 1]); (bs "a", VNil); (bs "c", VStr (bs "x"))] = [(bs "b", VArr [VInt 1]); (bs "a", VNil); (bs "c", VStr (bs "x"))] /\
  demo_convert 200 (as_object (bs "cbor")) (as_object (bs "json")) (from (cbor_encode (VMap [(bs "a", VNil); (bs "b", VArr [VInt 1]); (bs "c", VStr (bs "x"))]))) 0 0 true =
    Ok (bs "{""a"":null,""b"":[1],""c"":""x""}").
Proof. vm_compute. repeat split. Qed.
Example convert_ndjson_ex :
  demo_convert 200 as_json as_lines (from (bs "[[1,""x""], null ]")) 0 0 true = Ok (bs "[1,""x""]" ++ [10%N] ++ bs "null" ++ [10%N]) /\
  demo_convert 200 as_lines as_json (from (bs " [true,""x""]" ++ [10%N] ++ bs "null" ++ [10%N] ++ bs "false")) 0 0 true = Ok (bs "[[true,""x""],null]").
Proof. vm_compute. repeat split. Qed.
Example convert_truncated_ex : demo_convert 200 as_json as_cbor (from (bs "[1,[2,3],[4,")) 0 0 true = Ok (bs "gzip" ++ cbor_encode (VArr [VInt 1; VArr [VInt 2; VInt 3]])) /\
  ~ ends_escaped (bs "[1,[2,3],[4,").
Proof.
  split; [vm_compute; reflexivity|]. intros [pre [c H]]. apply (f_equal (@rev N)) in H. rewrite rev_app_distr in H. cbn in H. discriminate H.
Qed.
Example convert_setup_ex :
  demo_convert 9 (mkShape (bs "json") [] None None) as_json (from []) 0 0 true = Err (EWrap "creating entry reader" 0 err_schema) /\
  demo_convert 9 (mkShape (bs "xml") [] None None) as_json (from []) 0 0 true = Err (EWrap "creating entry reader" 0 err_format) /\
  demo_convert 9 as_json (mkShape [] [] None None) (from []) 0 0 true = Err err_no_format /\
  demo_convert 9 as_json (mkShape (bs "cbor") (bs "rar") (sh_schema as_json) None) (from []) 0 0 true = Err err_comp.
Proof. vm_compute. repeat split. Qed.

Print Assumptions convert_json_to_cbor.
Print Assumptions convert_cbor_to_json.
Print Assumptions convert_through_cbor.
Print Assumptions convert_json_object_to_cbor.
Print Assumptions convert_cbor_object_to_json.
Print Assumptions convert_truncated_json.
Print Assumptions convert_json_to_ndjson.
Print Assumptions convert_ndjson_to_json.
Print Assumptions convert_setup_reader.
Print Assumptions convert_setup_writer.
Print Assumptions convert_keeps_values_refuted.
Print Assumptions convert_all_entries_refuted.
Print Assumptions convert_lines_tell_refuted.
