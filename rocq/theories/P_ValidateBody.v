(** C83: validation of a body is about its values, whatever its format. *)
From Coq Require Import ZArith Lia.
From Verif Require Import Base M_Decimal M_Csv M_Bufio L_Bufio M_Utf8 S_Utf8 L_Utf8 M_Sink M_Json M_JsonWrite S_JsonText S_JsonBack L_JsonRead L_JsonDoc P_Json M_Cbor S_Cbor L_Cbor P_Cbor
  S_NDJson L_NDJson M_Xlsx M_Formats M_Stream S_Stream L_Stream M_Convert S_Convert S_ConvertCsv L_Convert P_Convert S_Calculate P_Calculate S_ConvertAny P_ConvertAny
  M_Validate S_Validate L_ValidateBatch P_Validate M_ValidateBody S_ValidateBody.

Section Validate.
  Variable E : Type.
  Variable parse_float : bytes -> option N.
  Variable fmt_json : N -> option bytes.
  Variable depth : nat.
  Variable surrogate : bytes.
  Variable load : bytes -> res book.
  Variable sheet_key : bytes -> bytes.
  Variable order : jmap -> jmap.
  Variables size osize dsize : nat.
  Variable unpack : bytes -> src -> res src.
  Variable compile : option jmap -> res unit.
  Variable check : option jmap -> gval N -> list E.
  Hypothesis opos : (0 < osize)%nat.
  Hypothesis strict : strict_format N fmt_json parse_float.
  Notation open := (new_entry_reader load sheet_key order size dsize unpack).
  Notation rstep := (read_step parse_float depth surrogate osize).
  Notation validate := (validate_body E parse_float fmt_json depth surrogate load sheet_key order size osize dsize unpack compile check).
  Notation holds := (S_Calculate.holds parse_float depth order unpack load sheet_key).
  Notation broken := (broken parse_float depth order unpack).
  Notation holds_pairs := (holds_pairs parse_float unpack).
  Notation line_back := (line_back N parse_float).
  Notation checkable := (checkable fmt_json depth).
  Notation same_json := (same_json parse_float).

  Lemma batches_along : forall A B (R : A -> B -> Prop) n l' bs', batches n l' bs' -> forall l, Forall2 R l l' ->
    exists bs, batches n l bs /\ Forall2 (Forall2 R) bs bs'.
  Proof.
    intros A B R n l' bs' H. induction H as [|b Hb Hl|b l' bs' Hl Hne H IH]; intros l F.
    - inversion F; subst. exists []. split; constructor.
    - exists [l]. assert (L : length l = length b) by (clear -F; induction F; cbn; congruence). split; [|repeat constructor; assumption]. apply ba_last; [|rewrite L; assumption].
      intros ->. inversion F; subst. congruence.
    - apply Forall2_app_inv_r in F. destruct F as [l1 [l2 [F1 [F2 ->]]]]. destruct (IH _ F2) as [bs [B1 B2]].
      assert (L : length l1 = length b) by (clear -F1; induction F1; cbn; congruence). exists (l1 :: bs). split; [|constructor; assumption].
      apply ba_more; [congruence| |assumption]. intros ->. inversion F2; subst. congruence.
  Qed.
  Lemma in_batch : forall A n (l : list A) bs, batches n l bs -> forall (P : A -> Prop), Forall P l -> Forall (Forall P) bs.
  Proof.
    intros A n l bs H P. induction H; intros F; constructor; auto; apply Forall_app in F; [apply F|apply IHbatches, F].
  Qed.
  Lemma checkable_all : forall vs, Forall checkable vs -> vs <> [] -> exists d, depth = S d /\ Forall (deep N d) vs.
  Proof.
    intros [|v vs] F H; [congruence|]. pose proof (Forall_inv F) as (d & Hd & _). exists d. split; [exact Hd|].
    eapply Forall_impl; [|exact F]. intros x (d' & Hd' & Hx & _). replace d with d' by congruence. exact Hx.
  Qed.
  (** A reader that yields entries of those values. *)
  Lemma yields_validated : forall sh s obj es f0 docs bs, (forall fuel, (f0 <= fuel)%nat -> exists r r', open sh s = Ok r /\ yields (rstep fuel) r es EOF r' /\ (length es < fuel)%nat) ->
    compile (sh_schema sh) = Ok tt -> top_level N (sh_schema sh) obj -> batches per_batch es bs -> Forall (S_Validate.writable N fmt_json obj) bs -> Forall2 (batch_doc N parse_float obj) bs docs ->
    Forall checkable (map e_val es) ->
    forall fuel, (f0 <= fuel)%nat -> validate fuel sh s = Ok (flat_map (check (sh_schema sh)) docs).
  Proof.
    intros sh s obj es f0 docs bs Y C T B W D K fuel Hf. destruct (Y fuel Hf) as (r & r' & Ho & Hy & Hl). unfold validate_body. rewrite Ho. cbn [rthen]. rewrite C.
    destruct es as [|x es].
    - inversion B; subst; [|congruence|destruct b; discriminate]. inversion D; subst. inversion Hy; subst.
      unfold entry_reader. rewrite (new_buffer_ok N (sh_schema sh) obj (top_level_is N _ _ T)). destruct fuel as [|fuel]; [cbn in Hl; lia|]. cbn [each_entry]. rewrite H. cbn [is_eof_text].
      rewrite (flush_empty N E fmt_json parse_float depth (check (sh_schema sh)) obj) by apply holds_new. reflexivity.
    - destruct (checkable_all _ K) as (d & Hd & Kd); [discriminate|].
      rewrite (entry_reader_batches N ereader E fmt_json parse_float depth (check (sh_schema sh)) strict (sh_schema sh) obj (rstep fuel) r (x :: es) EOF r' bs docs d fuel); auto.
      exact (proj1 (Forall_map e_val _ _) Kd).
  Qed.
  (** The errors found in a body of arrays are those of its values, as JSON gives them, in pieces of 5000. *)
  Theorem validated_array : forall sh s vs ws pieces, holds sh s vs -> of_arrays sh -> compile (sh_schema sh) = Ok tt ->
    Forall2 line_back vs ws -> Forall checkable vs -> batches per_batch ws pieces ->
    exists f0, forall fuel, (f0 <= fuel)%nat -> validate fuel sh s = Ok (flat_map (fun p => check (sh_schema sh) (VArr p)) pieces).
  Proof.
    intros sh s vs ws pieces H T C L K B.
    destruct (holds_yields parse_float depth surrogate load sheet_key order size osize dsize unpack (fun _ => 0%Z) (fun _ => []) opos sh s vs H) as [f0 [es [Hv Y]]].
    assert (LE : Forall2 (fun e v => line_back (e_val e) v) es ws).
    { subst vs. clear -L. revert ws L. induction es as [|e es IH]; intros ws L; inversion L; subst; constructor; auto. }
    destruct (batches_along _ _ _ _ _ _ B es LE) as (bs & B1 & B2). exists f0. intros fuel Hf.
    rewrite (yields_validated sh s false es f0 (map VArr pieces) bs Y C T B1); try assumption.
    - f_equal. clear. induction pieces; [reflexivity|]. cbn [map flat_map]. now rewrite IHpieces.
    - eapply Forall_impl; [|eapply (in_batch _ _ _ _ B1 (fun e => checkable (e_val e)))].
      + intros b Hb. split; [|discriminate]. eapply Forall_impl; [|exact Hb]. intros e (d & _ & _ & Hr). exact Hr.
      + apply Forall_map. rewrite Hv. assumption.
    - clear -B2. induction B2; cbn [map]; constructor; auto. apply bd_array. assumption.
    - rewrite Hv. assumption.
  Qed.
  (** Up to 5000 entries are checked as the one document they are. *)
  Theorem validated_small : forall sh s vs ws, holds sh s vs -> of_arrays sh -> compile (sh_schema sh) = Ok tt ->
    Forall2 line_back vs ws -> Forall checkable vs -> vs <> [] -> (length vs <= per_batch)%nat ->
    exists f0, forall fuel, (f0 <= fuel)%nat -> validate fuel sh s = Ok (check (sh_schema sh) (VArr ws)).
  Proof.
    intros sh s vs ws H T C L K N L5. destruct (validated_array sh s vs ws [ws] H T C L K) as [f0 V].
    - apply ba_last; [|assert (X : length ws = length vs) by (clear -L; induction L; cbn; congruence); rewrite X; assumption]. intros ->. inversion L; subst. congruence.
    - exists f0. intros fuel Hf. rewrite (V fuel Hf). cbn [flat_map]. now rewrite app_nil_r.
  Qed.
  (** So bodies with the same values get the same verdict, whatever their formats. *)
  Theorem validated_same : forall sh s vs sh' s' vs', holds sh s vs -> holds sh' s' vs' -> of_arrays sh -> of_arrays sh' ->
    compile (sh_schema sh) = Ok tt -> compile (sh_schema sh') = Ok tt -> (forall doc, check (sh_schema sh) doc = check (sh_schema sh') doc) ->
    Forall2 same_json vs vs' -> Forall checkable vs -> Forall checkable vs' ->
    exists f0 found, forall fuel, (f0 <= fuel)%nat -> validate fuel sh s = Ok found /\ validate fuel sh' s' = Ok found.
  Proof.
    intros sh s vs sh' s' vs' H H' T T' C C' X S K K'.
    assert (W : exists ws, Forall2 line_back vs ws /\ Forall2 line_back vs' ws).
    { clear -S. induction S as [|v v' vs vs' (w & A & B) S (ws & IA & IB)]; [exists []; split; constructor|]. exists (w :: ws). split; constructor; assumption. }
    destruct W as (ws & L & L'). destruct (batches_once _ ws) as (pieces & B & _).
    destruct (validated_array sh s vs ws pieces H T C L K B) as [f1 V1]. destruct (validated_array sh' s' vs' ws pieces H' T' C' L' K' B) as [f2 V2].
    exists (f1 + f2)%nat, (flat_map (fun p => check (sh_schema sh) (VArr p)) pieces). intros fuel Hf. split; [apply V1; lia|]. rewrite V2 by lia. f_equal.
    apply flat_map_ext. intros p. symmetry. apply X.
  Qed.
  (** ** Objects *)
  Lemma pairs_yield : forall sh s kvs, holds_pairs sh s kvs -> exists f0 es, map (fun e => (e_key e, e_val e)) es = kvs /\ forall fuel, (f0 <= fuel)%nat ->
    exists r r', open sh s = Ok r /\ yields (rstep fuel) r es EOF r' /\ (length es < fuel)%nat.
  Proof.
    intros sh s kvs H. destruct H as [doc kvs Ht Hc Hd|m Ht Hc HW HE HR].
    - exists (3 * length doc + 3)%nat, (keyed kvs). split; [unfold keyed; rewrite map_map; cbn [e_key e_val]; rewrite <- (map_id kvs) at 2; apply map_ext; intros []; reflexivity|]. intros fuel Hf.
      assert (L : (length kvs < length doc)%nat) by (apply jdoc_object_gdoc in Hd; apply gdoc_length in Hd; lia).
      destruct (json_source parse_float depth surrogate load sheet_key order size osize dsize unpack sh _ s doc (keyed kvs) EOF fuel Ht (or_intror eq_refl) Hc) as [r [r' [Hr Hy]]].
      { intros s' Hs. exists (S (length doc)). apply (json_reads_object N parse_float surrogate kvs doc Hd); auto. }
      exists r, r'. split; [assumption|]. split; [assumption|]. unfold keyed. rewrite map_length. lia.
    - exists (S (2 * length (cbor_encode (VMap m)) + length m)), (object_entries m). split; [unfold object_entries; rewrite map_map; cbn [e_key e_val]; rewrite <- (map_id m) at 2; apply map_ext; intros []; reflexivity|].
      intros fuel Hf. assert (Hs : sorted m) by (destruct HW as [_ [H _]]; exact H).
      assert (LE : S_Cbor.longest readable_pair m = m).
      { clear -HR. induction m as [|v m IH]; [reflexivity|]. cbn in *. apply andb_prop in HR as [H1 H2]. rewrite H1, IH; auto. }
      assert (FV : forall k, map_get k m = first_value k (object_entries m)).
      { intros k. destruct k as [|k0 kr]; [exact HE|]. unfold first_value. generalize (k0 :: kr). clear. intros k.
        induction m as [|[k1 v1] l IH]; [reflexivity|]. cbn [map_get find object_entries map fst snd e_key e_val]. destruct (beqb k k1); [reflexivity|]. exact IH. }
      assert (E0 : cbor_close (snd (cbor_write_all (new_cbor_writer true) (object_entries m))) = cbor_encode (VMap m)).
      { destruct (cbor_writer_object (object_entries m)) as [os [w [m1 [-> [EW [S1 [G1 _]]]]]]]. cbn [snd]. rewrite EW.
        replace m1 with m by (apply sorted_ext; auto; intros k; rewrite FV, G1; reflexivity). reflexivity. }
      destruct (cbor_source_end parse_float depth surrogate load sheet_key order size osize dsize unpack opos (fun e => e = EOF) sh _ s _ (object_entries m) fuel Ht (or_intror eq_refl) Hc ltac:(lia)) as [r [r' [e [Hr [Hy He]]]]].
      { intros sched. pose proof (cbor_round_trip_object (object_entries m) m EOF sched Hs FV HW) as T. rewrite E0, HR, LE in T.
        change (is_object (bs "object")) with true. destruct (cbor_read_all true _) as [got o]. destruct T as [-> ->]. exists EOF. auto. }
      subst e. exists r, r'. unfold object_entries. rewrite map_length. repeat split; auto. lia.
  Qed.
  (** An object is checked as objects of 5000 of its pairs each, in the order of the body; keys have to differ within each. *)
  Theorem validated_object : forall sh s kvs pieces back, holds_pairs sh s kvs -> of_objects sh -> compile (sh_schema sh) = Ok tt ->
    batches per_batch kvs pieces -> Forall (fun p => Forall (fun kv => fst kv <> []) p /\ NoDup (map fst p)) pieces -> Forall (fun kv => checkable (snd kv)) kvs ->
    Forall2 (Forall2 (fun kv kv' => cleaned (fst kv) (fst kv') /\ line_back (snd kv) (snd kv'))) pieces back ->
    exists f0, forall fuel, (f0 <= fuel)%nat -> validate fuel sh s = Ok (flat_map (fun p => check (sh_schema sh) (object_of N p)) back).
  Proof.
    intros sh s kvs pieces back H T C B U K L. destruct (pairs_yield sh s kvs H) as [f0 [es [Hv Y]]].
    assert (LE : Forall2 (fun e kv => (e_key e, e_val e) = kv) es kvs).
    { subst kvs. clear. induction es as [|e es IH]; constructor; auto. }
    destruct (batches_along _ _ _ _ _ _ B es LE) as (bs & B1 & B2). exists f0. intros fuel Hf.
    rewrite (yields_validated sh s true es f0 (map (object_of N) back) bs Y C T B1); try assumption.
    - f_equal. clear. induction back; [reflexivity|]. cbn [map flat_map]. now rewrite IHback.
    - pose proof (in_batch _ _ _ _ B (fun kv => checkable (snd kv)) K) as KP. clear -B2 U KP. revert U KP. induction B2 as [|b p bs ps F B2 IH]; intros U KP; constructor; [|inversion U; inversion KP; subst; auto].
      apply Forall_inv in U. apply Forall_inv in KP. destruct U as [U1 U2].
      assert (EK : map e_key b = map fst p) by (clear -F; induction F; cbn; [reflexivity|subst; cbn; congruence]).
      assert (G : forall P : bytes * gval N -> Prop, Forall P p -> Forall (fun e => P (e_key e, e_val e)) b).
      { intros P X. clear -F X. induction F; [constructor|]. inversion X; subst. constructor; auto. }
      split; [|intros _; split].
      + eapply Forall_impl; [|exact (G _ KP)]. intros e (d & _ & _ & Hr). exact Hr.
      + exact (G _ U1).
      + rewrite EK. exact U2.
    - clear -B2 L. revert back L. induction B2 as [|b p bs ps F B2 IH]; intros back L; inversion L as [|? q ? qs Fq Lq]; subst; cbn [map]; constructor; [|auto].
      apply bd_object. clear -F Fq. revert q Fq. induction F as [|e kv b p E F IH]; intros q Fq; inversion Fq; subst; constructor; [assumption|auto].
    - rewrite <- Hv in K. rewrite Forall_map in K |- *. exact K.
  Qed.
  (** ** What cannot be validated *)
  Lemma yields_refused : forall sh s obj fuel r es e r', open sh s = Ok r -> yields (rstep fuel) r es e r' -> (length es < fuel)%nat -> top_level N (sh_schema sh) obj -> compile (sh_schema sh) = Ok tt ->
    is_eof_text e <> true \/ Exists (fun x => refused N fmt_json (e_val x)) es -> exists er, validate fuel sh s = Err er.
  Proof.
    intros sh s obj fuel r es e r' Ho Hy Hl T C Bad. unfold validate_body. rewrite Ho. cbn [rthen]. rewrite C.
    destruct (batches_once _ es) as (bs & B & _ & Hcat & _).
    destruct (entry_reader_rejects N ereader E fmt_json parse_float depth (check (sh_schema sh)) (sh_schema sh) obj (rstep fuel) r es e r' bs fuel Hy Hl T B) as (er & s' & ->); [|exists er; reflexivity].
    destruct Bad as [Bad|Bad]; [left; destruct (is_eof_text e); congruence|right]. rewrite <- Hcat in Bad. apply Exists_concat in Bad. eapply Exists_impl; [|exact Bad].
    intros b Hb [W _]. apply Exists_exists in Hb. destruct Hb as (x & I & X). rewrite Forall_forall in W. exact (W x I X).
  Qed.
  Lemma of_top : forall sh, of_arrays sh \/ of_objects sh -> exists obj, top_level N (sh_schema sh) obj.
  Proof. intros sh [H|H]; [exists false|exists true]; exact H. Qed.
  (** A body with a value or a row that cannot be read, or that was cut within its JSON, is not validated as what can be read of it. *)
  Theorem validated_broken : forall sh s, of_arrays sh \/ of_objects sh -> compile (sh_schema sh) = Ok tt ->
    broken sh s \/ (exists vs kvs q c q', S_Convert.content unpack (sh_compression sh) s q /\ ~ L_JsonBuf.ends_escaped q /\
      ((typed sh fJSON (bs "array") /\ jdoc_array N (float_reads N parse_float) vs (q ++ c :: q')) \/
       (typed sh fJSON (bs "object") /\ jdoc_object N (float_reads N parse_float) kvs (q ++ c :: q')))) ->
    exists f0, forall fuel, (f0 <= fuel)%nat -> exists e, validate fuel sh s = Err e.
  Proof.
    intros sh s T C H. destruct (of_top sh T) as [obj T']. assert (Y : exists f0, forall fuel, (f0 <= fuel)%nat ->
      exists r es e r', open sh s = Ok r /\ yields (rstep fuel) r es e r' /\ is_eof_text e <> true /\ (length es < fuel)%nat).
    { destruct H as [H|(vs & kvs & q & c & q' & Hc & Hq & HD)].
      - exact (broken_yields parse_float depth surrogate load sheet_key order size osize dsize unpack (fun _ => 0%Z) (fun _ => []) opos sh s H).
      - exact (truncated_yields parse_float depth surrogate load sheet_key order size osize dsize unpack (fun _ => M_Float.f_int 0) opos sh s vs kvs q c q' Hc Hq HD). }
    destruct Y as [f0 Y]. exists f0. intros fuel Hf. destruct (Y fuel Hf) as (r & es & e & r' & Ho & Hy & He & Hl).
    apply (yields_refused sh s obj fuel r es e r' Ho Hy Hl T' C). auto.
  Qed.
  (** A value without JSON, such as a float that is no number, is an error of the validation, not one it finds. *)
  Theorem validated_refused : forall sh s vs, holds sh s vs -> of_arrays sh \/ of_objects sh -> compile (sh_schema sh) = Ok tt -> Exists (refused N fmt_json) vs ->
    exists f0, forall fuel, (f0 <= fuel)%nat -> exists e, validate fuel sh s = Err e.
  Proof.
    intros sh s vs H T C X. destruct (of_top sh T) as [obj T'].
    destruct (holds_yields parse_float depth surrogate load sheet_key order size osize dsize unpack (fun _ => 0%Z) (fun _ => []) opos sh s vs H) as [f0 [es [Hv Y]]].
    exists f0. intros fuel Hf. destruct (Y fuel Hf) as (r & r' & Ho & Hy & Hl). apply (yields_refused sh s obj fuel r es EOF r' Ho Hy Hl T' C). right.
    subst vs. clear -X. induction es as [|e es IH]; cbn [map] in X; inversion X; subst; [left|right]; auto.
  Qed.
  (** Without a schema, or with one that does not compile, nothing is validated. *)
  Theorem validated_schema : forall fuel sh s, (exists e, compile (sh_schema sh) = Err e) \/ (compile (sh_schema sh) = Ok tt /\ ~ of_arrays sh /\ ~ of_objects sh) ->
    forall found, validate fuel sh s <> Ok found.
  Proof.
    intros fuel sh s H found V. unfold validate_body in V. destruct (open sh s) as [r| | |]; try discriminate. cbn [rthen] in V.
    destruct (entry_reader N ereader E fmt_json parse_float depth (check (sh_schema sh)) fuel (compile (sh_schema sh)) (sh_schema sh) (rstep fuel) r) as [o s'] eqn:X. cbn [fst] in V. subst o.
    apply entry_reader_success in X. destruct X as (obj & es & e & bs & C & T & _). destruct H as [[e' H]|(_ & NA & NO)]; [congruence|]. destruct obj; [apply NO|apply NA]; exact T.
  Qed.
  (** Nor is a body in no known format, of an unknown compression, or whose decompression fails at once. *)
  Theorem validated_unopened : forall fuel sh s,
    ~ In (structure_data_format (sh_format sh)) [fJSON; fCBOR; fNDJSON; fCSV; fXLSX] \/
    (sh_compression sh <> [] /\ (structure_data_format (sh_format sh) = fXLSX \/ parse_compression (sh_compression sh) = None \/
       exists f, parse_compression (sh_compression sh) = Some f /\ forall s', unpack f s <> Ok s')) ->
    forall found, validate fuel sh s <> Ok found.
  Proof.
    intros fuel sh s H found V. unfold validate_body in V. destruct (open sh s) as [r| | |] eqn:O; try discriminate. clear V. unfold new_entry_reader in O. cbn [In] in H.
    assert (W : forall s', sh_compression sh <> [] -> parse_compression (sh_compression sh) = None \/ (exists f, parse_compression (sh_compression sh) = Some f /\ forall s', unpack f s <> Ok s') ->
      wrap_decompressor unpack (sh_compression sh) s <> Ok s').
    { intros s' N [P|(f & P & U)]; unfold wrap_decompressor; destruct (sh_compression sh) eqn:Es; try congruence; rewrite P; [discriminate|apply U]. }
    destruct (Z.eqb_spec (structure_data_format (sh_format sh)) fCBOR) as [Ef|N1].
    { destruct H as [H|(Hn & [H|H])]; [apply H; rewrite Ef; tauto|rewrite Ef in H; discriminate|]. unfold open_cbor in O. destruct (required _); try discriminate. cbn [rthen] in O.
      destruct (wrap_decompressor unpack _ s) as [s'| | |] eqn:Ew; try discriminate. exact (W s' Hn H eq_refl). }
    destruct (Z.eqb_spec (structure_data_format (sh_format sh)) fJSON) as [Ef|N2].
    { destruct H as [H|(Hn & [H|H])]; [apply H; rewrite Ef; tauto|rewrite Ef in H; discriminate|]. unfold open_json in O. destruct (required _); try discriminate. cbn [rthen] in O.
      destruct (get_top_level_type _); try discriminate. cbn [rthen] in O. destruct (wrap_decompressor unpack _ s) as [s'| | |] eqn:Ew; try discriminate. exact (W s' Hn H eq_refl). }
    destruct (Z.eqb_spec (structure_data_format (sh_format sh)) fCSV) as [Ef|N3].
    { destruct H as [H|(Hn & [H|H])]; [apply H; rewrite Ef; tauto|rewrite Ef in H; discriminate|]. unfold open_csv in O. destruct (new_csv_reader _ _ _ _ _); try discriminate. cbn [rthen] in O.
      destruct (wrap_decompressor unpack _ s) as [s'| | |] eqn:Ew; try discriminate. exact (W s' Hn H eq_refl). }
    destruct (Z.eqb_spec (structure_data_format (sh_format sh)) fXLSX) as [Ef|N4].
    { destruct H as [H|(Hn & _)]; [apply H; rewrite Ef; tauto|]. unfold open_xlsx, new_xlsx_reader in O. destruct (sh_compression sh); [congruence|]. destruct (s_fin s); discriminate. }
    destruct (Z.eqb_spec (structure_data_format (sh_format sh)) fNDJSON) as [Ef|N5].
    { destruct H as [H|(Hn & [H|H])]; [apply H; rewrite Ef; tauto|rewrite Ef in H; discriminate|]. unfold open_nd in O. destruct (required _); try discriminate. cbn [rthen] in O.
      destruct (get_top_level_type _); try discriminate. cbn [rthen] in O. destruct (negb _); try discriminate. destruct (wrap_decompressor unpack _ s) as [s'| | |] eqn:Ew; try discriminate. exact (W s' Hn H eq_refl). }
    destruct (structure_data_format (sh_format sh) =? fUnknown)%Z; discriminate.
  Qed.

  (** ** Conversions *)
  Variable fmt_plain : N -> bytes.
  Variable save : book -> bytes.
  Variable keep : bytes -> bytes.
  Variable wsize : nat.
  Variable pack : bytes -> bytes -> bytes.
  Hypothesis wbig : (4 <= wsize)%nat.
  Hypothesis floats : float_format N fmt_json parse_float.
  Hypothesis packs : lossless_end unpack pack.
  Hypothesis books : forall b, load (save b) = Ok b.
  Notation convert_all := (fun fuel a b s => convert parse_float fmt_plain fmt_json depth surrogate save load sheet_key keep order size osize wsize dsize unpack pack fuel a b s 0%Z 0%Z true).
  (** Converting a body through any formats that can store its values, into one whose schema asks the same, does not change
      what its validation finds. *)
  Theorem validated_converted : forall l in_ s vs vs' out s', holds in_ s vs -> stored_along parse_float fmt_plain fmt_json depth keep order vs l vs' -> chain convert_all in_ s l out s' ->
    of_arrays in_ -> of_arrays out -> compile (sh_schema in_) = Ok tt -> compile (sh_schema out) = Ok tt -> (forall doc, check (sh_schema in_) doc = check (sh_schema out) doc) ->
    Forall2 same_json vs vs' -> Forall checkable vs -> Forall checkable vs' ->
    exists f0 found, forall fuel, (f0 <= fuel)%nat -> validate fuel in_ s = Ok found /\ validate fuel out s' = Ok found.
  Proof.
    intros l in_ s vs vs' out s' H A Ch T T' C C' X S K K'. apply (validated_same in_ s vs out s' vs'); try assumption.
    exact (chain_holds parse_float fmt_plain fmt_json depth surrogate save load sheet_key keep order size osize wsize dsize unpack pack wbig opos floats strict packs books l in_ s vs vs' out s' H A Ch).
  Qed.
End Validate.
Print Assumptions validated_array.
Print Assumptions validated_small.
Print Assumptions validated_same.
Print Assumptions validated_object.
Print Assumptions validated_broken.
Print Assumptions validated_refused.
Print Assumptions validated_schema.
Print Assumptions validated_unopened.
Print Assumptions validated_converted.

(** ** Concrete cases, and claims that do not hold. *)
From Verif Require P_ConvertCsv P_EntryBuffer.
Import P_ConvertCsv P_EntryBuffer P_ConvertAny.
(** A check that names the rows whose first cell is longer than two bytes. *)
Definition long_cell (v : gval N) : bool := match v with VArr (VStr t :: _) => (2 <? length t)%nat | _ => false end.
Definition demo_check (_ : option jmap) (doc : gval N) : list nat :=
  match doc with VArr rows => map fst (filter (fun p => long_cell (snd p)) (combine (seq 0 (length rows)) rows)) | VMap m => [length m] | _ => [99%nat] end.
Definition demo_compile (o : option jmap) : res unit := match o with Some _ => Ok tt | None => Err (EMsg "schema is required") end.
Definition demo_validate (s : src) (sh : shape) : res (list nat) :=
  validate_body nat demo_parse (fun _ => None) 8 (bs "?") load_book (fun n => n) (fun m => m) demo_size 16 16 demo_unpack demo_compile demo_check 60 sh s.
Example validated_same_ex : let vs := [row "qq" false; row "x;y" true] in let packed := from (bs "gzip" ++ cbor_encode (VArr vs)) in
  S_Calculate.holds demo_parse 8 (fun m => m) demo_unpack load_book (fun n => n) as_cbor packed vs /\ of_arrays as_cbor /\ of_arrays as_packed /\
  Forall2 (same_json demo_parse) vs vs /\ Forall (checkable (fun _ => None) 8) vs /\
  demo_validate packed as_cbor = Ok [1%nat] /\
  demo_validate (from (bs "gzip" ++ bs "qq;false" ++ nl ++ bs """x;y"";true" ++ nl)) as_packed = Ok [1%nat] /\
  demo_validate (from (bs "[[""qq"",false],[""x;y"",true]]")) as_json = Ok [1%nat] /\
  demo_validate (from (bs "[""qq"",false]" ++ nl ++ bs "[""x;y"",true]" ++ nl)) as_lines = Ok [1%nat].
Proof.
  assert (LB : forall a b, forallb (fun c => (c <? 128)%N) (bs a) = true -> line_back N demo_parse (row a b) (row a b)).
  { intros a b H. apply lb_arr. constructor; [apply lb_str, cleaned_ascii; exact H|constructor; [constructor|constructor]]. }
  assert (CK : forall a b, checkable (fun _ => None) 8 (row a b)).
  { intros a b. exists 7%nat. split; [reflexivity|]. split; [constructor; constructor; [constructor|constructor; [constructor|constructor]]|].
    intros X; inversion X as [|? v Hin Hv|]; subst; destruct Hin as [<-|[<-|[]]]; inversion Hv. }
  cbv zeta. split; [|split; [|split; [|split; [|split; [|vm_compute; repeat split]]]]].
  - apply ho_cbor; [split; [reflexivity|eexists; split; reflexivity]| | | |reflexivity].
    + right. exists (bs "gzip"). eexists. repeat split.
    + repeat constructor; cbn; lia.
    + cbn. lia.
  - eexists. split; reflexivity.
  - eexists. split; reflexivity.
  - constructor; [|constructor; [|constructor]]; eexists; split; apply LB; reflexivity.
  - constructor; [|constructor; [|constructor]]; apply CK.
Qed.
Definition as_pairs : shape := mkShape (bs "json") [] (Some [(bs "type", VStr (bs "object"))]) None.
Definition as_cbor_pairs : shape := mkShape (bs "cbor") [] (Some [(bs "type", VStr (bs "object"))]) None.
Example validated_object_ex : of_objects as_pairs /\ demo_validate (from (bs "{""a"":1,""b"":[]}")) as_pairs = Ok [2%nat] /\
  demo_validate (from (cbor_encode (VMap [(bs "a", VInt 1); (bs "b", VArr [])]))) as_cbor_pairs = Ok [2%nat] /\
  (exists e, demo_validate (from (bs "{""a"":1,""a"":[]}")) as_pairs = Err e) /\ demo_validate (from (bs "{}")) as_pairs = Ok [].
Proof. split; [eexists; split; reflexivity|]. split; [vm_compute; reflexivity|]. split; [vm_compute; reflexivity|]. split; [eexists; vm_compute; reflexivity|vm_compute; reflexivity]. Qed.
Example validated_unopened_ex : let sh := mkShape (bs "json") (bs "rar") (Some [(bs "type", VStr (bs "array"))]) None in
  sh_compression sh <> [] /\ parse_compression (sh_compression sh) = None /\ exists e, demo_validate (from (bs "[]")) sh = Err e.
Proof. split; [discriminate|]. split; [reflexivity|]. eexists. vm_compute. reflexivity. Qed.
Example validated_broken_ex : exists e1 e2 e3 e4,
  demo_validate (from (bs "gzip" ++ cbor_encode (VArr [VInt 1; VInt (-25); VInt 2]))) as_cbor = Err e1 /\
  demo_validate (from (bs "[true]" ++ nl ++ bs "[tru]" ++ nl ++ bs "[null]" ++ nl)) as_lines = Err e2 /\
  demo_validate (from (bs "gzip" ++ bs "qq;false" ++ nl ++ bs "x" ++ nl)) as_packed = Err e3 /\
  demo_validate (from (bs "[[1,2],[3")) as_json = Err e4.
Proof. eexists _, _, _, _. split; [vm_compute; reflexivity|]. split; [vm_compute; reflexivity|]. split; vm_compute; reflexivity. Qed.
Example validated_refused_ex : exists e, refused N (fun _ => None) (VArr [VFloat 3%N]) /\ demo_validate (from (bs "[true]" ++ nl ++ bs "[0.5]" ++ nl)) as_lines = Err e.
Proof. eexists. split; [apply (rf_arr _ _ _ (VFloat 3%N)); [left; reflexivity|constructor; reflexivity]|vm_compute; reflexivity]. Qed.

(** Success does not mean that the whole body was checked: what a CBOR body lost behind an entry, and a last line without its
    end, are not missed.  Here the second row, which is found faulty in the whole body, is not there. *)
Theorem validated_all_entries_refuted :
  let whole := cbor_encode (VArr [row "qq" false; row "x;y" true]) in
  demo_validate (from whole) as_cbor_plain = Ok [1%nat] /\ demo_validate (from (firstn 6 whole)) as_cbor_plain = Ok [] /\
  demo_validate (from (bs "[""qq"",false]" ++ nl ++ bs "[""x;y"",true]" ++ nl)) as_lines = Ok [1%nat] /\
  demo_validate (from (bs "[""qq"",false]" ++ nl ++ bs "[""x;y"",true]")) as_lines = Ok [].
Proof. vm_compute. repeat split. Qed.
Print Assumptions validated_all_entries_refuted.
