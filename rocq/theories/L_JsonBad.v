(** JSON texts with an integer that does not fit: errors, and the swallowed error of a nested array. *)
From Verif Require Import Base M_Decimal L_Decimal M_Bufio M_Utf8 M_Json S_JsonPure S_JsonText L_JsonRead L_JsonCut L_JsonDoc.

Section Bad.
  Variable F : Type.
  Variable parse_float : bytes -> option F.
  Variable surrogate : bytes.
  Notation read_value := (read_value F parse_float surrogate).
  Notation read_object := (read_object F parse_float surrogate).
  Notation read_pairs := (read_pairs F parse_float surrogate).
  Notation read_pair := (read_pair F parse_float surrogate).
  Notation read_array := (read_array F parse_float surrogate).
  Notation read_elems := (read_elems F parse_float surrogate).
  Notation read_loop := (read_loop F parse_float surrogate).
  Notation read_body := (read_body F parse_float surrogate).
  Notation gval := (gval F).
  Notation float_reads := (float_reads F parse_float).
  Notation jtext := (jtext F float_reads).
  Notation jtail := (jtail F float_reads).
  Notation jpair := (jpair F float_reads).

  Definition fails {A} (p : jprog (res A)) (s : bytes) : Prop :=
    exists e ps, run_pure p (Live s) = (Some (Err e), Live ps) /\ is_eof_text e <> true.

  Lemma out_of_int64 : forall z, ~ fits_int64 z -> in_int64 z = false.
  Proof.
    intros z H. destruct (in_int64 z) eqn:E; [|reflexivity]. exfalso. apply H. unfold in_int64, min_int64, max_int64 in E.
    apply andb_true_iff in E. destruct E as [E1 E2]. apply Z.leb_le in E1, E2. unfold fits_int64. lia.
  Qed.
  Lemma bad_number : forall z t w r fuel, int_text z t -> ~ fits_int64 z -> blank w -> delim r ->
    run_pure (read_value (Datatypes.S fuel)) (Live (w ++ t ++ r)) = (Some (Err (EMsg "strconv.Atoi")), Live r).
  Proof.
    intros z t w r fuel Ht Hz Hw Hr. destruct (int_text_facts z t Ht) as [c [t' [-> [Hc [H1 [H2 H3]]]]]].
    rewrite number_value by assumption. unfold convert_number. rewrite H2. unfold parse_int64. rewrite H3, out_of_int64 by assumption. reflexivity.
  Qed.

  Lemma jbad_tail_delim : forall t x, jbad_tail F float_reads t -> delim (t ++ x).
  Proof. intros t x H. destruct H; rewrite <- app_assoc; apply delim_blank; try assumption; reflexivity. Qed.
  Lemma jbad_ptail_delim : forall t x, jbad_ptail F float_reads t -> delim (t ++ x).
  Proof. intros t x H. destruct H; rewrite <- app_assoc; apply delim_blank; try assumption; reflexivity. Qed.
  Lemma jbad_pair_head : forall t, jbad_pair F float_reads t -> exists t', t = 34%N :: t'.
  Proof. intros t H. destruct H. eauto. Qed.
  Lemma jbad_head : forall t, jbad F float_reads t -> exists c t', t = c :: t' /\ is_ws c = false /\ N.eqb c 93 = false /\ N.eqb c 125 = false.
  Proof.
    intros t H. destruct H as [z t Ht _| | |].
    - destruct (int_text_facts z t Ht) as [c [t' [-> [Hc _]]]]. destruct (num_start_facts c Hc) as [E0 [_ [_ [_ [_ [E5 [E6 _]]]]]]]. eauto 10.
    - eexists; eexists; eauto.
    - eexists; eexists; eauto.
    - eexists; eexists; eauto.
  Qed.

  Theorem read_bad :
    (forall t, jbad F float_reads t -> forall fuel w r, (2 * length t <= fuel)%nat -> blank w -> delim r ->
       fails (read_value fuel) (w ++ t ++ r)) /\
    (forall t, jbad_tail F float_reads t -> forall fuel acc r, (2 * length t <= fuel)%nat -> delim r ->
       fails (read_elems fuel acc) (t ++ r)) /\
    (forall t, jbad_pair F float_reads t -> forall fuel w r, (2 * length t <= fuel)%nat -> blank w -> delim r ->
       fails (read_pair fuel) (w ++ t ++ r)) /\
    (forall t, jbad_ptail F float_reads t -> forall fuel obj r, (2 * length t <= fuel)%nat -> delim r ->
       fails (read_pairs fuel obj) (t ++ r)).
  Proof.
    destruct (read_text F parse_float surrogate) as [RT [_ [RP _]]].
    apply (json_bad_ind F float_reads
      (fun t => forall fuel w r, (2 * length t <= fuel)%nat -> blank w -> delim r -> fails (read_value fuel) (w ++ t ++ r))
      (fun t => forall fuel acc r, (2 * length t <= fuel)%nat -> delim r -> fails (read_elems fuel acc) (t ++ r))
      (fun t => forall fuel w r, (2 * length t <= fuel)%nat -> blank w -> delim r -> fails (read_pair fuel) (w ++ t ++ r))
      (fun t => forall fuel obj r, (2 * length t <= fuel)%nat -> delim r -> fails (read_pairs fuel obj) (t ++ r))).
    - intros z t Ht Hz fuel w r Hf Hw Hr.
      destruct fuel; [destruct (int_text_facts z t Ht) as [c [t' [-> _]]]; cbn in Hf; lia|].
      unfold fails. rewrite (bad_number z) by assumption. eexists; eexists; split; [reflexivity|discriminate].
    - intros v w1 t rt Hw1 Ht Hrt IHrt fuel w r Hf Hw Hr. cbn [length] in Hf. rewrite !app_length in Hf.
      destruct (jtext_head _ _ v t Ht) as [c [t' [Et [Hc1 [Hc2 Hc3]]]]].
      assert (1 <= length t)%nat by (rewrite Et; cbn; lia).
      destruct fuel as [|[|fuel]]; [lia|lia|]. unfold fails.
      rewrite read_value_S. cbn [run_pure]. rewrite skip_blank by assumption. cbn [app skip_ws].
      change (is_ws 91) with false. cbn [hd]. cbn [N.eqb Pos.eqb orb]. change (is_digit 91) with false. rewrite read_array_S.
      rewrite <- !app_assoc. rewrite (tok_yes _ 91%N _ [] (w1 ++ t ++ rt ++ r)) by (auto; constructor). cbn [negb].
      assert (Etok : forall (k : bool -> jprog (res gval)), run_pure (JTok 93 k) (Live (w1 ++ t ++ rt ++ r)) =
                run_pure (k false) (Live (t ++ rt ++ r))).
      { intros k. rewrite Et. cbn [app]. apply tok_no; assumption. }
      rewrite Etok. rewrite run_pure_bind. change (t ++ rt ++ r) with ([] ++ t ++ (rt ++ r)).
      rewrite (RT v t Ht fuel [] (rt ++ r)); [|lia|constructor|apply jbad_tail_delim; assumption].
      apply IHrt; [lia|assumption].
    - intros w1 t Hw1 Ht IHt fuel w r Hf Hw Hr. cbn [length] in Hf. rewrite !app_length in Hf.
      destruct (jbad_pair_head t Ht) as [t' Et]. assert (1 <= length t)%nat by (rewrite Et; cbn; lia).
      destruct fuel as [|[|fuel]]; [lia|lia|]. unfold fails.
      rewrite read_value_S. cbn [run_pure]. rewrite skip_blank by assumption. cbn [app skip_ws].
      change (is_ws 123) with false. cbn [hd]. cbn [N.eqb Pos.eqb orb]. change (is_digit 123) with false. rewrite read_object_S.
      rewrite <- !app_assoc. rewrite (tok_yes _ 123%N _ [] (w1 ++ t ++ r)) by (auto; constructor). cbn [negb].
      assert (Etok : forall (k : bool -> jprog (res gval)), run_pure (JTok 125 k) (Live (w1 ++ t ++ r)) =
                run_pure (k false) (Live (t ++ r))).
      { intros k. rewrite Et. cbn [app]. apply tok_no; auto. }
      rewrite Etok. unfold jrbind. rewrite run_pure_bind. change (t ++ r) with ([] ++ t ++ r).
      destruct (IHt fuel [] r ltac:(lia) ltac:(constructor) Hr) as [e [ps [E He]]]. rewrite E. eexists; eexists; split; [reflexivity|assumption].
    - intros kv w1 t rt Hw1 Ht Hrt IHrt fuel w r Hf Hw Hr. cbn [length] in Hf. rewrite !app_length in Hf.
      destruct (jpair_head _ _ kv t Ht) as [t' Et]. assert (1 <= length t)%nat by (rewrite Et; cbn; lia).
      destruct fuel as [|[|fuel]]; [lia|lia|]. unfold fails.
      rewrite read_value_S. cbn [run_pure]. rewrite skip_blank by assumption. cbn [app skip_ws].
      change (is_ws 123) with false. cbn [hd]. cbn [N.eqb Pos.eqb orb]. change (is_digit 123) with false. rewrite read_object_S.
      rewrite <- !app_assoc. rewrite (tok_yes _ 123%N _ [] (w1 ++ t ++ rt ++ r)) by (auto; constructor). cbn [negb].
      assert (Etok : forall (k : bool -> jprog (res gval)), run_pure (JTok 125 k) (Live (w1 ++ t ++ rt ++ r)) =
                run_pure (k false) (Live (t ++ rt ++ r))).
      { intros k. rewrite Et. cbn [app]. apply tok_no; auto. }
      rewrite Etok. unfold jrbind. rewrite run_pure_bind. change (t ++ rt ++ r) with ([] ++ t ++ (rt ++ r)).
      rewrite (RP kv t Ht fuel [] (rt ++ r)); [|lia|constructor|apply jbad_ptail_delim; assumption].
      apply IHrt; [lia|assumption].
    - intros w1 w2 t Hw1 Hw2 Ht IHt fuel acc r Hf Hr. rewrite !app_length in Hf. cbn [length] in Hf. rewrite !app_length in Hf.
      destruct fuel; [lia|]. unfold fails. rewrite read_elems_S.
      rewrite <- app_assoc. cbn [app]. rewrite (tok_no _ 93%N 44%N _ w1) by auto.
      rewrite (tok_yes0 _ 44%N) by reflexivity. cbn [negb]. unfold jrbind. rewrite run_pure_bind. rewrite <- !app_assoc.
      destruct (IHt fuel w2 r ltac:(lia) Hw2 Hr) as [e [ps [E He]]]. rewrite E. eexists; eexists; split; [reflexivity|assumption].
    - intros v w1 w2 t rt Hw1 Hw2 Ht Hrt IHrt fuel acc r Hf Hr. rewrite !app_length in Hf. cbn [length] in Hf. rewrite !app_length in Hf.
      destruct fuel; [lia|]. unfold fails. rewrite read_elems_S.
      rewrite <- app_assoc. cbn [app]. rewrite (tok_no _ 93%N 44%N _ w1) by auto.
      rewrite (tok_yes0 _ 44%N) by reflexivity. cbn [negb]. unfold jrbind. rewrite run_pure_bind. rewrite <- !app_assoc.
      rewrite (RT v t Ht fuel w2 (rt ++ r)); [|lia|assumption|apply jbad_tail_delim; assumption].
      apply IHrt; [lia|assumption].
    - intros k kt t w1 w2 Hk Hw1 Hw2 Ht IHt fuel w r Hf Hw Hr.
      cbn [length] in Hf. rewrite !app_length in Hf. cbn [length] in Hf. rewrite !app_length in Hf. cbn [length] in Hf. rewrite app_length in Hf.
      destruct fuel; [lia|]. unfold fails. rewrite read_pair_S. unfold jrbind at 1. rewrite run_pure_bind.
      cbn [app]. rewrite <- !app_assoc. cbn [app]. rewrite <- !app_assoc. cbn [app]. rewrite <- !app_assoc.
      rewrite (string_ok _ k kt w _ Hk Hw). rewrite (tok_yes _ 58%N _ w1) by auto. cbn [negb].
      unfold jrbind. rewrite run_pure_bind. destruct (IHt fuel w2 r ltac:(lia) Hw2 Hr) as [e [ps [E He]]]. rewrite E.
      eexists; eexists; split; [reflexivity|assumption].
    - intros w1 w2 t Hw1 Hw2 Ht IHt fuel obj r Hf Hr. rewrite !app_length in Hf. cbn [length] in Hf. rewrite !app_length in Hf.
      destruct fuel; [lia|]. unfold fails. rewrite read_pairs_S.
      rewrite <- app_assoc. cbn [app]. rewrite (tok_no _ 125%N 44%N _ w1) by auto.
      rewrite (tok_yes0 _ 44%N) by reflexivity. cbn [negb]. unfold jrbind. rewrite run_pure_bind. rewrite <- !app_assoc.
      destruct (IHt fuel w2 r ltac:(lia) Hw2 Hr) as [e [ps [E He]]]. rewrite E. eexists; eexists; split; [reflexivity|assumption].
    - intros kv w1 w2 t rt Hw1 Hw2 Ht Hrt IHrt fuel obj r Hf Hr. rewrite !app_length in Hf. cbn [length] in Hf. rewrite !app_length in Hf.
      destruct fuel; [lia|]. unfold fails. rewrite read_pairs_S.
      rewrite <- app_assoc. cbn [app]. rewrite (tok_no _ 125%N 44%N _ w1) by auto.
      rewrite (tok_yes0 _ 44%N) by reflexivity. cbn [negb]. unfold jrbind. rewrite run_pure_bind. rewrite <- !app_assoc.
      rewrite (RP kv t Ht fuel w2 (rt ++ r)); [|lia|assumption|apply jbad_ptail_delim; assumption].
      apply IHrt; [lia|assumption].
  Qed.

  (** The nested array with a bad first element: read as empty, with the rest left in the input. *)
  Lemma swallowed : forall z w w1 t r fuel, int_text z t -> ~ fits_int64 z -> blank w -> blank w1 -> delim r ->
    run_pure (read_value (Datatypes.S (Datatypes.S (Datatypes.S fuel)))) (Live (w ++ 91%N :: w1 ++ t ++ r)) = (Some (Ok (VArr [])), Live r).
  Proof.
    intros z w w1 t r fuel Ht Hz Hw Hw1 Hr.
    rewrite read_value_S. cbn [run_pure]. rewrite skip_blank by assumption. cbn [app skip_ws].
    change (is_ws 91) with false. cbn [hd]. cbn [N.eqb Pos.eqb orb]. change (is_digit 91) with false. rewrite read_array_S.
    rewrite (tok_yes _ 91%N _ [] (w1 ++ t ++ r)) by (auto; constructor). cbn [negb].
    destruct (int_text_facts z t Ht) as [c [t' [Et [Hc _]]]]. destruct (num_start_facts c Hc) as [E0 [_ [_ [_ [_ [E5 _]]]]]].
    assert (Etok : forall (k : bool -> jprog (res gval)), run_pure (JTok 93 k) (Live (w1 ++ t ++ r)) = run_pure (k false) (Live (t ++ r))).
    { intros k. rewrite Et. cbn [app]. apply tok_no; assumption. }
    rewrite Etok, run_pure_bind. change (t ++ r) with ([] ++ t ++ r). rewrite (bad_number z) by (auto; constructor). reflexivity.
  Qed.

  (** Documents: the items before some position are read as usual. *)
  Section Mode.
    Variables (obj : bool) (X : Type) (J : X -> bytes -> Prop) (ent : Z -> X -> entry F).
    Hypothesis M : mode_ok F parse_float surrogate obj X J ent.
    Notation entries_from := (entries_from F X ent).

    Definition then_entries (es : list (entry F)) (o : option (list (entry F) * res unit) * pst) : option (list (entry F) * res unit) * pst :=
      match o with
      | (Some (es', x), ps) => (Some (es ++ es', x), ps)
      | (None, ps) => (None, ps)
      end.

    Lemma loop_prefix : forall vs gt, gtail J vs gt -> forall q n fuel k, (2 * length gt <= fuel)%nat ->
      exists w, blank w /\
        run_pure (read_loop (length vs + n) fuel (mkJs obj true k)) (Live (gt ++ 44%N :: q)) =
        then_entries (entries_from k vs) (run_pure (read_loop n fuel (mkJs obj true (k + Z.of_nat (length vs)))) (Live (w ++ 44%N :: q))).
    Proof.
      induction 1 as [w Hw|v vs w1 w2 t rt Hw1 Hw2 Ht Hrt IH]; intros q n fuel k Hf.
      - exists w. split; [assumption|]. cbn [length Nat.add L_JsonDoc.entries_from]. rewrite Z.add_0_r.
        destruct (run_pure (read_loop n fuel (mkJs obj true k)) (Live (w ++ 44%N :: q))) as [[[es x]|] ps]; reflexivity.
      - rewrite !app_length in Hf. cbn [length] in Hf. rewrite !app_length in Hf.
        destruct (IH q n fuel (k + 1)%Z ltac:(lia)) as [w [Hw E]]. exists w. split; [assumption|].
        cbn [length Nat.add]. rewrite <- app_assoc. cbn [app]. rewrite <- !app_assoc.
        rewrite (entry_step F parse_float surrogate obj _ _ _ _ _ (ent k v) (mkJs obj true (k + 1)) (Live (rt ++ 44%N :: q)) Hw1).
        + rewrite E. replace (k + 1 + Z.of_nat (length vs))%Z with (k + Z.of_nat (Datatypes.S (length vs)))%Z by lia.
          destruct (run_pure (read_loop n fuel (mkJs obj true (k + Z.of_nat (Datatypes.S (length vs))))) (Live (w ++ 44%N :: q))) as [[[es x]|] ps]; reflexivity.
        + apply (mo_full _ _ _ _ _ _ _ M); [assumption|lia|assumption|].
          apply (gtail_delim X J vs); [assumption|reflexivity].
    Qed.

    (** A document whose first items are well-formed. *)
    Definition opened (vs : list X) (pre : bytes) : Prop :=
      exists w1 w2 v vs' t rt, vs = v :: vs' /\ blank w1 /\ blank w2 /\ J v t /\ gtail J vs' rt /\ pre = w1 ++ opening obj :: w2 ++ t ++ rt.
    Lemma doc_prefix : forall vs pre, opened vs pre -> forall q n fuel, (2 * length pre <= fuel)%nat ->
      exists w, blank w /\
        run_pure (read_loop (length vs + n) fuel (mkJs obj false 0)) (Live (pre ++ 44%N :: q)) =
        then_entries (entries_from 0 vs) (run_pure (read_loop n fuel (mkJs obj true (Z.of_nat (length vs)))) (Live (w ++ 44%N :: q))).
    Proof.
      intros vs pre [w1 [w2 [v [vs' [t [rt [-> [Hw1 [Hw2 [Ht [Hrt ->]]]]]]]]]]] q n fuel Hf.
      rewrite !app_length in Hf. cbn [length] in Hf. rewrite !app_length in Hf.
      destruct (loop_prefix vs' rt Hrt q n fuel 1%Z ltac:(lia)) as [w [Hw E]]. exists w. split; [assumption|].
      cbn [length Nat.add]. rewrite <- app_assoc. cbn [app]. rewrite read_first by assumption. rewrite run_pure_bind.
      destruct (mo_head _ _ _ _ _ _ _ M v t Ht) as [c [t' [Et [Hc1 Hc2]]]].
      rewrite <- !app_assoc.
      assert (Etok : forall A (k : bool -> jprog A) x, run_pure (JTok (closing obj) k) (Live (w2 ++ t ++ x)) =
              run_pure (k false) (Live (t ++ x))).
      { intros A k x. rewrite Et. cbn [app]. apply tok_no; assumption. }
      rewrite Etok.
      destruct (mo_full _ _ _ _ _ _ _ M v t fuel [] (rt ++ 44%N :: q) 0%Z Ht) as [_ E1]; [lia|constructor| |].
      { apply (gtail_delim X J vs'); [assumption|reflexivity]. }
      cbn [app] in E1. rewrite E1. rewrite run_pure_bind. change (0 + 1)%Z with 1%Z. rewrite E.
      replace (1 + Z.of_nat (length vs'))%Z with (Z.of_nat (Datatypes.S (length vs'))) by lia.
      destruct (run_pure (read_loop n fuel (mkJs obj true (Z.of_nat (Datatypes.S (length vs'))))) (Live (w ++ 44%N :: q))) as [[[es x]|] ps]; reflexivity.
    Qed.

    (** An item that cannot be read: the entries before it, then an error. *)
    Definition bad_item (t : bytes) : Prop :=
      (forall fuel w r i k, (2 * length t <= fuel)%nat -> blank w -> delim r ->
        exists e js ps, run_pure (read_body fuel (mkJs obj i k)) (Live (w ++ t ++ r)) = (Some (Err e, js), Live ps) /\ is_eof_text e <> true) /\
      exists c t', t = c :: t' /\ is_ws c = false /\ N.eqb c (closing obj) = false.
    Theorem doc_bad_later : forall vs pre w2 t r n fuel, opened vs pre -> blank w2 -> bad_item t -> delim r ->
      (length vs < n)%nat -> (2 * length pre + 2 * length t <= fuel)%nat ->
      exists e ps, run_pure (read_loop n fuel (mkJs obj false 0)) (Live (pre ++ 44%N :: w2 ++ t ++ r)) =
        (Some (entries_from 0 vs, Err e), Live ps) /\ is_eof_text e <> true.
    Proof.
      intros vs pre w2 t r n fuel Hpre Hw2 [Ht _] Hr Hn Hf.
      destruct (doc_prefix vs pre Hpre (w2 ++ t ++ r) (n - length vs) fuel ltac:(lia)) as [w [Hw E]].
      replace (length vs + (n - length vs))%nat with n in E by lia. rewrite E.
      destruct (n - length vs)%nat as [|m] eqn:Em; [lia|]. rewrite read_loop_S, run_pure_bind, read_entry_init.
      change (run_pure (JFill ?p) ?s) with (run_pure p s). destruct (closing_facts obj) as [H1 [H2 H3]].
      rewrite (tok_no _ (closing obj) 44%N _ w _ Hw eq_refl H3). rewrite (tok_yes0 _ 44%N _ _ eq_refl).
      destruct (Ht fuel w2 r true (Z.of_nat (length vs)) ltac:(lia) Hw2 Hr) as [e [js [ps [E1 He]]]]. rewrite E1.
      exists e, ps. cbn. rewrite app_nil_r. auto.
    Qed.
    Theorem doc_bad_first : forall w1 w2 t r n fuel, blank w1 -> blank w2 -> bad_item t -> delim r ->
      (0 < n)%nat -> (2 * length t <= fuel)%nat ->
      exists e ps, run_pure (read_loop n fuel (mkJs obj false 0)) (Live (w1 ++ opening obj :: w2 ++ t ++ r)) =
        (Some ([], Err e), Live ps) /\ is_eof_text e <> true.
    Proof.
      intros w1 w2 t r n fuel Hw1 Hw2 [Ht [c [t' [Et [Hc1 Hc2]]]]] Hr Hn Hf. destruct n; [lia|].
      rewrite read_first by assumption. rewrite run_pure_bind.
      assert (Etok : forall A (k : bool -> jprog A) x, run_pure (JTok (closing obj) k) (Live (w2 ++ t ++ x)) =
              run_pure (k false) (Live (t ++ x))).
      { intros A k x. rewrite Et. cbn [app]. apply tok_no; assumption. }
      rewrite Etok. destruct (Ht fuel [] r false 0%Z Hf ltac:(constructor) Hr) as [e [js [ps [E He]]]]. cbn [app] in E. rewrite E.
      exists e, ps. auto.
    Qed.
  End Mode.

  Lemma bad_array_item : forall t, jbad F float_reads t -> bad_item false t.
  Proof.
    intros t Ht. split.
    - intros fuel w r i k Hf Hw Hr. destruct read_bad as [RB _]. destruct (RB t Ht fuel w r Hf Hw Hr) as [e [ps [E He]]].
      unfold M_Json.read_body. cbn [js_obj js_count]. rewrite run_pure_bind, E. eexists; eexists; eexists; split; [reflexivity|assumption].
    - destruct (jbad_head t Ht) as [c [t' [H1 [H2 [H3 H4]]]]]. eauto.
  Qed.
  Lemma bad_object_item : forall t, jbad_pair F float_reads t -> bad_item true t.
  Proof.
    intros t Ht. split.
    - intros fuel w r i k Hf Hw Hr. destruct read_bad as [_ [_ [RB _]]]. destruct (RB t Ht fuel w r Hf Hw Hr) as [e [ps [E He]]].
      unfold M_Json.read_body. cbn [js_obj js_count]. rewrite run_pure_bind, E. eexists; eexists; eexists; split; [reflexivity|assumption].
    - destruct (jbad_pair_head t Ht) as [t' H1]. exists 34%N, t'. auto.
  Qed.

  (** The swallowed error at the top level of an array document: the rest of the row becomes rows, the
      row's closing bracket ends the document, and whatever follows is ignored. *)
  Lemma body_swallows : forall z w w1 t r fuel i k, int_text z t -> ~ fits_int64 z -> blank w -> blank w1 -> delim r ->
    run_pure (read_body (Datatypes.S (Datatypes.S (Datatypes.S fuel))) (mkJs false i k)) (Live (w ++ 91%N :: w1 ++ t ++ r)) =
    (Some (Ok (mkEntry k [] (VArr [])), mkJs false true (k + 1)), Live r).
  Proof.
    intros. unfold M_Json.read_body. cbn [js_obj js_count]. rewrite run_pure_bind, (swallowed z) by assumption. reflexivity.
  Qed.
  Notation jt_mode := (array_mode F parse_float surrogate).

  Theorem swallow_first : forall z w1 w2 w3 t vs rt rest n fuel, int_text z t -> ~ fits_int64 z ->
    blank w1 -> blank w2 -> blank w3 -> jtail vs rt -> (length vs + 1 < n)%nat -> (2 * length rt + 3 <= fuel)%nat ->
    run_pure (read_loop n fuel (mkJs false false 0)) (Live (w1 ++ 91%N :: w2 ++ 91%N :: w3 ++ t ++ rt ++ 93%N :: rest)) =
    (Some (number_from 0 (VArr [] :: vs), Err EOF), Live rest).
  Proof.
    intros z w1 w2 w3 t vs rt rest n fuel Ht Hz Hw1 Hw2 Hw3 Hrt Hn Hf. destruct n; [lia|].
    destruct fuel as [|[|[|fuel]]]; [lia|lia|lia|].
    change 91%N with (opening false) at 1. rewrite read_first by assumption. rewrite run_pure_bind.
    rewrite (tok_no _ (closing false) 91%N _ w2 _ Hw2 eq_refl eq_refl).
    pose proof (body_swallows z [] w3 t (rt ++ 93%N :: rest) fuel false 0%Z Ht Hz ltac:(constructor) Hw3) as E.
    cbn [app] in E. rewrite (E (delim_tail _ _ vs rt (93%N :: rest) Hrt eq_refl)).
    rewrite run_pure_bind. change (0 + 1)%Z with 1%Z.
    pose proof (loop_tail F parse_float surrogate false _ _ _ jt_mode vs rt (jtail_gtail _ _ vs rt Hrt) n (Datatypes.S (Datatypes.S (Datatypes.S fuel))) 1%Z rest ltac:(lia) ltac:(lia)) as L.
    change (closing false) with 93%N in L. rewrite L.
    cbn [run_pure number_from]. rewrite entries_from_number. reflexivity.
  Qed.

  Theorem swallow_later : forall z us pre w2 w3 t vs rt rest n fuel, opened false _ jtext us pre -> int_text z t -> ~ fits_int64 z ->
    blank w2 -> blank w3 -> jtail vs rt -> (length us + length vs + 1 < n)%nat -> (2 * length pre + 2 * length rt + 3 <= fuel)%nat ->
    run_pure (read_loop n fuel (mkJs false false 0)) (Live (pre ++ 44%N :: w2 ++ 91%N :: w3 ++ t ++ rt ++ 93%N :: rest)) =
    (Some (number_from 0 (us ++ VArr [] :: vs), Err EOF), Live rest).
  Proof.
    intros z us pre w2 w3 t vs rt rest n fuel Hpre Ht Hz Hw2 Hw3 Hrt Hn Hf.
    destruct (doc_prefix _ _ _ _ jt_mode us pre Hpre (w2 ++ 91%N :: w3 ++ t ++ rt ++ 93%N :: rest) (n - length us) fuel ltac:(lia)) as [w [Hw E]].
    replace (length us + (n - length us))%nat with n in E by lia. rewrite E.
    destruct (n - length us)%nat as [|m] eqn:Em; [lia|].
    destruct fuel as [|[|[|fuel]]]; [lia|lia|lia|].
    rewrite (entry_step F parse_float surrogate false m _ _ w _ (mkEntry (Z.of_nat (length us)) [] (VArr [])) (mkJs false true (Z.of_nat (length us) + 1)) (Live (rt ++ 93%N :: rest)) Hw).
    2:{ apply (body_swallows z w2 w3 t); try assumption. exact (delim_tail _ _ vs rt (93%N :: rest) Hrt eq_refl). }
    pose proof (loop_tail F parse_float surrogate false _ _ _ jt_mode vs rt (jtail_gtail _ _ vs rt Hrt) m (Datatypes.S (Datatypes.S (Datatypes.S fuel))) (Z.of_nat (length us) + 1)%Z rest ltac:(lia) ltac:(lia)) as L.
    change (closing false) with 93%N in L. rewrite L. cbn [then_entries].
    rewrite !entries_from_number. f_equal. f_equal. f_equal.
    assert (NF : forall us k vs, number_from k us ++ number_from (k + Z.of_nat (length us)) vs = number_from k (us ++ vs) :> list (entry F)).
    { clear. induction us as [|u us IH]; intros k vs; cbn [number_from length app]; [f_equal; lia|]. rewrite <- IH. f_equal. f_equal. f_equal. lia. }
    specialize (NF us 0%Z (VArr [] :: vs)). rewrite Z.add_0_l in NF. exact NF.
  Qed.
End Bad.
