(** C71: values and their texts, by type. *)
From Coq Require Import ZArith Lia.
From Verif Require Import Base M_Decimal L_Decimal M_Utf8 S_Utf8 L_Utf8 M_Json M_JsonWrite S_JsonText S_JsonBack L_JsonMarshal M_Unmarshal S_NDJson L_Unmarshal L_UnmarshalInv L_NDJson
  P_NDJson M_Formats M_Vals S_Vals L_Vals P_Vals M_Texts S_Texts L_Texts.

Section Texts.
  Variable F : Type.
  Variable parse_float : bytes -> option F.
  Variable float_syntax : bytes -> bool.
  Variable fmt_g : F -> bytes.
  Variable fmt_json : F -> option bytes.
  Variable depth : nat.
  Notation gval := (gval F).
  Notation sline := (sline F parse_float depth).
  Notation type_parse := (type_parse F parse_float depth).
  Notation value_to_string := (value_to_string F fmt_g fmt_json).
  Notation stands := (stands F parse_float depth).
  Notation written := (written F fmt_json).
  Notation again := (again F parse_float depth).

  Lemma open_skip : forall t r, Forall (fun c => c <> 34 /\ c <> 123 /\ c <> 91)%N t -> json_array_or_object (t ++ r) = json_array_or_object r.
  Proof.
    induction 1 as [|c t [H1 [H2 H3]] _ IH]; [reflexivity|]. cbn [app json_array_or_object].
    apply N.eqb_neq in H1, H2, H3. rewrite H1, H2, H3. exact IH.
  Qed.
  Lemma blank_open : forall w, blank w -> Forall (fun c => c <> 34 /\ c <> 123 /\ c <> 91)%N w.
  Proof. intros w H. eapply Forall_impl; [|exact H]. cbn. lia. Qed.
  Lemma number_open : forall t, strict_number t -> Forall (fun c => c <> 34 /\ c <> 123 /\ c <> 91)%N t.
  Proof.
    assert (D : forall d, digits d -> Forall (fun c => c <> 34 /\ c <> 123 /\ c <> 91)%N d) by (intros d H; eapply Forall_impl; [|exact H]; cbn; lia).
    intros t [g [i [f [e [-> [Hg [Hi [Hf He]]]]]]]]. repeat (apply Forall_app; split).
    - destruct Hg as [->| ->]; repeat constructor; discriminate.
    - destruct Hi as [->|[c [r [-> [Hc Hr]]]]]; [repeat constructor; discriminate|]. constructor; [lia|auto].
    - destruct Hf as [->|[r [-> [_ Hr]]]]; [constructor|]. constructor; [lia|auto].
    - destruct He as [->|[x [h [r [-> [Hx [Hh [_ Hr]]]]]]]]; [constructor|]. constructor; [lia|]. apply Forall_app. split; [|auto].
      destruct Hh as [->|[->| ->]]; repeat constructor; discriminate.
  Qed.
  (** C71: on JSON documents JSONArrayOrObject tells what the document is. *)
  Theorem json_closure_exact : forall v s, sline v s ->
    json_array_or_object s = match v with VMap _ => CObject | VArr _ => CArray | _ => CNone end.
  Proof.
    intros v s [w1 [t [w2 [H1 [H2 [Ht ->]]]]]]. rewrite open_skip by (apply blank_open; assumption).
    assert (E : json_array_or_object w2 = CNone) by (rewrite <- (app_nil_r w2), open_skip by (apply blank_open; assumption); reflexivity).
    destruct Ht; try reflexivity; try exact E.
    rewrite open_skip by (apply number_open; assumption). exact E.
  Qed.
  Lemma bool_texts : forall s b, parse_bool s = Some b <-> In s (if b then true_texts else false_texts).
  Proof.
    assert (X : forall s l, existsb (beqb s) l = true <-> In s l).
    { intros s l. rewrite existsb_exists. split; [intros [x [H1 H2]]; apply beqb_eq in H2; subst; assumption|intros H; exists s; split; [assumption|apply beqb_refl]]. }
    intros s b. unfold parse_bool. fold true_texts. fold false_texts.
    destruct (existsb (beqb s) true_texts) eqn:E1.
    - apply X in E1. destruct b; [tauto|]. split; [discriminate|]. intros H. exfalso. cbn in E1, H. intuition (subst; discriminate).
    - assert (N1 : ~ In s true_texts) by (rewrite <- X; congruence). destruct (existsb (beqb s) false_texts) eqn:E2.
      + apply X in E2. destruct b; split; try discriminate; try tauto.
      + assert (N2 : ~ In s false_texts) by (rewrite <- X; congruence). destruct b; split; try discriminate; tauto.
  Qed.
  Lemma parse_json_exact : forall s x, parse_json F parse_float depth s = Ok x <-> (exists l, x = IArr l /\ sline (VArr l) s) \/ (exists m, x = IMap m /\ sline (VMap m) s).
  Proof.
    intros s x. unfold parse_json. pose proof (fun v => unmarshal_exact F parse_float depth v s) as U. split.
    - intros H. destruct (unmarshal F parse_float depth s) as [v|e| |] eqn:E; destruct (json_array_or_object s) eqn:C; try discriminate;
        pose proof (json_closure_exact v s (proj1 (U v) eq_refl)) as J; rewrite C in J; destruct v; try discriminate; injection H as <-.
      + right. eexists. split; [reflexivity|]. apply U. reflexivity.
      + left. eexists. split; [reflexivity|]. apply U. reflexivity.
    - intros [[l [-> H]]|[m [-> H]]]; rewrite (json_closure_exact _ _ H); apply U in H; rewrite H; reflexivity.
  Qed.
  (** C71: Parse succeeds exactly on the texts that stand for a value, with that value, and never panics. *)
  Theorem type_parse_exact : forall t s x, type_parse t s = Ok x <-> stands t s x.
  Proof.
    intros t s x. unfold M_Texts.type_parse.
    destruct (N.eqb t tString) eqn:E1; [apply N.eqb_eq in E1; subst t; split; intros H; [injection H as <-; constructor|inversion H; subst; intuition discriminate || reflexivity]|].
    destruct (N.eqb t tNumber) eqn:E2; [apply N.eqb_eq in E2; subst t; split; intros H|].
    { destruct (parse_float s) eqn:E; [|discriminate]. injection H as <-. constructor. assumption. }
    { inversion H; subst; try (intuition discriminate). rewrite H0. reflexivity. }
    destruct (N.eqb t tInteger) eqn:E3; [apply N.eqb_eq in E3; subst t; split; intros H|].
    { destruct (parse_int64 s) eqn:E; [|discriminate]. injection H as <-. apply int64_parse in E. constructor; tauto. }
    { inversion H; subst; try (intuition discriminate). assert (E : parse_int64 s = Some z) by (apply int64_parse; auto). rewrite E. reflexivity. }
    destruct (N.eqb t tBoolean) eqn:E4; [apply N.eqb_eq in E4; subst t; split; intros H|].
    { destruct (parse_bool s) as [b|] eqn:E; [|discriminate]. injection H as <-. apply bool_texts in E. destruct b; constructor; assumption. }
    { inversion H; subst; try (intuition discriminate).
      - rewrite (proj2 (bool_texts s true)) by assumption. reflexivity.
      - rewrite (proj2 (bool_texts s false)) by assumption. reflexivity. }
    apply N.eqb_neq in E1, E2, E3, E4.
    assert (J : t = tArray \/ t = tObject -> (parse_json F parse_float depth s = Ok x <-> stands t s x)).
    { intros Ht. rewrite parse_json_exact. split.
      - intros [[l [-> H]]|[m [-> H]]]; [apply sd_array|apply sd_object]; assumption.
      - intros H. inversion H; subst; try congruence; [left|right]; eexists; split; eauto. }
    destruct (N.eqb t tArray) eqn:E5; [apply N.eqb_eq in E5; auto|]. destruct (N.eqb t tObject) eqn:E6; [apply N.eqb_eq in E6; auto|].
    apply N.eqb_neq in E5, E6. split; [discriminate|]. intros H. inversion H; subst; intuition congruence.
  Qed.
  Theorem type_parse_total : forall t s, (exists x, type_parse t s = Ok x) \/ exists e, type_parse t s = Err e.
  Proof.
    assert (J : forall s, (exists x, parse_json F parse_float depth s = Ok x) \/ exists e, parse_json F parse_float depth s = Err e).
    { intros s. unfold parse_json. destruct (unmarshal_total F parse_float depth s) as [H1 H2].
      destruct (json_array_or_object s); eauto; destruct (unmarshal F parse_float depth s) as [[]|e| |]; eauto; congruence. }
    intros t s. unfold M_Texts.type_parse.
    destruct (N.eqb t tString); [eauto|]. destruct (N.eqb t tNumber); [destruct (parse_float s); eauto|]. destruct (N.eqb t tInteger); [destruct (parse_int64 s); eauto|].
    destruct (N.eqb t tBoolean); [destruct (parse_bool s); eauto|]. destruct (N.eqb t tArray); [auto|]. destruct (N.eqb t tObject); eauto.
  Qed.

  (** C71: ValueToString and ValueToBytes answer exactly on the values that have a text of the type, with the same bytes. *)
  Theorem value_to_string_exact : forall t x, (written t x <-> exists s, value_to_string t x = Ok s) /\ (~ written t x <-> exists e, value_to_string t x = Err e) /\
    value_to_bytes F fmt_g fmt_json t x = value_to_string t x.
  Proof.
    intros t x.
    assert (D : (written t x /\ exists s, value_to_string t x = Ok s) \/ (~ written t x /\ exists e, value_to_string t x = Err e)).
    { unfold M_Texts.value_to_string.
      destruct (N.eqb t tString) eqn:E1; [apply N.eqb_eq in E1; subst t; destruct x; try (right; split; [intros H; inversion H; subst; intuition discriminate|eauto]; fail); left; split; [constructor|eauto]|].
      destruct (N.eqb t tInteger) eqn:E3; [apply N.eqb_eq in E3; subst t; destruct x; try (right; split; [intros H; inversion H; subst; intuition discriminate|eauto]; fail); left; split; [constructor|eauto]|].
      destruct (N.eqb t tNumber) eqn:E2; [apply N.eqb_eq in E2; subst t; destruct x; try (right; split; [intros H; inversion H; subst; intuition discriminate|eauto]; fail); left; split; [constructor|eauto]|].
      destruct (N.eqb t tBoolean) eqn:E4; [apply N.eqb_eq in E4; subst t; destruct x; try (right; split; [intros H; inversion H; subst; intuition discriminate|eauto]; fail); left; split; [constructor|eauto]|].
      apply N.eqb_neq in E1, E2, E3, E4. pose proof (marshal_refused F fmt_json (seen F x) [] [] []) as R.
      destruct (N.eqb t tObject || N.eqb t tArray) eqn:E5.
      - assert (T : t = tArray \/ t = tObject) by (apply orb_true_iff in E5; rewrite !N.eqb_eq in E5; tauto).
        destruct (marshal F fmt_json [] [] [] (seen F x)) as [s|].
        + left. split; [|eauto]. apply wn_json; [assumption|]. intros X. apply R in X. discriminate.
        + right. split; [|eauto]. intros H. inversion H; subst; try congruence. apply H1. apply R. reflexivity.
      - right. split; [|eauto]. apply orb_false_iff in E5. rewrite !N.eqb_neq in E5. intros H. inversion H; subst; intuition congruence. }
    assert (B : value_to_bytes F fmt_g fmt_json t x = value_to_string t x) by (unfold value_to_bytes; destruct (value_to_string t x); reflexivity).
    destruct D as [[H1 [s H2]]|[H1 [e H2]]]; split; [| split; [|exact B]| |split; [|exact B]].
    - split; eauto.
    - split; [tauto|]. intros [e H]. congruence.
    - split; [tauto|]. intros [s H]. congruence.
    - split; eauto.
  Qed.

  (** C71: the text of a value stands for that value again: floats and integers by their number, JSON as json.Unmarshal reads
      it.  But integers come back as int64. *)
  Theorem value_text_back : (forall f, parse_float (fmt_g f) = Some f) -> strict_format F fmt_json parse_float ->
    forall t x x' s, value_to_string t x = Ok s -> again t x x' -> type_parse t s = Ok x'.
  Proof.
    intros Hg Hj t x x' s H Ha. apply type_parse_exact. inversion Ha; subst.
    - injection H as <-. constructor.
    - injection H as <-. constructor. apply Hg.
    - injection H as <-. constructor; [apply integer_parse, parse_signed_itoa|assumption].
    - destruct b; injection H as <-; constructor; cbn; auto.
    - assert (M : marshal F fmt_json [] [] [] (VArr l) = Some s).
      { unfold M_Texts.value_to_string in H. destruct H0 as [->| ->]; cbn [N.eqb Pos.eqb tArray tObject tString tInteger tNumber tBoolean orb seen] in H; destruct (marshal F fmt_json [] [] [] (VArr l)); congruence. }
      apply sd_array; [assumption|]. exists [], s, []. rewrite app_nil_r. split; [constructor|]. split; [constructor|]. split; [|reflexivity].
      eapply (marshal_strict F fmt_json parse_float Hj); eassumption.
    - assert (M : marshal F fmt_json [] [] [] (VMap m) = Some s).
      { unfold M_Texts.value_to_string in H. destruct H0 as [->| ->]; cbn [N.eqb Pos.eqb tArray tObject tString tInteger tNumber tBoolean orb seen] in H; destruct (marshal F fmt_json [] [] [] (VMap m)); congruence. }
      apply sd_object; [assumption|]. exists [], s, []. rewrite app_nil_r. split; [constructor|]. split; [constructor|]. split; [|reflexivity].
      eapply (marshal_strict F fmt_json parse_float Hj); eassumption.
  Qed.
  (** C71: a parsed value, written and parsed again, is the same value, for every type but integer, whose values ValueToString
      does not take. *)
  Theorem parsed_text_back : (forall f, parse_float (fmt_g f) = Some f) -> strict_format F fmt_json parse_float ->
    forall t s x, type_parse t s = Ok x ->
    (t = tInteger /\ exists e, value_to_string t x = Err e) \/
    (t <> tInteger /\ forall s', value_to_string t x = Ok s' -> type_parse t s' = Ok x).
  Proof.
    intros Hg Hj t s x H. apply type_parse_exact in H. destruct (N.eq_dec t tInteger) as [->|Ht].
    - left. split; [reflexivity|]. inversion H; subst; try (intuition discriminate). cbn. eauto.
    - right. split; [assumption|]. intros s' H'. eapply value_text_back; [assumption|assumption|exact H'|]. inversion H; subst; try constructor; try congruence; try assumption.
      + destruct H1 as [w1 [u [w2 [_ [_ [Hu _]]]]]]. apply read_settled in Hu. apply ndjson_exact_values. tauto.
      + destruct H1 as [w1 [u [w2 [_ [_ [Hu _]]]]]]. apply read_settled in Hu. tauto.
      + destruct H1 as [w1 [u [w2 [_ [_ [Hu _]]]]]]. apply read_settled in Hu. apply ndjson_exact_values. tauto.
      + destruct H1 as [w1 [u [w2 [_ [_ [Hu _]]]]]]. apply read_settled in Hu. tauto.
  Qed.

  (** C71: the JSON of a type. *)
  Definition named : list N := [tString; tInteger; tNumber; tBoolean; tObject; tArray; tNull].
  Theorem type_json_exact : forall data t, type_unmarshal F parse_float depth data = Ok t <-> exists s, sline (VStr s) data /\ s = type_string t /\ In t named.
  Proof.
    intros data t.
    assert (T : forall s t, type_from_string s = t /\ t <> tUnknown <-> s = type_string t /\ In t named).
    { clear. intros s t. unfold type_from_string, type_names. cbn [alookup].
      repeat match goal with |- context [if beqb s ?x then _ else _] => destruct (beqb s x) eqn:?; [match goal with H : beqb s _ = true |- _ => apply beqb_eq in H; subst s end;
        split; [intros [<- _]; split; [reflexivity|cbn; auto 10]|intros [H1 H2]; cbn in H2; repeat destruct H2 as [<-|H2]; try discriminate H1; try contradiction; split; [reflexivity|discriminate]]|] end.
      split; [intros [<- H]; congruence|]. intros [-> H]. cbn in H. repeat destruct H as [<-|H]; try contradiction; cbn in *; discriminate. }
    unfold type_unmarshal. pose proof (fun v => unmarshal_exact F parse_float depth v data) as U. split.
    - intros H. destruct (unmarshal F parse_float depth data) as [v|e| |] eqn:E; try discriminate. destruct v; try discriminate.
      cbv zeta in H. destruct (N.eqb (type_from_string s) tUnknown) eqn:Eu; [discriminate|]. injection H as <-. apply N.eqb_neq in Eu.
      exists s. split; [apply U; reflexivity|]. apply T. auto.
    - intros [s [H1 H2]]. apply U in H1. rewrite H1. cbv zeta. apply T in H2. destruct H2 as [-> H2]. apply N.eqb_neq in H2. rewrite H2. reflexivity.
  Qed.
  Theorem type_json_back : forall t, In t named <-> type_unmarshal F parse_float depth (type_marshal t) = Ok t.
  Proof.
    intros t. rewrite type_json_exact. split.
    - intros H. exists (type_string t). split; [|auto]. exists [], (type_marshal t), []. rewrite app_nil_r. split; [constructor|]. split; [constructor|]. split; [|reflexivity].
      unfold type_marshal. constructor.
      assert (A : Forall (fun c => 32 <= c < 128 /\ c <> 34 /\ c <> 92)%N (type_string t)).
      { cbn in H. repeat destruct H as [<-|H]; try contradiction; vm_compute; repeat constructor; discriminate. }
      clear H. induction A as [|c s H _ IH]; [constructor|].
      assert (E : encode_rune c = [c]) by (unfold encode_rune; replace (c <? 128)%N with true by (symmetry; apply N.ltb_lt; lia); reflexivity).
      pose proof (sc_rune c s s) as R. rewrite E in R. apply R; unfold scalar; try lia. assumption.
    - intros [s [_ [_ H]]]. assumption.
  Qed.

  (** C71: whatever is an integer text is a float text, if ParseFloat takes decimal integers. *)
  Theorem integer_is_float : (forall s z, integer_text s z -> float_syntax s = true) -> forall s, is_integer s = true -> is_float float_syntax s = true.
  Proof.
    intros H s Hs. destruct (proj1 (is_integer_iff s) Hs) as [z Hz]. apply H in Hz. unfold is_integer in Hs. unfold is_float.
    destruct s as [|c r]; [discriminate|]. destruct (N.eqb c 91 || N.eqb c 123 || negb (sign_or_digit c)); [discriminate|assumption].
  Qed.
End Texts.

(** Concrete instances: floats are integers. *)
Notation demo_parse := (type_parse Z parse_signed 8).
Notation demo_text := (value_to_string Z itoa (fun z => Some (itoa z))).
Lemma demo_floats : (forall f, parse_signed (itoa f) = Some f) /\ strict_format Z (fun z => Some (itoa z)) parse_signed.
Proof.
  split; [apply parse_signed_itoa|]. intros f t H. injection H as <-. split; [apply itoa_strict|apply parse_signed_itoa].
Qed.

(** That only values of the type have a text of the type is false for arrays and objects, and the text of another value does
    not parse; nor does Parse tell arrays and objects apart. *)
Theorem json_types_checked_refuted : ~ (forall t (x : iface Z) s, demo_text t x = Ok s -> exists x', demo_parse t s = Ok x') /\
  exists m, demo_parse tArray (bs "{""a"":1}") = Ok (IMap m).
Proof.
  split; [|eexists; vm_compute; reflexivity]. intros H. destruct (H tArray (IStr (bs "x")) (bs """x""") eq_refl) as [x' E]. vm_compute in E. discriminate E.
Qed.

Example json_closure_ex : json_array_or_object (bs " [{}]") = CArray /\ json_array_or_object (bs """[""") = CNone /\ json_array_or_object (bs "x{") = CObject /\
  sline Z parse_signed 8 (VArr [VMap []]) (bs " [{}]").
Proof. split; [reflexivity|]. split; [reflexivity|]. split; [reflexivity|]. apply unmarshal_exact. vm_compute. reflexivity. Qed.
Example type_parse_ex : demo_parse tInteger (bs "+12") = Ok (IInt64 12) /\ demo_parse tBoolean (bs "T") = Ok (IBool true) /\
  demo_parse tObject (bs " [1, ""x""]") = Ok (IArr [VFloat 1; VStr (bs "x")])%Z /\ demo_parse tNull (bs "null") = Err (EMsg "cannot parse unknown data type") /\
  demo_parse tArray (bs "null") = Err (EMsg "invalid json data").
Proof. vm_compute. repeat split. Qed.
Example value_text_back_ex : demo_text tInteger (IInt (-7)) = Ok (bs "-7") /\ again Z parse_signed 8 tInteger (IInt (-7)) (IInt64 (-7)) /\
  demo_text tArray (IArr [VInt 3; VBytes [1; 2; 3]%N]) = Ok (bs "[3,""AQID""]") /\ demo_parse tArray (bs "[3,""AQID""]") = Ok (IArr [VFloat 3%Z; VStr (bs "AQID")]).
Proof. split; [reflexivity|]. split; [constructor; unfold int64; lia|]. vm_compute. repeat split. Qed.
Example parsed_text_back_ex : demo_parse tObject (bs "{""b"":[ 1 ],""a"":null}") = Ok (IMap [(bs "a", VNil); (bs "b", VArr [VFloat 1%Z])]) /\
  demo_text tObject (IMap [(bs "a", VNil); (bs "b", VArr [VFloat 1%Z])]) = Ok (bs "{""a"":null,""b"":[1]}") /\
  demo_text tInteger (IInt64 7) = Err (err_not tInteger).
Proof. vm_compute. repeat split. Qed.
Example type_json_ex : type_unmarshal Z parse_signed 8 (bs " ""number"" ") = Ok tNumber /\ type_unmarshal Z parse_signed 8 (type_marshal tBytes) = Err (EMsg "Unknown datatype").
Proof. vm_compute. repeat split. Qed.

Print Assumptions json_closure_exact.
Print Assumptions type_parse_exact.
Print Assumptions type_parse_total.
Print Assumptions value_to_string_exact.
Print Assumptions value_text_back.
Print Assumptions parsed_text_back.
Print Assumptions type_json_exact.
Print Assumptions type_json_back.
Print Assumptions integer_is_float.
Print Assumptions json_types_checked_refuted.
