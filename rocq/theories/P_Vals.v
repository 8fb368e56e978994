(** Properties C48 and C66: comparing and classifying texts by type. *)
From Coq Require Import ZArith Lia.
From Verif Require Import Base M_Decimal L_Decimal M_Formats M_Vals S_Vals L_Vals.

Section Vals.
  Variable F : Type.
  Variable parse_float : bytes -> option F.
  Variable float32_ok : bytes -> bool.
  Variable fgt feq : F -> F -> bool.
  Notation compare := (compare_type_bytes F parse_float fgt feq).
  Notation parse_type := (parse_type float32_ok).

  (** C48: texts are compared by byte order. *)
  Theorem compare_strings : forall a b,
    (compare a b tString = Ok (-1)%Z <-> before a b) /\
    (compare a b tString = Ok 0%Z <-> a = b) /\
    (compare a b tString = Ok 1%Z <-> before b a).
  Proof.
    assert (X : forall a b, compare a b tString = Ok (match bcmp a b with Lt => -1 | Eq => 0 | Gt => 1 end)%Z).
    { intros [|x a] [|y b]; reflexivity. }
    intros a b. rewrite X, <- !bcmp_lt_before, <- bcmp_eq. rewrite (bcmp_antisym a b).
    destruct (bcmp a b); cbn [CompOpp]; repeat split; intros; congruence.
  Qed.
  (** Integers within 64 bits are compared as numbers; other non-empty texts are errors. *)
  Theorem compare_integers : forall a b x y, integer_text a x -> integer_text b y -> int64 x -> int64 y ->
    compare a b tInteger = Ok (Z.sgn (x - y)).
  Proof.
    intros a b x y Ha Hb Hx Hy. assert (Ea : parse_int64 a = Some x) by (apply int64_parse; auto).
    assert (Eb : parse_int64 b = Some y) by (apply int64_parse; auto).
    destruct a as [|p a]; [discriminate|]. destruct b as [|q b]; [discriminate|].
    unfold compare_type_bytes. change (N.eqb tInteger tString) with false. change (N.eqb tInteger tInteger) with true. cbn iota.
    unfold compare_integer_bytes. rewrite Ea, Eb. rewrite Z.gtb_ltb.
    destruct (Z.ltb_spec y x); [f_equal; symmetry; apply Z.sgn_pos; lia|].
    destruct (Z.eqb_spec x y); [f_equal; subst; rewrite Z.sub_diag; reflexivity|]. f_equal. symmetry. apply Z.sgn_neg. lia.
  Qed.
  Theorem compare_not_integers : forall a b, a <> [] -> b <> [] ->
    (forall x, integer_text a x -> ~ int64 x) \/ (forall y, integer_text b y -> ~ int64 y) ->
    exists e, compare a b tInteger = Err e.
  Proof.
    intros a b Ha Hb H. exists err_parse. destruct a as [|p a]; [congruence|]. destruct b as [|q b]; [congruence|].
    unfold compare_type_bytes. change (N.eqb tInteger tString) with false. change (N.eqb tInteger tInteger) with true. cbn iota.
    unfold compare_integer_bytes. destruct (parse_int64 (p :: a)) as [x|] eqn:Ea; [|reflexivity].
    destruct (parse_int64 (q :: b)) as [y|] eqn:Eb; [|reflexivity].
    apply int64_parse in Ea. apply int64_parse in Eb. destruct H as [H|H]; exfalso; eapply H; [apply Ea|apply Ea|apply Eb|apply Eb].
  Qed.
  (** Whatever the type, an empty value comes before all others. *)
  Theorem compare_empty_first : forall t b, b <> [] ->
    compare [] b t = Ok (-1)%Z /\ compare b [] t = Ok 1%Z /\ compare [] [] t = Ok 0%Z.
  Proof. intros t [|q b] H; [congruence|]. auto. Qed.
  (** A total preorder where it is defined: on all texts, and on integers and empty values. *)
  Definition comparable (t : N) (a : bytes) : Prop :=
    t = tString \/ t = tInteger /\ (a = [] \/ exists z, integer_text a z /\ int64 z).
  Theorem compare_total_preorder : forall t a b c, comparable t a -> comparable t b -> comparable t c ->
    exists x y z, compare a b t = Ok x /\ compare b a t = Ok (- x)%Z /\ compare b c t = Ok y /\ compare a c t = Ok z /\
      (x <= 0 -> y <= 0 -> z <= 0)%Z /\ (x <= 0 -> y < 0 -> z < 0)%Z /\ (x < 0 -> y <= 0 -> z < 0)%Z.
  Proof.
    assert (X : forall a b, compare a b tString = Ok (match bcmp a b with Lt => -1 | Eq => 0 | Gt => 1 end)%Z).
    { intros [|x a] [|y b]; reflexivity. }
    intros t a b c Ha Hb Hc. destruct (N.eq_dec t tString) as [->|Ht].
    - rewrite !X. do 3 eexists. split; [reflexivity|]. split; [rewrite bcmp_antisym; destruct (bcmp a b); reflexivity|].
      split; [reflexivity|]. split; [reflexivity|].
      destruct (bcmp a b) eqn:E1; [apply bcmp_eq in E1; subst; lia| |lia].
      destruct (bcmp b c) eqn:E2; [apply bcmp_eq in E2; subst; rewrite E1; lia| |lia].
      rewrite (bcmp_lt_trans _ _ _ E1 E2). lia.
    - destruct Ha as [E|[-> Ha]]; [congruence|]. destruct Hb as [E|[_ Hb]]; [congruence|]. destruct Hc as [E|[_ Hc]]; [congruence|].
      assert (N0 : forall a x, integer_text a x -> a <> []).
      { intros s x H ->. apply integer_parse in H. discriminate. }
      assert (Y : forall a b, (a = [] \/ exists z, integer_text a z /\ int64 z) -> (b = [] \/ exists z, integer_text b z /\ int64 z) ->
        exists u v, compare a b tInteger = Ok (Z.sgn (u - v)) /\ (a = [] /\ u = - 2 ^ 64 \/ integer_text a u /\ int64 u)%Z /\ (b = [] /\ v = - 2 ^ 64 \/ integer_text b v /\ int64 v)%Z).
      { intros s1 s2 [->|[x [H1 H2]]] [->|[y [H3 H4]]].
        - exists (-2 ^ 64)%Z, (-2 ^ 64)%Z. auto.
        - exists (-2 ^ 64)%Z, y. rewrite (proj1 (compare_empty_first tInteger s2 (N0 _ _ H3))). split; [|auto].
          f_equal. symmetry. apply Z.sgn_neg. unfold int64 in H4. lia.
        - exists x, (-2 ^ 64)%Z. rewrite (proj1 (proj2 (compare_empty_first tInteger s1 (N0 _ _ H1)))). split; [|auto].
          f_equal. symmetry. apply Z.sgn_pos. unfold int64 in H2. lia.
        - exists x, y. rewrite (compare_integers s1 s2 x y) by assumption. auto. }
      assert (U : forall s u v, (s = [] /\ u = - 2 ^ 64 \/ integer_text s u /\ int64 u)%Z -> (s = [] /\ v = - 2 ^ 64 \/ integer_text s v /\ int64 v)%Z -> u = v).
      { intros s u v [[-> ->]|[H1 _]] [[E ->]|[H2 _]]; auto.
        - exfalso. exact (N0 _ _ H2 eq_refl).
        - subst. exfalso. exact (N0 _ _ H1 eq_refl).
        - apply integer_parse in H1. apply integer_parse in H2. congruence. }
      destruct (Y a b Ha Hb) as [u [v [E1 [Ua Ub]]]]. destruct (Y b a Hb Ha) as [v2 [u2 [E2 [Ub2 Ua2]]]].
      destruct (Y b c Hb Hc) as [v3 [w [E3 [Ub3 Uc]]]]. destruct (Y a c Ha Hc) as [u4 [w4 [E4 [Ua4 Uc4]]]].
      rewrite <- (U _ _ _ Ua Ua2) in E2. rewrite <- (U _ _ _ Ub Ub2) in E2. rewrite <- (U _ _ _ Ub Ub3) in E3.
      rewrite <- (U _ _ _ Ua Ua4) in E4. rewrite <- (U _ _ _ Uc Uc4) in E4.
      exists (Z.sgn (u - v)), (Z.sgn (v - w)), (Z.sgn (u - w)). rewrite E1, E2, E3, E4.
      split; [reflexivity|]. split; [f_equal; rewrite <- Z.sgn_opp; f_equal; lia|]. split; [reflexivity|]. split; [reflexivity|]. lia.
  Qed.
  (** Numbers are compared by the order of float64, which is total on numbers that are not NaN. *)
  Theorem compare_numbers : forall (value : F -> Z) a b x y,
    (forall f g, fgt f g = (value f >? value g)%Z) -> (forall f g, feq f g = (value f =? value g)%Z) ->
    a <> [] -> b <> [] -> parse_float a = Some x -> parse_float b = Some y ->
    compare a b tNumber = Ok (Z.sgn (value x - value y)).
  Proof.
    intros value a b x y Hgt Heq Ha Hb Ea Eb. destruct a as [|p a]; [congruence|]. destruct b as [|q b]; [congruence|].
    unfold compare_type_bytes. change (N.eqb tNumber tString) with false. change (N.eqb tNumber tInteger) with false.
    change (N.eqb tNumber tNumber) with true. cbn iota.
    unfold compare_number_bytes. rewrite Ea, Eb, Hgt, Heq, Z.gtb_ltb.
    destruct (Z.ltb_spec (value y) (value x)); [f_equal; symmetry; apply Z.sgn_pos; lia|].
    destruct (Z.eqb_spec (value x) (value y)) as [E|]; [f_equal; rewrite E, Z.sub_diag; reflexivity|]. f_equal. symmetry. apply Z.sgn_neg. lia.
  Qed.
  (** Values of other types are not compared. *)
  Theorem compare_other_types : forall t a b, t <> tString -> t <> tInteger -> t <> tNumber -> a <> [] -> b <> [] ->
    exists e, compare a b t = Err e.
  Proof.
    intros t [|p a] [|q b] H1 H2 H3 Ha Hb; try congruence. eexists. unfold compare_type_bytes.
    apply N.eqb_neq in H1, H2, H3. rewrite H1, H2, H3. reflexivity.
  Qed.

  (** C66: what a text is taken for. *)
  Definition boolean_word (s : bytes) : Prop :=
    In s (map bs ["t"; "f"; "T"; "F"; "true"; "false"; "TRUE"; "FALSE"; "True"; "False"]%string).
  (** A text in which a number begins: a minus sign, a digit or the letter e comes first. *)
  Definition number_start (s : bytes) : Prop := exists c, leads c s /\ (c = 45 \/ 48 <= c <= 57 \/ c = 101)%N.
  Inductive class (s : bytes) : N -> Prop :=
  | cl_boolean : boolean_word s -> class s tBoolean
  | cl_null : s = bs "null" -> class s tNull
  | cl_object : leads 123 s -> class s tObject
  | cl_array : leads 91 s -> class s tArray
  | cl_integer : forall z, number_start s -> float32_ok s = true -> integer_text s z -> class s tInteger
  | cl_number : number_start s -> float32_ok s = true -> (forall z, ~ integer_text s z) -> class s tNumber
  | cl_string : ~ boolean_word s -> s <> bs "null" -> ~ leads 123 s -> ~ leads 91 s -> ~ (number_start s /\ float32_ok s = true) ->
      class s tString.
  Lemma leads_fun : forall s c d, leads c s -> leads d s -> c = d.
  Proof.
    intros s c d H. revert d. induction H as [s H1 H2|b s Hb H IH]; intros d Hd; inversion Hd; subst; auto; tauto.
  Qed.
  Lemma is_boolean_iff : forall s, is_boolean s = true <-> boolean_word s.
  Proof.
    intros s. unfold is_boolean, boolean_word. rewrite existsb_exists. split.
    - intros [x [Hx E]]. apply beqb_eq in E. subst. exact Hx.
    - intros H. exists s. split; [exact H|apply beqb_refl].
  Qed.
  Lemma is_integer_iff : forall s, is_integer s = true <-> exists z, integer_text s z.
  Proof.
    intros s. unfold is_integer. destruct s as [|c r].
    - split; [discriminate|]. intros [z H]. apply integer_parse in H. discriminate.
    - assert (X : forall z, integer_text (c :: r) z -> N.eqb c 91 || N.eqb c 123 || negb (sign_or_digit c) = false).
      { intros z H. inversion H as [s n H0 E1|s n H0 E1|s n H0 E1]; try reflexivity.
        destruct (numeral_head _ _ H0) as [x [y [E Hc]]]. injection E as -> ->. unfold sign_or_digit, is_digit.
        replace (N.eqb x 91) with false by (symmetry; apply N.eqb_neq; lia). replace (N.eqb x 123) with false by (symmetry; apply N.eqb_neq; lia).
        replace (48 <=? x)%N with true by (symmetry; apply N.leb_le; lia). replace (x <=? 57)%N with true by (symmetry; apply N.leb_le; lia).
        cbn [andb orb]. rewrite !orb_true_r. reflexivity. }
      split.
      + destruct (N.eqb c 91 || N.eqb c 123 || negb (sign_or_digit c)); [discriminate|].
        destruct (parse_signed (c :: r)) as [z|] eqn:E; [|discriminate]. intros _. exists z. apply integer_parse. assumption.
      + intros [z H]. rewrite (X _ H). apply integer_parse in H. rewrite H. reflexivity.
  Qed.
  Lemma leads_special : forall c s, leads c s -> c <> 32%N /\ c <> 10%N.
  Proof. induction 1; auto. Qed.
  (** Every text has exactly one class, the one found. *)
  Theorem parse_type_exact : forall s, (forall t, class s t <-> parse_type s = t).
  Proof.
    assert (L : forall rest, (exists c, leads c rest) \/ (forall c, ~ leads c rest)).
    { induction rest as [|b rest [[c H]|H]].
      - right. intros c H. inversion H.
      - destruct (N.eq_dec b 32) as [->|]; [left; exists c; constructor 2; auto|].
        destruct (N.eq_dec b 10) as [->|]; [left; exists c; constructor 2; auto|]. left. exists b. constructor; auto.
      - destruct (N.eq_dec b 32) as [->|]; [right; intros c Hc; inversion Hc; subst; [congruence|eapply H; eassumption]|].
        destruct (N.eq_dec b 10) as [->|]; [right; intros c Hc; inversion Hc; subst; [congruence|eapply H; eassumption]|].
        left. exists b. constructor; auto. }
    assert (A : forall value rest, (forall c, ~ leads c rest) -> parse_type_loop float32_ok value rest = tString).
    { intros value. induction rest as [|b rest IH]; intros H; [reflexivity|]. cbn [parse_type_loop].
      destruct (N.eq_dec b 32) as [->|N1]; [cbn; apply IH; intros c Hc; apply (H c); constructor 2; auto|].
      destruct (N.eq_dec b 10) as [->|N2]; [cbn; apply IH; intros c Hc; apply (H c); constructor 2; auto|].
      exfalso. apply (H b). constructor; assumption. }
    assert (B : forall value rest c, leads c rest -> parse_type_loop float32_ok value rest =
      if N.eqb c 34 then tString
      else if N.eqb c 45 || is_digit c || N.eqb c 101 then
        if float32_ok value then (if is_integer value then tInteger else tNumber) else tString
      else if N.eqb c 123 then tObject else if N.eqb c 91 then tArray else tString).
    { intros value rest c H. induction H as [s H1 H2|b s Hb H IH]; cbn [parse_type_loop].
      - apply N.eqb_neq in H1, H2. rewrite H1, H2. cbn [orb]. reflexivity.
      - destruct Hb as [-> | ->]; cbn; apply IH. }
    assert (W : forall s, boolean_word s -> exists c, leads c s /\ c <> 123%N /\ c <> 91%N /\ c <> 45%N /\ ~ (48 <= c <= 57)%N /\ c <> 101%N).
    { intros s H. unfold boolean_word in H. vm_compute in H.
      assert (P : forall x r, x <> 32%N -> x <> 10%N -> x <> 123%N /\ x <> 91%N /\ x <> 45%N /\ ~ (48 <= x <= 57)%N /\ x <> 101%N ->
        exists c, leads c (x :: r) /\ c <> 123%N /\ c <> 91%N /\ c <> 45%N /\ ~ (48 <= c <= 57)%N /\ c <> 101%N).
      { intros x r H1 H2 H3. exists x. split; [constructor; assumption|assumption]. }
      repeat (destruct H as [<-|H]; [apply P; try discriminate; repeat split; try discriminate; lia|]). destruct H. }
    assert (NL : forall c, leads c (bs "null") -> c = 110%N).
    { intros c H. apply (leads_fun (bs "null")); [assumption|]. constructor; discriminate. }
    assert (EX : forall s, class s (parse_type s)).
    { intros s. unfold M_Vals.parse_type. destruct (is_boolean s) eqn:EB; [constructor; apply is_boolean_iff; assumption|].
      assert (NB : ~ boolean_word s) by (intros H; apply is_boolean_iff in H; congruence).
      destruct (beqb s (bs "null")) eqn:EN; [constructor 2; apply beqb_eq; assumption|].
      assert (NN : s <> bs "null") by (intros H; apply beqb_eq in H; congruence).
      destruct (L s) as [[c Hc]|H].
      - rewrite (B _ _ _ Hc).
        assert (ST : (c = 45 \/ 48 <= c <= 57 \/ c = 101)%N \/ ~ number_start s).
        { destruct (N.eq_dec c 45); [tauto|]. destruct (N.eq_dec c 101); [tauto|].
          destruct (N.le_gt_cases 48 c); [destruct (N.le_gt_cases c 57); [tauto|]|]; right; intros [d [Hd Hn]];
            rewrite (leads_fun _ _ _ Hd Hc) in Hn; lia. }
        destruct (N.eqb_spec c 34) as [->|N34].
        { constructor 7; auto.
          - intros X. pose proof (leads_fun _ _ _ Hc X). discriminate.
          - intros X. pose proof (leads_fun _ _ _ Hc X). discriminate.
          - intros [X _]. destruct ST as [ST|ST]; [lia|tauto]. }
        destruct ((c =? 45)%N || is_digit c || (c =? 101)%N) eqn:ES.
        + assert (S1 : number_start s).
          { exists c. split; [assumption|]. unfold is_digit in ES. rewrite !orb_true_iff, andb_true_iff, !N.eqb_eq, !N.leb_le in ES. tauto. }
          destruct (float32_ok s) eqn:EF.
          * destruct (is_integer s) eqn:EI.
            -- apply is_integer_iff in EI. destruct EI as [z Hz]. apply (cl_integer s z); assumption.
            -- constructor 6; auto. intros z Hz. assert (is_integer s = true) by (apply is_integer_iff; exists z; assumption). congruence.
          * assert (c <> 123 /\ c <> 91)%N.
            { destruct S1 as [d [Hd Hn]]. rewrite (leads_fun _ _ _ Hd Hc) in Hn. lia. }
            constructor 7; auto; [intros X; pose proof (leads_fun _ _ _ Hc X); tauto|intros X; pose proof (leads_fun _ _ _ Hc X); tauto|].
            intros [_ E]. congruence.
        + assert (S1 : ~ number_start s).
          { intros [d [Hd Hn]]. rewrite (leads_fun _ _ _ Hd Hc) in Hn. unfold is_digit in ES.
            rewrite !orb_false_iff, andb_false_iff, !N.eqb_neq, !N.leb_gt in ES. lia. }
          destruct (N.eqb_spec c 123) as [->|]; [constructor 3; assumption|].
          destruct (N.eqb_spec c 91) as [->|]; [constructor 4; assumption|].
          constructor 7; auto; [intros X; pose proof (leads_fun _ _ _ Hc X); congruence|intros X; pose proof (leads_fun _ _ _ Hc X); congruence|tauto].
      - rewrite (A _ _ H). constructor 7; auto; intros [X Y]. destruct X as [d [X _]]. exact (H _ X). }
    assert (NB : forall s c, leads c s -> (c = 123 \/ c = 91 \/ c = 45 \/ 48 <= c <= 57 \/ c = 101)%N ->
      parse_type s = parse_type_loop float32_ok s s).
    { intros s c Hc Hn. unfold M_Vals.parse_type. destruct (is_boolean s) eqn:EB.
      - apply is_boolean_iff in EB. destruct (W _ EB) as [d [Hd Hx]]. rewrite (leads_fun _ _ _ Hd Hc) in Hx. lia.
      - destruct (beqb_spec s (bs "null")) as [->|]; [|reflexivity]. apply NL in Hc. lia. }
    assert (NS : forall s, number_start s -> float32_ok s = true -> parse_type s = if is_integer s then tInteger else tNumber).
    { intros s [c [Hc Hn]] Hf. rewrite (NB s c Hc) by tauto. rewrite (B _ _ _ Hc), Hf.
      replace (N.eqb c 34) with false by (symmetry; apply N.eqb_neq; lia).
      replace (N.eqb c 45 || is_digit c || N.eqb c 101) with true; [reflexivity|]. symmetry. unfold is_digit.
      rewrite !orb_true_iff, andb_true_iff, !N.eqb_eq, !N.leb_le. tauto. }
    intros s t. split; [|intros <-; apply EX]. intros H. destruct H as [H|H|H|H|z H1 H2 H3|H1 H2 H3|H1 H2 H3 H4 H5].
    - apply is_boolean_iff in H. unfold M_Vals.parse_type. rewrite H. reflexivity.
    - subst. reflexivity.
    - rewrite (NB _ _ H) by tauto. rewrite (B _ _ _ H). reflexivity.
    - rewrite (NB _ _ H) by tauto. rewrite (B _ _ _ H). reflexivity.
    - rewrite NS by assumption. rewrite (proj2 (is_integer_iff s)) by (exists z; assumption). reflexivity.
    - rewrite NS by assumption. destruct (is_integer s) eqn:E; [|reflexivity]. apply is_integer_iff in E. destruct E as [z E]. elim (H3 _ E).
    - pose proof (EX s) as HX. inversion HX; try reflexivity; exfalso; tauto.
  Qed.
End Vals.
Print Assumptions compare_strings.
Print Assumptions compare_integers.
Print Assumptions compare_not_integers.
Print Assumptions compare_empty_first.
Print Assumptions compare_total_preorder.
Print Assumptions compare_numbers.
Print Assumptions compare_other_types.
Print Assumptions parse_type_exact.

(** The intended claim for all numbers is false: a NaN compares as smaller in both directions. *)
Theorem compare_numbers_antisymmetric_refuted : exists (F : Type) parse_float fgt feq a b,
  compare_type_bytes F parse_float fgt feq a b tNumber = Ok (-1)%Z /\
  compare_type_bytes F parse_float fgt feq b a tNumber = Ok (-1)%Z.
Proof.
  exists (option Z), (fun s => if beqb s (bs "NaN") then Some None else option_map Some (parse_int64 s)),
    (fun f g => match f, g with Some x, Some y => (x >? y)%Z | _, _ => false end),
    (fun f g => match f, g with Some x, Some y => (x =? y)%Z | _, _ => false end), (bs "NaN"), (bs "5").
  vm_compute. auto.
Qed.
Print Assumptions compare_numbers_antisymmetric_refuted.

(** Names of types. *)
Definition named_types : list N := [tNull; tInteger; tNumber; tBoolean; tString; tObject; tArray].
Theorem type_names_round_trip : forall t,
  (In t named_types <-> type_from_string (type_string t) = t /\ t <> tUnknown) /\
  (forall s, type_from_string s <> tUnknown -> type_string (type_from_string s) = s).
Proof.
  intros t. split.
  - split.
    + intros H. cbn [named_types In] in H. repeat (destruct H as [<-|H]; [split; [reflexivity|discriminate]|]). destruct H.
    + intros [H Hn]. destruct (in_dec N.eq_dec t named_types) as [|NI]; [assumption|]. exfalso. apply Hn. rewrite <- H.
      unfold type_string, type_texts. cbn [alookup]. unfold named_types in NI. cbn [In] in NI.
      repeat match goal with
      | |- context[N.eqb t ?x] => destruct (N.eqb_spec t x) as [Ex|?]; [first [solve [exfalso; apply NI; subst; clear; auto 10] | reflexivity]|]
      end. reflexivity.
  - intros s. unfold type_from_string, type_names. cbn [alookup].
    repeat match goal with
    | |- context[beqb s ?x] => destruct (beqb_spec s x) as [->|?]; [intros _; reflexivity|]
    end. congruence.
Qed.
Print Assumptions type_names_round_trip.
(** The type of byte slices has no name. *)
Theorem type_bytes_name_refuted : type_from_string (type_string tBytes) <> tBytes.
Proof. vm_compute. discriminate. Qed.
Print Assumptions type_bytes_name_refuted.

Example compare_integers_ex : integer_text (bs "+12") 12 /\ integer_text (bs "-7") (-7) /\ int64 12 /\ int64 (-7).
Proof.
  assert (N12 : numeral (bs "12") 12) by (apply (nu_more [49%N] 1 50); [apply (nu_one 49); lia|lia]).
  assert (N7 : numeral (bs "7") 7) by (apply (nu_one 55); lia).
  split; [exact (it_plus _ _ N12)|]. split; [exact (it_minus _ _ N7)|]. unfold int64. lia.
Qed.
Example compare_not_integers_ex : forall y, integer_text (bs "x") y -> ~ int64 y.
Proof. intros y H. apply integer_parse in H. discriminate. Qed.
Example compare_total_preorder_ex : comparable tInteger (bs "5") /\ comparable tInteger [] /\ comparable tString (bs "b").
Proof.
  split; [right; split; [reflexivity|right; exists 5%Z]|]. 2: split; [right; auto|left; reflexivity].
  split; [apply integer_parse; reflexivity|unfold int64; lia].
Qed.
Example parse_type_ex : map (parse_type (fun s => beqb s (bs "-12") || beqb s (bs "1.5"))) (map bs ["-12"; "1.5"; "True"; " {"; "null"; "5x"]%string)
  = [tInteger; tNumber; tBoolean; tObject; tNull; tString].
Proof. vm_compute. reflexivity. Qed.
Example compare_numbers_ex : compare_type_bytes Z parse_int64 Z.gtb Z.eqb (bs "7") (bs "12") tNumber = Ok (-1)%Z.
Proof. vm_compute. reflexivity. Qed.
