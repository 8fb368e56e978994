(** Properties of Values: C72 (reading them from JSON text), C73 (converting decoded values), C74 (their
    methods and their equality). *)
From Coq Require Import ZArith Lia.
From Verif Require Import Base M_Decimal L_Decimal M_Utf8 S_Utf8 L_Utf8 S_JsonText M_JsonWrite L_JsonMarshal M_Unmarshal S_NDJson L_Unmarshal L_UnmarshalInv L_NDJson P_NDJson M_Doc M_Vals S_Vals L_Vals P_Vals L_Tabular L_Texts M_Value S_Value L_Value L_ValueMore.

Section Value.
  Variable F : Type.
  Variable parse_float : bytes -> option F.
  Variable float32_ok : bytes -> bool.
  Variable fmt_float : F -> option bytes.
  Variable feq : F -> F -> bool.
  Variable of_int : Z -> F.
  Variable depth : nat.
  Notation value := (value F).
  Notation unmarshal_json := (unmarshal_json F parse_float float32_ok of_int depth).
  Notation reads := (reads F parse_float float32_ok).
  Notation document := (document F parse_float float32_ok depth).
  Notation scalar_document := (scalar_document F parse_float float32_ok depth).
  Notation vequal := (vequal F feq of_int).
  (** strconv.ParseFloat accepts no blanks. *)
  Definition float_no_blank : Prop := forall s, float32_ok s = true -> Forall (fun c => c <> 32%N /\ c <> 10%N /\ c <> 13%N /\ c <> 9%N) s.

  (** C72.  A text is read if and only if it is a document, and it gives the Value of that document.
      Scalars come as pointers. *)
  Theorem values_read_exact : float_no_blank -> forall data v,
    unmarshal_json data = Ok v <-> document data v \/ (exists v0, v = XPtr v0 /\ scalar_document data v0).
  Proof. intros H data v. unfold M_Value.unmarshal_json. apply exact. assumption. Qed.
  (** Every text gives a Value or an error. *)
  Theorem values_read_total : forall data, (exists v, unmarshal_json data = Ok v) \/ (exists e, unmarshal_json data = Err e).
  Proof.
    intros data. destruct (value_total F parse_float float32_ok of_int depth (S (length data)) data ltac:(lia)) as [H1 H2]. unfold M_Value.unmarshal_json.
    destruct (unmarshal_value F parse_float float32_ok of_int depth (S (length data)) data); eauto; congruence.
  Qed.
  (** Going into the Value with Index and MapIndex leads to the Values of the parts of the document. *)
  Theorem values_walk : forall t g v, tree_text depth g t -> reads g v ->
    forall p v', walks F v p v' <-> exists g', at_path g p g' /\ reads g' v'.
  Proof. intros t g v Ht Hr p v'. apply walk_exact; [|assumption]. eapply read_settled. eassumption. Qed.
  (** Printing a Value and reading the text gives it back. *)
  Definition read_back (v : value) : value := match v with XArr _ | XObj _ => v | _ => XPtr v end.
  Theorem value_round_trip : float_no_blank -> strict_format F fmt_float parse_float ->
    forall v, returnable F float32_ok fmt_float v -> shallow F depth v ->
    exists t, marshal_value F fmt_float v = Some t /\ unmarshal_json t = Ok (read_back v).
  Proof.
    intros Hb Hf v Hv Hd. destruct (all_go F parse_float float32_ok fmt_float Hf v Hv depth Hd) as [h [g [H1 [H2 [H3 H4]]]]].
    destruct (marshal_printed F fmt_float _ _ H1 [] [] []) as [t [E1 E2]]. exists t. split; [exact E1|].
    pose proof (marshal_strict bytes lit (@Some bytes) lit_format h g depth t H2 H3 E2) as Ht.
    apply (values_read_exact Hb). destruct v as [x|x|x|x|x|l|m|v|k v]; cbn [read_back]; try (inversion Hv; fail).
    1-5: right; eexists; split; [reflexivity|]; eapply sd_plain; [exact Ht| |exact H4]; inversion H4; subst; exact (fun x => x).
    1-2: left; exists [], t, [], g; cbn [app]; rewrite app_nil_r; repeat split; auto; try constructor; inversion H4; subst; exact I.
  Qed.

  (** C73.  What a decoded value becomes. *)
  Theorem converted_exact : forall d v, convert_decoded F d = Ok v <-> converts F d v.
  Proof. apply convert_exact. Qed.
  Theorem converted_total : forall d, (exists v, convert_decoded F d = Ok v) \/ (exists e, convert_decoded F d = Err e).
  Proof. intros d. destruct (convert_total F d) as [H1 H2]. destruct (convert_decoded F d); eauto; congruence. Qed.
  (** Decoding a document and converting it gives the same data as reading it, with floats for integers and
      pointers to arrays and objects. *)
  Theorem converted_mirrors : float_no_blank -> forall data v h w, document data v ->
    unmarshal F parse_float depth data = Ok h -> convert_decoded F (as_decoded F h) = Ok w ->
    unmarshal_json data = Ok v /\ mirrors F parse_float v w.
  Proof.
    intros Hb data v h w Hd Hu Hc. split; [apply (values_read_exact Hb); left; assumption|].
    destruct Hd as [w1 [t [w2 [g [Hw1 [Hw2 [E [Ht [Hg Hr]]]]]]]]].
    assert (Hs : unmarshal bytes (@Some bytes) depth data = Ok g).
    { apply unmarshal_exact. exists w1, t, w2. repeat split; auto. apply spaces_blank. assumption. }
    eapply mirror_exact; [exact Hr|eapply unmarshal_both; eassumption|eapply read_settled; eassumption|apply convert_exact; assumption].
  Qed.

  (** What the methods return of the Value that v stands for, through any pointers and keys. *)
  Theorem methods_values : forall v w : value, stands F v w ->
    match w with
    | XNull b => vtype F v = tNull /\ vis_null F v = true /\ vstring F v = bs "<null>"
    | XBool b => vtype F v = tBoolean /\ vboolean F v = Ok b /\ vstring F v = bs (if b then "<boolean true>" else "<boolean false>")
    | XInt z => vtype F v = tInteger /\ vinteger F v = Ok z /\ vnumber F of_int v = Ok (of_int z) /\ vstring F v = bs "<integer>"
    | XNum f => vtype F v = tNumber /\ vnumber F of_int v = Ok f /\ vstring F v = bs "<number>"
    | XStr s => vtype F v = tString /\ vstring F v = s
    | XArr l => vtype F v = tArray /\ vlen F v = Ok (Z.of_nat (length l)) /\ vstring F v = bs "<array>" /\
        (forall n x, nth_error l n = Some x -> vindex F v (Z.of_nat n) = Ok x)
    | XObj m => vtype F v = tObject /\ vkeys F v = Ok (map fst m) /\ vstring F v = bs "<object " ++ itoa (Z.of_nat (length m)) ++ bs " keys>" /\
        (forall k, vmap_index F v k = Ok (map_get k m))
    | XPtr _ | XKeyed _ _ => False
    end.
  Proof.
    intros v w Hw. destruct (stands_same F of_int _ _ Hw) as [T [E1 [E2 [E3 [E4 [E5 [E6 [E7 [E8 E9]]]]]]]]].
    destruct (stands_shape F _ _ Hw) as [P K].
    destruct w as [p|p|p|p|p|l|m|u|k u]; [..|elim (P u); reflexivity|elim (K k u); reflexivity];
      rewrite ?T, ?E1, ?E2, ?E3, ?E4, ?E5, ?E6, ?E7; repeat split.
    - now destruct p.
    - intros n x Hn. rewrite E8. cbn [vindex]. destruct (Z.ltb_spec (Z.of_nat n) 0); [lia|]. now rewrite Nat2Z.id, Hn.
    - intros k. now rewrite E9.
  Qed.

  (** C74.  The type says which methods may be called. *)
  Theorem methods_by_type : forall v : value,
    ((exists n, vlen F v = Ok n) <-> vtype F v = tArray) /\
    (forall i, (exists w, vindex F v i = Ok w) <-> (exists n, vlen F v = Ok n /\ 0 <= i < n)%Z) /\
    ((exists ks, vkeys F v = Ok ks) <-> vtype F v = tObject) /\
    (forall k, (exists r, vmap_index F v k = Ok r) <-> vtype F v = tObject) /\
    (forall ks k, vkeys F v = Ok ks -> (In k ks <-> exists w, vmap_index F v k = Ok (Some w))) /\
    ((exists b, vboolean F v = Ok b) <-> vtype F v = tBoolean) /\
    ((exists z, vinteger F v = Ok z) <-> vtype F v = tInteger) /\
    ((exists f, vnumber F of_int v = Ok f) <-> vtype F v = tInteger \/ vtype F v = tNumber) /\
    (vis_null F v = true <-> vtype F v = tNull).
  Proof.
    intros v. destruct (stands_ex F v) as [w Hw]. destruct (stands_same F of_int _ _ Hw) as [T [E1 [E2 [E3 [E4 [E5 [E6 [E7 [E8 E9]]]]]]]]].
    destruct (stands_shape F _ _ Hw) as [P K]. rewrite T, E1, E2, E3, E4, E6, E7. clear T E1 E2 E3 E4 E5 E6 E7.
    assert (X : forall A (P : A -> Prop), (exists x, Panic = Ok x :> res A /\ P x) -> False) by (intros A P0 [x [H _]]; discriminate).
    assert (Y : forall A, (exists x, Panic = Ok x :> res A) -> False) by (intros A [x H]; discriminate).
    assert (BX : forall i, (exists x, vindex F v i = Ok x) <-> (exists n, vlen F w = Ok n /\ 0 <= i < n)%Z).
    { intros i. rewrite E8. destruct w as [p|p|p|p|p|l|m|u|k u]; cbn [vindex vlen]; try (split; [intros H; elim (Y _ H)|intros H; elim (X _ _ H)]); try (elim (P u); reflexivity); try (elim (K k u); reflexivity).
      destruct (Z.ltb_spec i 0) as [Hi|Hi].
      - split; [intros H; elim (Y _ H)|]. intros [n [_ H]]. lia.
      - pose proof (nth_error_Some l (Z.to_nat i)) as HN. destruct (nth_error l (Z.to_nat i)) as [x|].
        + split; [|intros _; eauto]. intros _. eexists. split; [reflexivity|]. assert (Z.to_nat i < length l)%nat by (apply HN; discriminate). lia.
        + split; [intros H; elim (Y _ H)|]. intros [n [H Hn]]. injection H as <-. exfalso. apply (proj2 HN); [lia|reflexivity]. }
    assert (BK : forall k, (exists r, vmap_index F v k = Ok r) <-> vtype F w = tObject).
    { intros k. rewrite E9. destruct w as [p|p|p|p|p|l|m|u|k' u]; cbn [vmap_index vtype]; try (split; [intros H; elim (Y _ H)|discriminate]); try (elim (P u); reflexivity); try (elim (K k' u); reflexivity).
      split; eauto. }
    assert (BI : forall ks k, vkeys F w = Ok ks -> (In k ks <-> exists x, vmap_index F v k = Ok (Some x))).
    { intros ks k H. rewrite E9. destruct w as [p|p|p|p|p|l|m|u|k' u]; try discriminate; try (elim (P u); reflexivity); try (elim (K k' u); reflexivity).
      injection H as <-. cbn [vmap_index]. split.
      - intros H. assert (G : exists x, map_get k m = Some x); [|destruct G as [x ->]; eauto].
        clear - H. induction m as [|[k1 x] m IH]; cbn in *; [contradiction|]. destruct (beqb_spec k k1); [eauto|]. apply IH. destruct H; [congruence|assumption].
      - intros [x H]. injection H as H. clear - H. induction m as [|[k1 y] m IH]; cbn in *; [discriminate|]. destruct (beqb_spec k k1); [left; congruence|right; auto]. }
    split; [|split; [exact BX|split; [|split; [exact BK|split; [exact BI|]]]]];
      clear - P K Y; (destruct w as [p|p|p|p|p|l|m|u|k' u]; try (elim (P u); reflexivity); try (elim (K k' u); reflexivity));
      cbn [vlen vkeys vboolean vinteger vnumber vis_null vtype];
      repeat split; try discriminate; eauto; try (intros H; elim (Y _ H); fail); try (intros [H|H]; discriminate).
  Qed.
  (** Equal always answers, and says yes exactly to equal Values. *)
  Theorem equal_iff : forall a b, exists r, vequal a b = Ok r /\ (r = true <-> equals F feq a b).
  Proof. apply equal_exact. Qed.
  Theorem equal_reflexive : forall v, vequal v v = Ok true <-> numbers F (fun f => feq f f = true) v.
  Proof.
    intros v. assert (E : equals F feq v v <-> numbers F (fun f => feq f f = true) v).
    { split.
      - intros H. assert (S0 : forall v w, stands F v w -> numbers F (fun f => feq f f = true) w -> numbers F (fun f => feq f f = true) v) by (intros x y Hx Hy; induction Hx; auto; constructor; auto).
        remember v as v2 in H at 2. destruct H as [a b x y H1 H2 H3 H4|a b p q H1 H2|a b p H1 H2|a b z H1 H2|a b f g H1 H2 H3|a b s H1 H2]; subst b;
          try (eapply S0; [exact H1|]; constructor).
        + apply alike_refl. assumption.
        + pose proof (stands_fun F _ _ H1 _ H2) as E. injection E as ->. assumption.
      - intros H. destruct (stands_ex F v) as [w Hw]. destruct (stands_shape F _ _ Hw) as [P K]. destruct w as [p|p|p|p|p|l|m|u|k u]; try (elim (P u); reflexivity); try (elim (K k u); reflexivity).
        + eapply eq_null; eassumption.
        + eapply eq_bool; eassumption.
        + eapply eq_int; eassumption.
        + eapply eq_num; [eassumption|eassumption|]. clear P K. remember (XNum p) as w eqn:Ew. induction Hw; subst; inversion H; subst; auto.
        + eapply eq_str; eassumption.
        + eapply eq_deep; eauto 10. apply alike_refl. assumption.
        + eapply eq_deep; eauto 10. apply alike_refl. assumption. }
    destruct (equal_exact F feq of_int v v) as [r [-> Hr]]. rewrite <- E, <- Hr. split; congruence.
  Qed.
  Theorem equal_symmetric : (forall f g, feq f g = true -> feq g f = true) -> forall a b, vequal a b = Ok true -> vequal b a = Ok true.
  Proof.
    intros Hs a b H. destruct (equal_exact F feq of_int a b) as [r [E Hr]]. destruct (equal_exact F feq of_int b a) as [r' [E' Hr']].
    rewrite E in H. injection H as ->. rewrite E'. f_equal. apply Hr'. pose proof (proj1 Hr eq_refl) as HE.
    destruct HE as [a b x y H1 H2 H3 H4|a b p q H1 H2|a b p H1 H2|a b z H1 H2|a b f g H1 H2 H3|a b s H1 H2].
    - eapply eq_deep; [exact H2|exact H1| |apply alike_sym; assumption]. destruct H3 as [[l [l' [-> ->]]]|[m [m' [-> ->]]]]; eauto 10.
    - eapply eq_null; eassumption. - eapply eq_bool; eassumption. - eapply eq_int; eassumption. - eapply eq_num; eauto. - eapply eq_str; eassumption.
  Qed.
  Theorem equal_transitive : (forall f g h, feq f g = true -> feq g h = true -> feq f h = true) ->
    forall a b c, vequal a b = Ok true -> vequal b c = Ok true -> vequal a c = Ok true.
  Proof.
    intros Ht a b c H HB. destruct (equal_exact F feq of_int a b) as [r [E Hr]]. destruct (equal_exact F feq of_int b c) as [r2 [E2 Hr2]].
    destruct (equal_exact F feq of_int a c) as [r' [E' Hr']]. rewrite E in H. injection H as ->. rewrite E2 in HB. injection HB as ->. rewrite E'. f_equal. apply Hr'.
    pose proof (proj1 Hr eq_refl) as HE. pose proof (proj1 Hr2 eq_refl) as HE2. clear - Ht HE HE2.
    destruct HE as [a b x y H1 H2 H3 H4|a b p q H1 H2|a b p H1 H2|a b z H1 H2|a b f g H1 H2 H3|a b s H1 H2];
      destruct HE2 as [b c x2 y2 G1 G2 G3 G4|b c p2 q2 G1 G2|b c p2 G1 G2|b c z2 G1 G2|b c f2 g2 G1 G2 G3|b c s2 G1 G2];
      pose proof (stands_fun F _ _ H2 _ G1) as E; subst; try discriminate;
      try (injection E; intros; subst); try (destruct H3 as [[l [l' [-> E]]]|[m [m' [-> E]]]]; discriminate E);
      try (destruct G3 as [[l [l' [E ->]]]|[m [m' [E ->]]]]; discriminate E).
    - eapply eq_deep; [exact H1|exact G2| |eapply alike_trans; eassumption].
      destruct H3 as [[l [l' [-> ->]]]|[m [m' [-> ->]]]]; destruct G3 as [[l2 [l2' [E ->]]]|[m2 [m2' [E ->]]]]; try discriminate; eauto 10.
    - eapply eq_null; eassumption. - eapply eq_bool; eassumption. - eapply eq_int; eassumption. - eapply eq_num; eauto. - eapply eq_str; eassumption.
  Qed.
End Value.
Print Assumptions values_read_exact.
Print Assumptions values_read_total.
Print Assumptions values_walk.
Print Assumptions value_round_trip.
Print Assumptions converted_exact.
Print Assumptions converted_total.
Print Assumptions converted_mirrors.
Print Assumptions methods_by_type.
Print Assumptions methods_values.
Print Assumptions equal_iff.
Print Assumptions equal_reflexive.
Print Assumptions equal_symmetric.
Print Assumptions equal_transitive.

(** Concrete instances: floats are their texts. *)
Definition demo_ok (s : bytes) : bool := forallb (fun c => is_digit c || N.eqb c 45 || N.eqb c 46) s.
Definition demo_eq (a b : bytes) : bool := beqb a b && negb (beqb a (bs "NaN")).
Notation demo_read := (unmarshal_json bytes (@Some bytes) demo_ok itoa 8).
Notation demo_print := (marshal_value bytes lit).
Notation demo_equal := (vequal bytes demo_eq itoa).
Lemma demo_blank : float_no_blank demo_ok.
Proof.
  intros s H. apply Forall_forall. intros c Hc. unfold demo_ok in H. rewrite forallb_forall in H. specialize (H c Hc).
  repeat split; intros ->; discriminate H.
Qed.

(** C72: that printing any Value and reading the text gives it back is false: a Number with an integral text comes back as an
    Integer.  That blanks around a scalar do not matter is false too. *)
Theorem value_round_trip_refuted : ~ (forall v t, demo_print v = Some t -> demo_read t = Ok (read_back bytes v)).
Proof. intros H. specialize (H (XNum (bs "3")) (bs "3") eq_refl). vm_compute in H. discriminate H. Qed.
Theorem scalar_blanks_refuted : demo_read (bs "null") = Ok (XPtr (XNull true)) /\ demo_read (bs "null ") = Ok (XPtr (XStr [])) /\
  demo_read (bs "5") = Ok (XPtr (XInt 5)) /\ (exists e, demo_read (bs "5 ") = Err e) /\
  (exists e, demo_read (9%N :: bs "[]") = Err e) /\ demo_read (bs " []") = Ok (XArr []).
Proof. vm_compute. repeat split; eexists; reflexivity. Qed.
(** C73: that the conversion keeps every integer, or that it equals what is read from the same text, is false. *)
Theorem converted_uint_refuted : convert_decoded bytes (DUint 18446744073709551615) = Ok (XInt (-1)).
Proof. vm_compute. reflexivity. Qed.
Theorem converted_equal_refuted : exists data v h w, demo_read data = Ok v /\ unmarshal bytes (@Some bytes) 8 data = Ok h /\
  convert_decoded bytes (as_decoded bytes h) = Ok w /\ demo_equal v w = Ok false.
Proof. exists (bs "[true]"), (XArr [XBool true]), (VArr [VBool true]), (XPtr (XArr [XBool true])). vm_compute. repeat split. Qed.
(** C74: that Equal is reflexive, or compares Integers with Numbers, is false. *)
Theorem equal_reflexive_refuted : demo_equal (XNum (bs "NaN")) (XNum (bs "NaN")) = Ok false /\ demo_equal (XInt 3) (XNum (bs "3")) = Ok false.
Proof. vm_compute. split; reflexivity. Qed.

Example values_read_ex : demo_read (bs " {""b"":[1,-2.5,null],""a"":""x""} ") =
  Ok (XObj [(bs "a", XStr (bs "x")); (bs "b", XArr [XInt 1; XNum (bs "-2.5"); XNull true])]) /\
  demo_read (bs " ""x"" ") = Ok (XPtr (XStr (bs "x"))) /\ (exists e, demo_read (bs "[1") = Err e) /\
  (exists e, demo_read (bs "[9223372036854775808]") = Err e).
Proof. vm_compute. repeat split; eexists; reflexivity. Qed.
Example values_walk_ex : exists g v, tree_text 8 g (bs "{""b"":[1,[true]]}") /\ reads bytes (@Some bytes) demo_ok g v /\
  walks bytes v [SKey (bs "b"); SIndex 1; SIndex 0] (XBool true).
Proof.
  destruct (proj1 (values_read_exact bytes (@Some bytes) demo_ok itoa 8 demo_blank (bs "{""b"":[1,[true]]}") (XObj [(bs "b", XArr [XInt 1; XArr [XBool true]])])) ltac:(vm_compute; reflexivity)) as [H|[v0 [H _]]]; [|discriminate H].
  assert (U : unmarshal bytes (@Some bytes) 8 (bs "{""b"":[1,[true]]}") = Ok (VMap [(bs "b", VArr [VFloat (bs "1"); VArr [VBool true]])])) by (vm_compute; reflexivity).
  destruct H as [w1 [t [w2 [g [H1 [H2 [E [Ht [_ Hr]]]]]]]]].
  assert (w1 = []) as ->. { destruct w1 as [|c w1]; [reflexivity|]. inversion H1; subst. cbn in E. injection E as <- _. exfalso. intuition discriminate. }
  assert (w2 = []) as ->.
  { destruct (rev w2) as [|c r] eqn:R; [rewrite <- (rev_involutive w2), R; reflexivity|]. exfalso.
    assert (W : w2 = rev r ++ [c]) by (rewrite <- (rev_involutive w2), R; reflexivity). subst w2. apply Forall_app in H2. destruct H2 as [_ H2]. inversion H2; subst.
    cbn [app] in E. rewrite app_assoc in E. change (bs "{""b"":[1,[true]]}") with (bs "{""b"":[1,[true]]" ++ [125%N]) in E. apply app_inj_tail in E. destruct E as [_ <-]. intuition discriminate. }
  cbn [app] in E. rewrite app_nil_r in E. subst t. exists g. eexists. split; [exact Ht|]. split; [exact Hr|].
  eapply wk_key; [vm_compute; reflexivity|]. eapply wk_index; [vm_compute; reflexivity|]. eapply wk_index; [vm_compute; reflexivity|]. constructor.
Qed.
Example value_round_trip_ex : returnable bytes demo_ok lit (XObj [(bs "a", XArr [XInt 7; XBool true])]) /\ shallow bytes 8 (XObj [(bs "a", XArr [XInt 7; XBool true])]) /\
  demo_print (XObj [(bs "a", XArr [XInt 7; XBool true])]) = Some (bs "{""a"":[7,true]}") /\ strict_format bytes lit (@Some bytes).
Proof.
  split; [|split; [repeat constructor|split; [vm_compute; reflexivity|apply lit_format]]].
  apply rt_obj; [cbn; auto|]. constructor; [|constructor]. split; [exists [97%N]; split; [constructor; [unfold scalar; lia|constructor]|reflexivity]|].
  apply rt_arr. constructor; [apply rt_int; [unfold int64; lia|reflexivity]|]. constructor; [apply rt_bool|constructor].
Qed.
Example converted_ex : convert_decoded bytes (DAny [(DStr (bs "k"), DArr [DUint 3; DNil])]) = Ok (XPtr (XObj [(bs "k", XPtr (XArr [XInt 3; XNull true]))])) /\
  (exists e, convert_decoded bytes (DArr [DOther]) = Err e) /\ (exists e, convert_decoded bytes (DAny [(DInt 1, DNil)]) = Err e).
Proof. vm_compute. repeat split; eexists; reflexivity. Qed.
Example converted_mirrors_ex : exists v h w, demo_read (bs "[1,{""a"":false}]") = Ok v /\ unmarshal bytes (@Some bytes) 8 (bs "[1,{""a"":false}]") = Ok h /\
  convert_decoded bytes (as_decoded bytes h) = Ok w /\ v = XArr [XInt 1; XObj [(bs "a", XBool false)]] /\ w = XPtr (XArr [XNum (bs "1"); XPtr (XObj [(bs "a", XBool false)])]).
Proof.
  exists (XArr [XInt 1; XObj [(bs "a", XBool false)]]), (VArr [VFloat (bs "1"); VMap [(bs "a", VBool false)]]), (XPtr (XArr [XNum (bs "1"); XPtr (XObj [(bs "a", XBool false)])])).
  vm_compute. repeat split.
Qed.
Example methods_ex : vlen bytes (XPtr (XArr [XInt 1])) = Ok 1%Z /\ vindex bytes (XArr [XInt 1]) 1 = Panic /\ vlen bytes (XStr (bs "abc")) = Panic /\
  vnumber bytes itoa (XKeyed (bs "k") (XInt 4)) = Ok (bs "4") /\ vinteger bytes (XNum (bs "4")) = Panic.
Proof. vm_compute. repeat split. Qed.
Example equal_ex : demo_equal (XPtr (XInt 3)) (XInt 3) = Ok true /\ demo_equal (XArr [XPtr (XInt 3)]) (XArr [XInt 3]) = Ok false /\
  demo_equal (XObj [(bs "a", XNull true)]) (XObj [(bs "a", XNull true)]) = Ok true /\ demo_equal (XNull true) (XNull false) = Ok true.
Proof. vm_compute. repeat split. Qed.

Print Assumptions value_round_trip_refuted.
Print Assumptions scalar_blanks_refuted.
Print Assumptions converted_uint_refuted.
Print Assumptions converted_equal_refuted.
Print Assumptions equal_reflexive_refuted.

(** C74: that String tells Values of different types apart is false. *)
Theorem string_tells_refuted : ~ (forall v w : value bytes, vstring bytes v = vstring bytes w -> vtype bytes v = vtype bytes w).
Proof. intros H. specialize (H (XNull true) (XStr (bs "<null>")) eq_refl). discriminate H. Qed.
Example methods_values_ex : stands bytes (XPtr (XKeyed (bs "k") (XObj [(bs "a", XInt 1); (bs "b", XNull true)]))) (XObj [(bs "a", XInt 1); (bs "b", XNull true)]) /\
  vstring bytes (XPtr (XKeyed (bs "k") (XObj [(bs "a", XInt 1); (bs "b", XNull true)]))) = bs "<object 2 keys>".
Proof. split; [|reflexivity]. apply sf_ptr, sf_keyed, sf_here; intros; discriminate. Qed.
Print Assumptions string_tells_refuted.
