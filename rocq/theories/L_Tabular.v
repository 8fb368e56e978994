From Coq Require Import ZArith Lia Permutation.
From Verif Require Import Base M_Decimal M_Formats M_Tabular S_Tabular.

Section Lemmas.
  Context {F : Type}.
  Notation gval := (gval F).

  Lemma sorted_nodup : forall (m : list (bytes * gval)), sorted m -> NoDup (map fst m).
  Proof.
    assert (A : forall m k, key_above k m -> ~ In k (map (@fst bytes gval) m)).
    { induction m as [|[k1 v1] m IH]; cbn; intros k H; [tauto|]. destruct H as [H1 H2]. intros [->|X]; [rewrite bcmp_refl in H1; discriminate|].
      exact (IH _ H2 X). }
    induction m as [|[k v] m IH]; cbn; intros H; [constructor|]. destruct H as [H1 H2]. constructor; [apply A; assumption|auto].
  Qed.
  Lemma map_get_in : forall (m : list (bytes * gval)) k v, NoDup (map fst m) -> (map_get k m = Some v <-> In (k, v) m).
  Proof.
    induction m as [|[k1 v1] m IH]; cbn [map_get In map fst]; intros k v H; [split; [discriminate|tauto]|].
    inversion H as [|a b H1 H2]; subst. destruct (beqb_spec k k1) as [->|Hk].
    - split; [intros [= ->]; auto|]. intros [[= ->]|X]; [reflexivity|]. exfalso. apply H1. apply (in_map fst) in X. exact X.
    - rewrite IH by assumption. split; [auto|]. intros [[= -> ->]|X]; [congruence|assumption].
  Qed.
  Lemma string_values_texts : forall l, texts l (@string_values F l).
  Proof. induction l as [|v l IH]; cbn; [constructor|]. destruct v; try (constructor 3; [intros [t E]; discriminate|assumption]). constructor. assumption. Qed.

  Definition special (k : bytes) : bool := existsb (beqb k) [bs "title"; bs "type"; bs "description"].
  (** What the loop over the members of a column schema leaves. *)
  Lemma fold_cols : forall i (l : list (bytes * gval)) c t1 t2, NoDup (map fst l) ->
    fold_left col_step l (new_col i, false, false) = (c, t1, t2) ->
    ((exists t, In (bs "title", VStr t) l /\ c_title c = t /\ t1 = true) \/
     (forall t, ~ In (bs "title", VStr t) l) /\ c_title c = bs "col_" ++ itoa (Z.of_nat i) /\ t1 = false) /\
    ((exists t, In (bs "type", VStr t) l /\ c_type c = [t] /\ t2 = true) \/
     (exists a, In (bs "type", VArr a) l /\ c_type c = string_values a /\ t2 = true) \/
     (forall t, ~ In (bs "type", VStr t) l) /\ (forall a, ~ In (bs "type", VArr a) l) /\ c_type c = [bs "string"] /\
       (t2 = true <-> exists v, In (bs "type", v) l)) /\
    ((exists t, In (bs "description", VStr t) l /\ c_desc c = t) \/
     (forall t, ~ In (bs "description", VStr t) l) /\ c_desc c = []) /\
    sorted (c_valid c) /\ (forall k v, map_get k (c_valid c) = Some v <-> In (k, v) l /\ special k = false).
  Proof.
    intros i. induction l as [|[k v] l IH] using rev_ind; intros c t1 t2 Hn E.
    - cbn in E. injection E as <- <- <-. cbn [new_col c_title c_type c_desc c_valid].
      split; [right; split; [intros t []|auto]|]. split; [right; right; split; [intros t []|]; split; [intros t []|]; split; [reflexivity|]; split; [discriminate|intros [v []]]|].
      split; [right; split; [intros t []|reflexivity]|]. split; [exact I|]. intros k v. cbn. split; [discriminate|tauto].
    - rewrite fold_left_app in E. cbn [fold_left] in E. destruct (fold_left col_step l (new_col i, false, false)) as [[c0 a1] a2] eqn:E0.
      rewrite map_app in Hn. cbn [map fst] in Hn. pose proof (NoDup_remove _ _ _ Hn) as [Hn1 Hn2]. rewrite app_nil_r in Hn1, Hn2.
      assert (NI : forall w, ~ In (k, w) l) by (intros w X; apply Hn2; apply (in_map fst) in X; exact X).
      destruct (IH _ _ _ Hn1 eq_refl) as [IT [IY [ID [IS IV]]]].
      assert (INS : forall k0 v0, In (k0, v0) (l ++ [(k, v)]) <-> In (k0, v0) l \/ (k0 = k /\ v0 = v)).
      { intros k0 v0. rewrite in_app_iff. cbn. split; [intros [H|[[= -> ->]|[]]]; auto|intros [H|[-> ->]]; auto]. }
      assert (OTHER : forall (k1 : bytes) (w : gval), k1 <> k -> (In (k1, w) (l ++ [(k, v)]) <-> In (k1, w) l)).
      { intros k1 w H. rewrite INS. tauto. }
      assert (TT : k <> bs "title" -> ((exists t, In (bs "title", VStr t) l /\ c_title c0 = t /\ a1 = true) \/ (forall t, ~ In (bs "title", VStr t) l) /\ c_title c0 = bs "col_" ++ itoa (Z.of_nat i) /\ a1 = false) ->
        ((exists t, In (bs "title", VStr t) (l ++ [(k, v)]) /\ c_title c0 = t /\ a1 = true) \/ (forall t, ~ In (bs "title", VStr t) (l ++ [(k, v)])) /\ c_title c0 = bs "col_" ++ itoa (Z.of_nat i) /\ a1 = false)).
      { intros H [[t [H1 H2]]|[H1 H2]]; [left; exists t; rewrite OTHER by congruence; auto|right]. split; [|assumption]. intros t. rewrite OTHER by congruence. apply H1. }
      assert (TY : k <> bs "type" -> (exists t, In (bs "type", VStr t) (l ++ [(k, v)]) /\ c_type c0 = [t] /\ a2 = true) \/
         (exists a, In (bs "type", VArr a) (l ++ [(k, v)]) /\ c_type c0 = string_values a /\ a2 = true) \/
         (forall t, ~ In (bs "type", VStr t) (l ++ [(k, v)])) /\ (forall a, ~ In (bs "type", VArr a) (l ++ [(k, v)])) /\ c_type c0 = [bs "string"] /\
           (a2 = true <-> exists w, In (bs "type", w) (l ++ [(k, v)]))).
      { intros H. destruct IY as [[t [H1 H2]]|[[a [H1 H2]]|[H1 [H2 [H3 H4]]]]].
        - left. exists t. rewrite OTHER by congruence. auto.
        - right. left. exists a. rewrite OTHER by congruence. auto.
        - right. right. split; [intros t; rewrite OTHER by congruence; apply H1|]. split; [intros t; rewrite OTHER by congruence; apply H2|]. split; [assumption|].
          rewrite H4. split; intros [w X]; exists w; [rewrite OTHER by congruence; assumption|rewrite OTHER in X by congruence; assumption]. }
      assert (TD : k <> bs "description" -> (exists t, In (bs "description", VStr t) (l ++ [(k, v)]) /\ c_desc c0 = t) \/ (forall t, ~ In (bs "description", VStr t) (l ++ [(k, v)])) /\ c_desc c0 = []).
      { intros H. destruct ID as [[t [H1 H2]]|[H1 H2]]; [left; exists t; rewrite OTHER by congruence; auto|right]. split; [|assumption]. intros t. rewrite OTHER by congruence. apply H1. }
      assert (TV : special k = true -> forall k0 v0, map_get k0 (c_valid c0) = Some v0 <-> In (k0, v0) (l ++ [(k, v)]) /\ special k0 = false).
      { intros H k0 v0. rewrite IV, INS. split; [tauto|]. intros [[X|[-> ->]] Y]; [auto|congruence]. }
      unfold col_step in E. destruct (beqb_spec k (bs "title")) as [->|K1]; [|destruct (beqb_spec k (bs "type")) as [->|K2]; [|destruct (beqb_spec k (bs "description")) as [->|K3]]].
      + assert (X : (exists t, v = VStr t) \/ (forall t, v <> VStr t)) by (destruct v; eauto; right; intros; discriminate).
        destruct X as [[t ->]|X].
        * injection E as <- <- <-. cbn [c_title c_type c_desc c_valid].
          split; [left; exists t; rewrite INS; auto|]. split; [apply TY; discriminate|]. split; [apply TD; discriminate|]. split; [assumption|]. apply TV; reflexivity.
        * assert (E1 : (c0, a1, a2) = (c, t1, t2)) by (destruct v; auto; exfalso; eapply X; reflexivity). injection E1 as <- <- <-.
          split; [|split; [apply TY; discriminate|split; [apply TD; discriminate|split; [assumption|apply TV; reflexivity]]]].
          destruct IT as [[t [H1 _]]|[H1 H2]]; [elim (NI _ H1)|]. right. split; [|assumption].
          intros t. rewrite INS. intros [Y|[_ Y]]; [exact (H1 _ Y)|]. symmetry in Y. exact (X _ Y).
      + destruct IY as [[t [H1 _]]|[[a [H1 _]]|[H1 [H2 [H3 H4]]]]]; [elim (NI _ H1)|elim (NI _ H1)|].
        assert (X : (exists t, v = VStr t) \/ (exists a, v = VArr a) \/ ((forall t, v <> VStr t) /\ (forall a, v <> VArr a))).
        { destruct v; eauto; right; right; split; intros; discriminate. }
        destruct X as [[t ->]|[[a ->]|[X Y]]].
        * injection E as <- <- <-. cbn [c_title c_type c_desc c_valid].
          split; [apply TT; [discriminate|assumption]|]. split; [left; exists t; rewrite INS; auto|]. split; [apply TD; discriminate|]. split; [assumption|]. apply TV; reflexivity.
        * injection E as <- <- <-. cbn [c_title c_type c_desc c_valid].
          split; [apply TT; [discriminate|assumption]|]. split; [right; left; exists a; rewrite INS; auto|]. split; [apply TD; discriminate|]. split; [assumption|]. apply TV; reflexivity.
        * assert (E1 : (c0, a1, true) = (c, t1, t2)) by (destruct v; auto; exfalso; [eapply X; reflexivity|eapply Y; reflexivity]). injection E1 as <- <- <-.
          split; [apply TT; [discriminate|assumption]|]. split; [|split; [apply TD; discriminate|split; [assumption|apply TV; reflexivity]]].
          right. right. split; [intros t; rewrite INS; intros [Z|[_ Z]]; [exact (H1 _ Z)|symmetry in Z; exact (X _ Z)]|].
          split; [intros t; rewrite INS; intros [Z|[_ Z]]; [exact (H2 _ Z)|symmetry in Z; exact (Y _ Z)]|]. split; [assumption|].
          split; [intros _; exists v; rewrite INS; auto|reflexivity].
      + assert (X : (exists t, v = VStr t) \/ (forall t, v <> VStr t)) by (destruct v; eauto; right; intros; discriminate).
        destruct X as [[t ->]|X].
        * injection E as <- <- <-. cbn [c_title c_type c_desc c_valid].
          split; [apply TT; [discriminate|assumption]|]. split; [apply TY; discriminate|]. split; [left; exists t; rewrite INS; auto|]. split; [assumption|]. apply TV; reflexivity.
        * assert (E1 : (c0, a1, a2) = (c, t1, t2)) by (destruct v; auto; exfalso; eapply X; reflexivity). injection E1 as <- <- <-.
          split; [apply TT; [discriminate|assumption]|]. split; [apply TY; discriminate|]. split; [|split; [assumption|apply TV; reflexivity]].
          destruct ID as [[t [H1 _]]|[H1 H2]]; [elim (NI _ H1)|]. right. split; [|assumption].
          intros t. rewrite INS. intros [Y|[_ Y]]; [exact (H1 _ Y)|]. symmetry in Y. exact (X _ Y).
      + injection E as <- <- <-. cbn [c_title c_type c_desc c_valid].
        split; [apply TT; assumption|]. split; [apply TY; assumption|]. split; [apply TD; assumption|]. split; [apply sorted_set; assumption|].
        assert (SK : special k = false).
        { unfold special. cbn [existsb]. destruct (beqb_spec k (bs "title")); [congruence|]. destruct (beqb_spec k (bs "type")); [congruence|].
          destruct (beqb_spec k (bs "description")); [congruence|]. reflexivity. }
        intros k0 v0. destruct (beqb_spec k0 k) as [->|Hk].
        * rewrite map_get_set_eq, INS. split; [intros [= ->]; auto|]. intros [[Y|[_ ->]] _]; [elim (NI _ Y)|reflexivity].
        * rewrite map_get_set_neq by assumption. rewrite IV, INS. tauto.
  Qed.

  Lemma make_col_rule : forall (order : list (bytes * gval) -> list (bytes * gval)) i (f : gval), (forall m, f = VMap m -> sorted m) -> (forall m, Permutation (order m) m) ->
    column_rule i f (fst (make_col order i f)) (snd (make_col order i f)).
  Proof.
    intros order i f Hs Ho. assert (X : (exists m, f = VMap m) \/ (forall m, f <> VMap m)) by (destruct f; eauto; right; intros; discriminate).
    destruct X as [[m ->]|X].
    - specialize (Hs m eq_refl). pose proof (sorted_nodup _ Hs) as Hn.
      cbn [make_col]. destruct (fold_left col_step (order m) (new_col i, false, false)) as [[c t1] t2] eqn:E. cbn [fst snd].
      assert (Hn2 : NoDup (map fst (order m))).
      { eapply Permutation_NoDup; [apply Permutation_map, Permutation_sym, Ho|assumption]. }
      destruct (fold_cols _ _ _ _ _ Hn2 E) as [IT [IY [ID [IS IV]]]].
      assert (IN : forall k v, In (k, v) (order m) <-> map_get k m = Some v).
      { intros k v. rewrite map_get_in by assumption. split; apply Permutation_in; [apply Ho|apply Permutation_sym, Ho]. }
      unfold member in *. constructor.
      + destruct IT as [[t [H1 [H2 _]]]|[H1 [H2 _]]]; [left|right].
        * unfold member. rewrite H2. apply IN. assumption.
        * split; [|assumption]. intros t. unfold member. rewrite <- IN. apply H1.
      + destruct IY as [[t [H1 [H2 _]]]|[[a [H1 [H2 _]]]|[H1 [H2 [H3 _]]]]].
        * left. exists t. unfold member. rewrite <- IN. auto.
        * right. left. exists a. unfold member. rewrite <- IN. split; [assumption|]. rewrite H2. apply string_values_texts.
        * right. right. split; [intros t; unfold member; rewrite <- IN; apply H1|]. split; [|assumption]. intros t; unfold member; rewrite <- IN; apply H2.
      + destruct ID as [[t [H1 H2]]|[H1 H2]]; [left|right].
        * unfold member. rewrite H2. apply IN. assumption.
        * split; [|assumption]. intros t. unfold member. rewrite <- IN. apply H1.
      + intros k. fold (special k). destruct (map_get k (c_valid c)) as [v|] eqn:EV.
        * apply IV in EV. destruct EV as [E1 ->]. apply IN in E1. auto.
        * destruct (special k) eqn:ES; [reflexivity|]. destruct (map_get k m) as [v|] eqn:EM; [|reflexivity].
          apply IN in EM. assert (map_get k (c_valid c) = Some v) by (apply IV; auto). congruence.
      + assumption.
      + destruct IT as [[t [H1 [_ ->]]]|[H1 [_ ->]]]; [right|left]; (split; [|reflexivity]).
        * intros H. apply (H t). unfold member. apply IN. assumption.
        * intros t. unfold member. rewrite <- IN. apply H1.
      + assert (Y : t2 = true <-> exists v, In (bs "type", v) (order m)).
        { destruct IY as [[t [H1 [_ ->]]]|[[a [H1 [_ ->]]]|[_ [_ [_ H]]]]]; [split; [intros _; eauto|auto]|split; [intros _; eauto|auto]|assumption]. }
        destruct t2; [right|left]; (split; [|reflexivity]).
        * intros H. destruct (proj1 Y eq_refl) as [v Hv]. apply (H v). unfold member. apply IN. assumption.
        * intros v Hv. unfold member in Hv. apply IN in Hv. assert (false = true) by (apply Y; eauto). discriminate.
    - assert (E : make_col order i f = (new_col i, [NotAnObject i])) by (destruct f; auto; exfalso; eapply X; reflexivity).
      rewrite E. cbn [fst snd]. constructor. assumption.
  Qed.
  Lemma make_cols_rule : forall (order : list (bytes * gval) -> list (bytes * gval)), (forall m, Permutation (order m) m) -> forall fs i,
    (forall m, In (VMap m) fs -> sorted m) ->
    columns_rule i fs (fst (make_cols order i fs)) (snd (make_cols order i fs)).
  Proof.
    intros order Ho. induction fs as [|f fs IH]; intros i Hs; [constructor|]. cbn [make_cols].
    assert (H1 : forall m, f = VMap m -> sorted m) by (intros m ->; apply Hs; left; reflexivity).
    pose proof (make_col_rule order i f H1 Ho) as HC. specialize (IH (S i) (fun m H => Hs m (or_intror H))).
    destruct (make_col order i f) as [c ps]. destruct (make_cols order (S i) fs) as [cs qs]. cbn [fst snd] in *. constructor; assumption.
  Qed.
  (** The rule leaves no choice. *)
  Lemma texts_fun : forall (l : list gval) a b, texts l a -> texts l b -> a = b.
  Proof.
    intros l a b H. revert b. induction H as [|t l ts H IH|v l ts Hv H IH]; intros b Hb; inversion Hb; subst; auto.
    - f_equal. auto.
    - exfalso. match goal with H : ~ is_text (VStr t) |- _ => apply H end. exists t. reflexivity.
    - exfalso. apply Hv. eexists. reflexivity.
  Qed.
  Lemma column_rule_fun : forall i (f : gval) c1 p1 c2 p2, column_rule i f c1 p1 -> column_rule i f c2 p2 -> c1 = c2 /\ p1 = p2.
  Proof.
    intros i f c1 p1 c2 p2 H1 H2. inversion H1 as [f0 N0|m c ps qs T1 Y1 D1 V1 S1 A1 B1]; subst; inversion H2 as [f0 N2|m2 c' ps' qs' T2 Y2 D2 V2 S2 A2 B2]; subst.
    - auto.
    - exfalso. eapply N0. reflexivity.
    - exfalso. eapply N2. reflexivity.
    - split.
      + destruct c1 as [t1 y1 d1 v1], c2 as [t2 y2 d2 v2]. cbn [c_title c_type c_desc c_valid] in *. f_equal.
        * destruct T1 as [T1|[T1 ->]], T2 as [T2|[T2 ->]]; try reflexivity; unfold member in *; [congruence|elim (T2 _ T1)|elim (T1 _ T2)].
        * unfold type_rule, member in *.
          destruct Y1 as [[t [E1 ->]]|[[a [E1 F1]]|[N1 [M1 ->]]]], Y2 as [[u [E2 ->]]|[[b [E2 F2]]|[N2 [M2 ->]]]]; try congruence; try reflexivity; try (exfalso; first [eapply N1; eassumption|eapply M1; eassumption|eapply N2; eassumption|eapply M2; eassumption]).
          rewrite E1 in E2. injection E2 as <-. eapply texts_fun; eassumption.
        * destruct D1 as [T3|[T3 ->]], D2 as [T4|[T4 ->]]; try reflexivity; unfold member in *; [congruence|elim (T4 _ T3)|elim (T3 _ T4)].
        * apply sorted_ext; auto. intros k. rewrite (V1 k), (V2 k). reflexivity.
      + f_equal; [destruct A1 as [[? ->]|[? ->]], A2 as [[? ->]|[? ->]]|destruct B1 as [[? ->]|[? ->]], B2 as [[? ->]|[? ->]]]; try reflexivity; contradiction.
  Qed.
  Lemma columns_rule_fun : forall (fs : list gval) i c1 p1 c2 p2, columns_rule i fs c1 p1 -> columns_rule i fs c2 p2 -> c1 = c2 /\ p1 = p2.
  Proof.
    induction fs as [|f fs IH]; intros i c1 p1 c2 p2 H1 H2; inversion H1; subst; inversion H2; subst; [auto|].
    match goal with A : column_rule i f _ _, B : column_rule i f _ _ |- _ => destruct (column_rule_fun _ _ _ _ _ _ A B) as [-> ->] end.
    match goal with A : columns_rule (S i) fs _ _, B : columns_rule (S i) fs _ _ |- _ => destruct (IH _ _ _ _ _ A B) as [-> ->] end.
    auto.
  Qed.
End Lemmas.

(** Titles. *)
Lemma machine_title_iff : forall t, machine_title t = true <-> identifier t.
Proof.
  assert (A : forall c, name_start c = true <-> (97 <= c <= 122 \/ 65 <= c <= 90 \/ c = 95 \/ c = 36)%N).
  { intros c. unfold name_start. rewrite !orb_true_iff, !andb_true_iff, !N.leb_le, !N.eqb_eq. tauto. }
  assert (B : forall c, name_char c = true <-> (97 <= c <= 122 \/ 65 <= c <= 90 \/ c = 95 \/ c = 36 \/ 48 <= c <= 57)%N).
  { intros c. unfold name_char, is_digit. rewrite orb_true_iff, A, andb_true_iff, !N.leb_le. tauto. }
  intros [|c r]; cbn [machine_title].
  - split; [discriminate|]. intros [c [r [E _]]]. discriminate.
  - rewrite andb_true_iff, A, forallb_forall. split.
    + intros [H1 H2]. exists c, r. split; [reflexivity|]. split; [assumption|]. apply Forall_forall. intros x Hx. apply B. auto.
    + intros [c0 [r0 [[= <- <-] [H1 H2]]]]. split; [assumption|]. intros x Hx. apply B. rewrite Forall_forall in H2. auto.
Qed.
Lemma title_problems_spec : forall ts i seen p, In p (title_problems i seen ts) <->
  (exists j t, nth_error ts j = Some t /\ p = BadName (i + j) /\ ~ identifier t) \/
  (exists j t, nth_error ts j = Some t /\ p = NotUnique (i + j) /\ (In t seen \/ exists k, (k < j)%nat /\ nth_error ts k = Some t)).
Proof.
  induction ts as [|t ts IH]; intros i seen p; cbn [title_problems].
  - split; [intros []|]. intros [[j [t [H _]]]|[j [t [H _]]]]; destruct j; discriminate.
  - rewrite !in_app_iff, IH. clear IH. split.
    + intros [H|[H|[H|H]]].
      * destruct (machine_title t) eqn:E; [destruct H|]. destruct H as [<-|[]]. left. exists 0%nat, t. rewrite Nat.add_0_r. split; [reflexivity|]. split; [reflexivity|].
        intros X. apply machine_title_iff in X. congruence.
      * destruct (existsb (beqb t) seen) eqn:E; [|destruct H]. destruct H as [<-|[]]. right. exists 0%nat, t. rewrite Nat.add_0_r. split; [reflexivity|]. split; [reflexivity|].
        left. apply existsb_exists in E. destruct E as [x [Hx E]]. apply beqb_eq in E. subst. assumption.
      * destruct H as [j [u [H1 [-> H2]]]]. left. exists (S j), u. split; [assumption|]. split; [f_equal; lia|assumption].
      * destruct H as [j [u [H1 [-> H2]]]]. right. exists (S j), u. split; [assumption|]. split; [f_equal; lia|].
        destruct H2 as [[->|H2]|[k [Hk H2]]]; [right; exists 0%nat; split; [lia|reflexivity]|left; assumption|right; exists (S k); split; [lia|assumption]].
    + intros [[j [u [H1 [-> H2]]]]|[j [u [H1 [-> H2]]]]]; destruct j as [|j]; cbn [nth_error] in H1.
      * injection H1 as ->. left. rewrite Nat.add_0_r. destruct (machine_title u) eqn:E; [apply machine_title_iff in E; tauto|left; reflexivity].
      * right. right. left. exists j, u. split; [assumption|]. split; [f_equal; lia|assumption].
      * injection H1 as ->. right. left. rewrite Nat.add_0_r. destruct H2 as [H2|[k [Hk _]]]; [|lia].
        replace (existsb (beqb u) seen) with true; [left; reflexivity|]. symmetry. apply existsb_exists. exists u. split; [assumption|apply beqb_refl].
      * right. right. right. exists j, u. split; [assumption|]. split; [f_equal; lia|].
        destruct H2 as [H2|[[|k] [Hk H2]]]; [left; right; assumption|cbn in H2; injection H2 as ->; left; left; reflexivity|right; exists k; split; [lia|assumption]].
Qed.
