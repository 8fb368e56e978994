(** Reading the text of a table. *)
From Coq Require Import ZArith Lia.
From Verif Require Import Base M_Utf8 M_CsvText S_Csv L_CsvText L_CsvSpec.

Lemma endings_refl : forall f, ~ In 13%N f -> forall g, endings f g -> g = f.
Proof.
  intros f Hf g H. induction H as [|c s o Hc H IH|s o H IH|s o Hb H IH|s o Hb H IH]; [reflexivity| | | |].
  - f_equal. apply IH. intros X. apply Hf. right. assumption.
  - exfalso. apply Hf. left. reflexivity.
  - exfalso. apply Hf. left. reflexivity.
  - exfalso. apply Hf. left. reflexivity.
Qed.
Lemma endings_nil : forall f g, endings f g -> g = [] -> f = [].
Proof. intros f g H E. destruct H; [reflexivity| | | |]; discriminate. Qed.

(** Line endings of a text, part by part. *)
Lemma tidy_char : forall fin c s t, c <> 13%N -> tidy fin (c :: s) t -> exists o, t = c :: o /\ tidy fin s o.
Proof. intros fin c s t Hc H. inversion H; subst; try congruence. eexists. split; [reflexivity|assumption]. Qed.
Lemma tidy_plain : forall fin a s t, ~ In 13%N a -> tidy fin (a ++ s) t -> exists t2, t = a ++ t2 /\ tidy fin s t2.
Proof.
  intros fin. induction a as [|c a IH]; intros s t Ha H; [exists t; auto|]. cbn [app] in H.
  assert (Hc : c <> 13%N) by (intros ->; apply Ha; left; reflexivity).
  inversion H; subst; try congruence.
  match goal with H : tidy fin (a ++ s) _ |- _ => destruct (IH s _ (fun X => Ha (or_intror X)) H) as [t2 [-> Ht]] end. exists t2. auto.
Qed.
Lemma tidy_quoted : forall fin n f s t, (length f < n)%nat -> tidy fin (doubled f ++ 34%N :: s) t ->
  exists g t2, t = doubled g ++ 34%N :: t2 /\ endings f g /\ tidy fin s t2.
Proof.
  intros fin. induction n as [|n IH]; intros f s t Hn H; [lia|]. destruct f as [|c f].
  - cbn [doubled flat_map app] in H. inversion H; subst. exists [], o. split; [reflexivity|]. split; [constructor|assumption].
  - cbn [length] in Hn. unfold doubled in H. cbn [flat_map] in H. fold (doubled f) in H.
    destruct (N.eqb_spec c 34) as [->|Hc].
    + cbn [app] in H. destruct (tidy_char fin 34 _ _ ltac:(lia) H) as [o1 [-> H1]]. destruct (tidy_char fin 34 _ _ ltac:(lia) H1) as [o2 [-> H2]].
      destruct (IH f s _ ltac:(lia) H2) as [g [t2 [-> [Hg Ht]]]].
      exists (34%N :: g), t2. split; [reflexivity|]. split; [constructor; [lia|assumption]|assumption].
    + cbn [app] in H. inversion H as [|c0 s0 o Hc0 H0|s0 o H0 E0|s0 o Hb H0|s0 o Hb Hn0 H0|Hf E0]; subst.
      * destruct (IH f s _ ltac:(lia) H0) as [g [t2 [-> [Hg Ht]]]]. exists (c :: g), t2. split; [|split; [constructor; assumption|assumption]].
        unfold doubled. cbn [flat_map]. apply N.eqb_neq in Hc. rewrite Hc. reflexivity.
      * destruct f as [|d f]; [discriminate|]. cbn [doubled flat_map] in *. destruct (N.eqb_spec d 34) as [->|Hd]; [discriminate|].
        cbn [app] in *. injection H1 as <- ->. fold (doubled f) in *.
        cbn [length] in Hn. destruct (IH f s _ ltac:(lia) H0) as [g [t2 [-> [Hg Ht]]]].
        exists (10%N :: g), t2. split; [reflexivity|]. split; [apply e_crlf; assumption|assumption].
      * destruct (IH f s _ ltac:(lia) H0) as [g [t2 [-> [Hg Ht]]]]. exists (10%N :: g), t2. split; [reflexivity|]. split; [|assumption].
        apply e_lf; [|assumption]. intros [r ->]. apply Hb. eexists. reflexivity.
      * destruct (IH f s _ ltac:(lia) H0) as [g [t2 [-> [Hg Ht]]]]. exists (13%N :: g), t2. split; [reflexivity|]. split; [|assumption].
        apply e_cr; [|assumption]. intros [r ->]. apply Hb. eexists. reflexivity.
      * exfalso. destruct (doubled f); discriminate.
Qed.

Section Table.
  Variable lazy : bool.
  Variable h : N.
  Variable ct : bytes.
  Notation comma := (h :: ct).
  Hypothesis comma_lf : ~ In 10%N comma.
  Hypothesis comma_cr : ~ In 13%N comma.
  Hypothesis comma_quote : ~ In 34%N comma.

  Lemma tidy_written : forall fin f t s T, written comma f t -> tidy fin (t ++ s) T ->
    exists g u T2, T = u ++ T2 /\ endings f g /\ written comma g u /\ tidy fin s T2.
  Proof.
    intros fin f t s T H HT. destruct H as [f H1 H2 H3 H4|f Hf].
    - destruct (tidy_plain _ _ _ _ H3 HT) as [T2 [-> Ht]]. exists f, f, T2. split; [reflexivity|]. split; [|split; [constructor; assumption|assumption]].
      clear - H3. induction f as [|c f IH]; [constructor|]. constructor; [intros ->; apply H3; left; reflexivity|]. apply IH. intros X. apply H3. right. assumption.
    - cbn [app] in HT. rewrite <- app_assoc in HT. cbn [app] in HT. inversion HT; subst.
      match goal with X : tidy fin (doubled f ++ _) _ |- _ => destruct (tidy_quoted fin (S (length f)) f s _ ltac:(lia) X) as [g [t2 [-> [Hg Ht]]]] end.
      exists g, (34%N :: doubled g ++ [34%N]), t2. split; [cbn [app]; rewrite <- app_assoc; reflexivity|]. split; [assumption|]. split; [|assumption].
      constructor. intros X. apply Hf. eapply endings_nil; eassumption.
  Qed.
  Lemma tidy_line : forall fs t, line_text comma fs t -> forall fin s T, tidy fin (t ++ s) T ->
    exists gs u T2, T = u ++ T2 /\ Forall2 endings fs gs /\ line_text comma gs u /\ tidy fin s T2.
  Proof.
    induction 1 as [|f t W|f t fs u Hn W L IH]; intros fin s T HT.
    - exists [], [], T. split; [reflexivity|]. split; [constructor|]. split; [constructor|assumption].
    - destruct (tidy_written _ _ _ _ _ W HT) as [g [u [T2 [-> [He [Hw Ht]]]]]]. exists [g], u, T2.
      split; [reflexivity|]. split; [constructor; [assumption|constructor]|]. split; [constructor; assumption|assumption].
    - rewrite <- !app_assoc in HT. destruct (tidy_written _ _ _ _ _ W HT) as [g [v [T2 [-> [He [Hw Ht]]]]]].
      destruct (tidy_plain _ _ _ _ comma_cr Ht) as [T3 [-> Ht3]]. destruct (IH _ _ _ Ht3) as [gs [u' [T4 [-> [Hes [Hl Ht4]]]]]].
      exists (g :: gs), (v ++ comma ++ u'), T4. split; [rewrite <- !app_assoc; reflexivity|]. split; [constructor; assumption|]. split; [|assumption].
      constructor; try assumption. intros ->. inversion Hes; subst. congruence.
  Qed.
  Lemma tidy_table : forall fin rows d, table_text comma rows d -> forall T, tidy fin d T ->
    exists rows', Forall2 (Forall2 endings) rows rows' /\ table_text comma rows' T.
  Proof.
    intros fin. induction 1 as [|fs t rows u L H IH]; intros T HT.
    - inversion HT; subst. exists []. split; constructor.
    - destruct (tidy_line _ _ L _ _ _ HT) as [gs [v [T2 [-> [He [Hl Ht]]]]]]. inversion Ht; subst.
      match goal with X : tidy fin u _ |- _ => destruct (IH _ X) as [rows' [K1 K2]] end.
      exists (gs :: rows'). split; constructor; assumption.
  Qed.

  Lemma doubled_quoted : forall f X, stops comma X -> quoted lazy comma (doubled f ++ 34%N :: X) f (Closed X).
  Proof.
    intros f X HX. induction f as [|c f IH]; [apply q_close; assumption|]. unfold doubled. cbn [flat_map]. fold (doubled f).
    destruct (N.eqb_spec c 34) as [->|Hc]; cbn [app]; [apply q_two; assumption|apply q_char; assumption].
  Qed.
  Lemma plain_cell : forall f, ~ In 34%N f -> ~ In 10%N f -> ~ occurs comma f -> plain lazy comma f.
  Proof.
    intros f H1 H2 H3. split; [assumption|]. split; [assumption|].
    assert (D : lazy = true \/ lazy = false) by (destruct lazy; auto). destruct D as [-> | ->]; [|assumption].
    intros [r ->]. apply H1. left. reflexivity.
  Qed.
  Lemma line_cells : forall fin fs t, line_text comma fs t -> fs <> [] -> forall r, cells lazy false comma fin (t ++ 10%N :: r) fs None r.
  Proof.
    intros fin. induction 1 as [|f t W|f t fs u Hn W L IH]; intros Hfs r; [congruence| |].
    - destruct W as [f H1 H2 H3 H4|f Hf].
      + apply c_last. apply plain_cell; assumption.
      + cbn [app]. rewrite <- app_assoc. cbn [app]. apply c_quoted. apply doubled_quoted. right. left. eexists. reflexivity.
    - specialize (IH Hn r). destruct W as [f H1 H2 H3 H4|f Hf].
      + rewrite <- !app_assoc. eapply c_next; [|reflexivity|]; [apply plain_cell; assumption|assumption].
      + rewrite <- !app_assoc. cbn [app]. rewrite <- app_assoc. cbn [app]. eapply c_quoted_next; [|reflexivity|eassumption].
        apply (doubled_quoted f (comma ++ u ++ 10%N :: r)). right. right. eexists. reflexivity.
  Qed.
  Lemma written_head : forall f t X, written comma f t -> ~ begins [10%N] X -> ~ begins [10%N] (t ++ X).
  Proof.
    intros f t X W HX [r E]. destruct W as [f H1 H2 H3 H4|f Hf]; [|discriminate]. destruct f as [|c f]; [apply HX; exists r; assumption|].
    injection E as E _. apply H2. left. auto.
  Qed.
  Lemma line_head : forall fs t, line_text comma fs t ->
    if blank_row fs then t = [] else t <> [] /\ forall r, ~ begins [10%N] (t ++ 10%N :: r).
  Proof.
    intros fs t H. destruct H as [|f t W|f t fs u Hn W L].
    - reflexivity.
    - destruct W as [f H1 H2 H3 H4|f Hf].
      + destruct f as [|c f]; [reflexivity|]. cbn [blank_row]. split; [discriminate|]. intros r [x E]. injection E as E _. apply H2. left. auto.
      + destruct f as [|c f]; [congruence|]. cbn [blank_row]. split; [discriminate|]. intros r [x E]. discriminate.
    - assert (B : blank_row (f :: fs) = false) by (destruct f; destruct fs; reflexivity || congruence). rewrite B. split; [destruct t; discriminate|].
      intros r. rewrite <- app_assoc. eapply written_head; [eassumption|]. intros [x E]. injection E as E _. apply comma_lf. left. auto.
  Qed.
  Lemma answers_blank : forall fin w T l, answers lazy false comma fin w T l -> answers lazy false comma fin w (10%N :: T) l.
  Proof.
    intros fin w T l H. destruct H.
    - constructor.
    - eapply an_end; [apply r_blank; eassumption|assumption].
    - eapply an_flaw; [apply r_blank; eassumption|assumption].
    - eapply an_row; [apply r_blank; eassumption|assumption|assumption].
    - eapply an_count; [apply r_blank; eassumption|assumption|assumption|assumption].
  Qed.
  Theorem table_answers : forall rows T, table_text comma rows T -> forall w k,
    answers lazy false comma EOF w T (counted w rows ++ repeat End k).
  Proof.
    induction 1 as [|fs t rows u L H IH]; intros w k.
    - cbn [counted app]. induction k as [|k IHk]; [constructor|]. cbn [repeat]. apply an_end with []; [constructor; reflexivity|assumption].
    - cbn [counted]. pose proof (line_head _ _ L) as B. destruct (blank_row fs) eqn:E.
      + subst t. apply answers_blank. apply IH.
      + destruct B as [B1 B2]. assert (Hfs : fs <> []) by (intros ->; discriminate).
        assert (R : record lazy false comma EOF (t ++ 10%N :: u) (Some (fs, None)) u).
        { eapply r_cells; [intros [X _]; destruct t; discriminate|apply B2|reflexivity|apply line_cells; assumption]. }
        cbn [app]. destruct (Z.leb_spec w 0) as [Hw|Hw]; cbn [orb].
        * eapply an_row; [eassumption|left; assumption|]. apply IH.
        * assert (Hw0 : (w =? 0)%Z = false) by (apply Z.eqb_neq; lia).
          destruct (Z.eqb_spec w (Z.of_nat (length fs))) as [Hw2|Hw2].
          -- eapply an_row; [eassumption|right; assumption|]. apply IH.
          -- rewrite Hw0. eapply an_count; [eassumption|assumption|assumption|]. apply IH.
  Qed.
End Table.
Lemma answers_firstn : forall lazy trim comma fin n w T l, answers lazy trim comma fin w T l -> answers lazy trim comma fin w T (firstn n l).
Proof.
  induction n as [|n IH]; intros w T l H; [constructor|]. destruct H; cbn [firstn].
  - constructor.
  - eapply an_end; eauto.
  - eapply an_flaw; eauto.
  - eapply an_row; eauto.
  - eapply an_count; eauto.
Qed.
