(** A CSV text has one reading. *)
From Coq Require Import ZArith Lia.
From Verif Require Import Base M_Utf8 S_Utf8 L_Utf8 M_CsvText S_Csv L_CsvText.

Section Unique.
  Variable lazy trim : bool.
  Variable h : N.
  Variable ct : bytes.
  Variable fin : err.
  Hypothesis unbordered : ~ In h ct.
  Hypothesis comma_lf : ~ In 10%N (h :: ct).
  Hypothesis comma_quote : ~ In 34%N (h :: ct).
  Notation comma := (h :: ct).
  Notation plain := (plain lazy comma).
  Notation quoted := (quoted lazy comma).
  Notation cells := (cells lazy trim comma fin).
  Notation after := (after lazy trim comma fin).
  Notation record := (record lazy trim comma fin).
  Notation answers := (answers lazy trim comma fin).

  Lemma line_rest_fun : forall T r1 r2, line_rest T r1 -> line_rest T r2 -> r1 = r2.
  Proof.
    intros T r1 r2 [[a [-> Ha]]|[H ->]] [[b [E Hb]]|[H2 ->]].
    - revert b E Hb. induction a as [|x a IH]; intros b E Hb; destruct b as [|y b].
      + injection E as ->. reflexivity.
      + injection E as E _. exfalso. apply Hb. left. auto.
      + injection E as E _. exfalso. apply Ha. left. auto.
      + injection E as _ E. apply (IH (fun X => Ha (or_intror X)) b E). intros X. apply Hb. right. assumption.
    - exfalso. apply H2. apply in_app_iff. right. left. reflexivity.
    - exfalso. apply H. rewrite E. apply in_app_iff. right. left. reflexivity.
    - reflexivity.
  Qed.
  Lemma no_stop_quote : forall T, ~ stops comma (34%N :: T).
  Proof.
    intros T [X|[[r X]|[r X]]]; [discriminate|discriminate|]. injection X as X _. apply comma_quote. left. auto.
  Qed.
  Lemma quoted_fun : forall T v1 q1, quoted T v1 q1 -> forall v2 q2, quoted T v2 q2 -> v1 = v2 /\ q1 = q2.
  Proof.
    induction 1 as [c T v o Hc H IH|T v o H IH|T Hs|T v o Hs Hq Hl H IH|T r Hs Hq Hl Hr|]; intros v2 q2 H2; inversion H2; subst; try congruence;
      try (exfalso; eapply no_stop_quote; eassumption); try (exfalso; match goal with H : ~ begins [34%N] (34%N :: _) |- _ => apply H; eexists; reflexivity end).
    - match goal with H : quoted T _ _ |- _ => destruct (IH _ _ H) as [-> ->] end. auto.
    - match goal with H : quoted T _ _ |- _ => destruct (IH _ _ H) as [-> ->] end. auto.
    - auto.
    - clear H. match goal with H : S_Csv.quoted _ _ _ _ _ |- _ => destruct (IH _ _ H) as [-> ->] end. auto.
    - split; [reflexivity|]. f_equal. eapply line_rest_fun; eassumption.
    - auto.
  Qed.
  Definition cut (X : bytes) : Prop := X = [] \/ begins [10%N] X \/ begins comma X \/ lazy = false /\ begins [34%N] X.
  Lemma app_split : forall (a b c d : bytes), a ++ b = c ++ d -> exists l, (a = c ++ l /\ d = l ++ b) \/ (c = a ++ l /\ b = l ++ d).
  Proof.
    induction a as [|x a IH]; intros b c d E.
    - exists c. right. auto.
    - destruct c as [|y c]; [exists (x :: a); left; auto|]. injection E as -> E. destruct (IH _ _ _ E) as [l [[-> ->]|[-> ->]]]; exists l; auto.
  Qed.
  Lemma plain_longer : forall f l X1 X2, plain (f ++ l) -> cut X1 -> cut X2 -> X2 = l ++ X1 -> l = [].
  Proof.
    intros f l X1 X2 [P1 [P2 P3]] C1 C2 E. destruct l as [|c l]; [reflexivity|]. exfalso.
    destruct C2 as [->|[[r ->]|[[r ->]|[Hl [r ->]]]]]; [discriminate| | |].
    - injection E as <- _. apply P1. apply in_app_iff. right. left. reflexivity.
    - destruct (app_split _ _ _ _ E) as [m [[Em EX]|[Em EX]]].
      + cbn [app] in Em. injection Em as <- Em. destruct m as [|z m].
        * rewrite app_nil_r in Em. apply P2. exists f, []. rewrite app_nil_r, Em. reflexivity.
        * assert (Hz : In z ct) by (rewrite Em; apply in_app_iff; right; left; reflexivity).
          destruct C1 as [->|[[y ->]|[[y ->]|[_ [y ->]]]]]; [discriminate| | |]; injection EX as <- _.
          -- apply comma_lf. right. assumption.
          -- contradiction.
          -- apply comma_quote. right. assumption.
      + apply P2. exists f, m. rewrite Em. reflexivity.
    - rewrite Hl in P3. injection E as <- _. apply P3. apply in_app_iff. right. left. reflexivity.
  Qed.
  Lemma plain_front : forall f1 X1 f2 X2, plain f1 -> plain f2 -> cut X1 -> cut X2 -> f1 ++ X1 = f2 ++ X2 -> f1 = f2 /\ X1 = X2.
  Proof.
    intros f1 X1 f2 X2 P1 P2 C1 C2 E. destruct (app_split _ _ _ _ E) as [l [[-> ->]|[-> ->]]].
    - assert (l = []) by (eapply plain_longer; [exact P1|exact C1|exact C2|reflexivity]). subst l. rewrite app_nil_r. auto.
    - assert (l = []) by (eapply plain_longer; [exact P2|exact C2|exact C1|reflexivity]). subst l. rewrite app_nil_r. auto.
  Qed.
  Lemma plain_no_quote : forall f, plain f -> ~ begins [34%N] f.
  Proof.
    intros f [_ [_ H]]. unfold plain in *. destruct lazy; [assumption|]. intros [r ->]. apply H. left. reflexivity.
  Qed.
  Lemma cells_inv : forall T fs o r, cells T fs o r ->
    (exists f X, T = f ++ X /\ plain f /\ ~ begins [34%N] T /\
      ((X = 10%N :: r /\ fs = [f] /\ o = None) \/ (X = [] /\ fs = [f] /\ at_end fin o /\ r = []) \/
       (exists T' Y fs', X = comma ++ T' /\ fs = f :: fs' /\ skips trim T' Y /\ cells Y fs' o r) \/
       (exists T', X = 34%N :: T' /\ lazy = false /\ fs = [] /\ o = Some BareQuote /\ line_rest T' r))) \/
    (exists T0 v q, T = 34%N :: T0 /\ quoted T0 v q /\ after v q fs o r).
  Proof.
    assert (Q : forall f X, plain f -> ~ begins [34%N] X -> ~ begins [34%N] (f ++ X)).
    { intros f X Hf HX [r E]. destruct f as [|c f]; [apply HX; exists r; assumption|]. injection E as -> E.
      apply (plain_no_quote _ Hf). eexists. reflexivity. }
    intros T fs o r H. destruct H.
    - left. exists f, (10%N :: r). split; [reflexivity|]. split; [assumption|]. split; [apply Q; [assumption|intros [y E]; discriminate]|auto].
    - left. exists f, []. rewrite app_nil_r. split; [reflexivity|]. split; [assumption|]. split; [apply plain_no_quote; assumption|right; left; auto].
    - left. exists f, (comma ++ T). split; [reflexivity|]. split; [assumption|]. split.
      + apply Q; [assumption|]. intros [y E]. injection E as -> E. apply comma_quote. left. reflexivity.
      + right. right. left. exists T, T', fs. auto.
    - left. exists f, (34%N :: T). split; [reflexivity|]. split; [assumption|]. split; [|right; right; right; exists T; auto].
      intros [y E]. destruct f as [|c f]; [congruence|]. injection E as -> E. eapply plain_no_quote; [eassumption|eexists; reflexivity].
    - right. exists T, v. eexists. split; [reflexivity|]. split; [eassumption|constructor].
    - right. exists T, v. eexists. split; [reflexivity|]. split; [eassumption|constructor; assumption].
    - right. exists T, v. eexists. split; [reflexivity|]. split; [eassumption|econstructor; eassumption].
    - right. exists T, v. eexists. split; [reflexivity|]. split; [eassumption|constructor].
    - right. exists T, v. eexists. split; [reflexivity|]. split; [eassumption|constructor; assumption].
    - right. exists T, v. eexists. split; [reflexivity|]. split; [eassumption|constructor; assumption].
    - right. exists T, v. eexists. split; [reflexivity|]. split; [eassumption|constructor; assumption].
  Qed.
  Lemma at_end_fun : forall o1 o2, at_end fin o1 -> at_end fin o2 -> o1 = o2.
  Proof. intros o1 o2 [[? ->]|[? ->]] [[? ->]|[? ->]]; congruence. Qed.
  Lemma quoted_shorter : forall T v q, quoted T v q -> forall X, q = Closed X -> (length X < length T)%nat.
  Proof. induction 1; intros X E; try discriminate; cbn [length]; try (specialize (IHquoted _ E); lia). injection E as ->. lia. Qed.
  Definition same_cells (fs1 fs2 : list bytes) (o : option flaw) : Prop := fs1 = fs2 \/ o = Some (Source fin).
  Lemma skips_fun : forall T X1 X2, skips trim T X1 -> skips trim T X2 -> X1 = X2.
  Proof.
    unfold skips. destruct trim; [|intros; congruence]. intros T X1 X2 [p1 [E1 [[rs1 [R1 ->]] N1]]] [p2 [E2 [[rs2 [R2 ->]] N2]]]. rewrite E1 in E2. clear E1 T.
    revert rs2 R2 E2. induction R1 as [|r rs1 Hr R1 IH]; intros rs2 R2 E.
    - destruct R2 as [|r2 rs2 Hr2 R2]; [exact E|]. exfalso. apply (N1 r2 Hr2). cbn [flat_map app] in E. rewrite E, <- app_assoc. eexists. reflexivity.
    - destruct R2 as [|r2 rs2 Hr2 R2]; [exfalso; apply (N2 r Hr); cbn [flat_map app] in E; rewrite <- E, <- app_assoc; eexists; reflexivity|].
      cbn [flat_map] in E. rewrite <- !app_assoc in E. assert (Er : r = r2).
      { apply (f_equal decode_rune) in E. rewrite !decode_encode in E by (apply blank_space; assumption). congruence. }
      subst r2. apply app_inv_head in E. apply (IH rs2 R2 E).
  Qed.
  Lemma skips_length : forall T X, skips trim T X -> (length X <= length T)%nat.
  Proof. unfold skips. intros T X H. destruct trim; [destruct H as [p [-> _]]; rewrite app_length; lia|subst; lia]. Qed.
  Lemma cells_fun : forall n T fs1 o1 r1 fs2 o2 r2, (length T < n)%nat -> cells T fs1 o1 r1 -> cells T fs2 o2 r2 ->
    o1 = o2 /\ r1 = r2 /\ same_cells fs1 fs2 o1.
  Proof.
    assert (C : forall X (r : bytes), (X = 10%N :: r \/ X = [] \/ (exists T', X = comma ++ T') \/ (exists T', X = 34%N :: T' /\ lazy = false)) -> cut X).
    { intros X r [->|[->|[[T' ->]|[T' [-> Hl]]]]].
      - right. left. eexists. reflexivity.
      - left. reflexivity.
      - right. right. left. eexists. reflexivity.
      - right. right. right. split; [assumption|]. eexists. reflexivity. }
    induction n as [|n IH]; intros T fs1 o1 r1 fs2 o2 r2 Hn H1 H2; [lia|].
    destruct (cells_inv _ _ _ _ H1) as [[f1 [X1 [E1 [P1 [Q1 K1]]]]]|[T1 [v1 [q1 [E1 [Q1 A1]]]]]];
    destruct (cells_inv _ _ _ _ H2) as [[f2 [X2 [E2 [P2 [Q2 K2]]]]]|[T2 [v2 [q2 [E2 [Q2 A2]]]]]].
    - subst T. destruct (plain_front f1 X1 f2 X2 P1 P2) as [<- <-]; [| |assumption|].
      { eapply C. destruct K1 as [[-> _]|[[-> _]|[[T' [Y [fs' [-> _]]]]|[T' [-> [Hl _]]]]]]; eauto 6. }
      { eapply C. destruct K2 as [[-> _]|[[-> _]|[[T' [Y [fs' [-> _]]]]|[T' [-> [Hl _]]]]]]; eauto 6. }
      clear E2. unfold same_cells.
      destruct K1 as [[-> [-> ->]]|[[-> [-> [G1 ->]]]|[[T' [Y [fs' [-> [-> [K1 G1]]]]]]|[T' [-> [Hl [-> [-> G1]]]]]]]];
      destruct K2 as [[E [-> ->]]|[[E [-> [G2 ->]]]|[[T2 [Y2 [fs2' [E [-> [K2 G2]]]]]]|[T2 [E [_ [-> [-> G2]]]]]]]]; try discriminate.
      + injection E as ->. auto.
      + exfalso. injection E as E _. apply comma_lf. left. auto.
      + split; [apply at_end_fun; assumption|auto].
      + exfalso. injection E as E _. apply comma_lf. left. auto.
      + apply app_inv_head in E. subst T2.
        pose proof (skips_fun _ _ _ K1 K2) as EY. subst Y2. pose proof (skips_length _ _ K1) as HY.
        destruct (IH Y fs' o1 r1 fs2' o2 r2) as [-> [-> [->|S]]]; [rewrite !app_length in Hn; cbn [length] in Hn; lia|assumption|assumption|auto|auto].
      + exfalso. injection E as E _. apply comma_quote. left. auto.
      + exfalso. injection E as E _. apply comma_quote. left. auto.
      + injection E as ->. split; [reflexivity|]. split; [eapply line_rest_fun; eassumption|auto].
    - exfalso. apply Q1. rewrite E2. eexists. reflexivity.
    - exfalso. apply Q2. rewrite E1. eexists. reflexivity.
    - rewrite E1 in E2. injection E2 as <-. destruct (quoted_fun _ _ _ Q1 _ _ Q2) as [<- <-]. unfold same_cells.
      inversion A1; subst; inversion A2; subst; try congruence; auto.
      + exfalso. apply comma_lf. left. auto.
      + split; [apply at_end_fun; assumption|auto].
      + exfalso. apply comma_lf. left. auto.
      + match goal with H : ct ++ _ = ct ++ _ |- _ => apply app_inv_head in H; subst end. idtac.
        match goal with A : skips trim T2 ?x, B : skips trim T2 ?y |- _ => pose proof (skips_fun _ _ _ A B) as EY; subst y; pose proof (skips_length _ _ A) as HY; destruct (IH x fs o1 r1 fs0 o2 r2) as [-> [-> [->|S]]]; auto end.
        pose proof (quoted_shorter _ _ _ Q1 _ eq_refl) as HL. rewrite app_length in HL. cbn [length] in *. lia.
  Qed.
  Lemma record_fun : forall T o1 r1, record T o1 r1 -> forall o2 r2, record T o2 r2 ->
    r1 = r2 /\ match o1, o2 with
               | None, None => True
               | Some (fs1, x1), Some (fs2, x2) => x1 = x2 /\ same_cells fs1 fs2 x1
               | _, _ => False
               end.
  Proof.
    induction 1 as [Hf|T o r H IH|T T' fs o r Hn Hlf Hs H]; intros o2 r2 H2; inversion H2; subst.
    - auto.
    - exfalso. tauto.
    - auto.
    - exfalso. match goal with H : ~ begins _ _ |- _ => apply H; eexists; reflexivity end.
    - exfalso. tauto.
    - exfalso. apply Hlf. eexists. reflexivity.
    - match goal with A : skips trim T ?x, B : skips trim T ?y |- _ => pose proof (skips_fun _ _ _ A B) as EY; subst y end.
      match goal with H1 : cells ?x _ _ _, H2 : cells ?x _ _ _ |- _ => destruct (cells_fun _ _ _ _ _ _ _ _ (Nat.lt_succ_diag_r _) H1 H2) as [? [? ?]] end. auto.
  Qed.
  Lemma source_end : forall T fs e r, cells T fs (Some (Source e)) r -> e = fin /\ r = [] /\ fin <> EOF.
  Proof.
    intros T fs e r H. remember (Some (Source e)) as o eqn:E. induction H; try discriminate; auto;
      try (match goal with H : at_end _ _ |- _ => destruct H as [[? ->]|[? ->]] end; [discriminate|injection E as <-; auto]).
    injection E as <-. auto.
  Qed.
  Lemma cells_nil : forall T fs o r, cells T fs o r -> T = [] -> at_end fin o /\ r = [].
  Proof.
    intros T fs o r H E. destruct H; try discriminate E; auto; destruct f; discriminate E.
  Qed.
  Lemma failed_answers : forall w T l, answers w T l -> T = [] -> fin <> EOF -> l = repeat (Flaw (Source fin)) (length l).
  Proof.
    assert (R : forall fs o r, record [] (Some (fs, o)) r -> fin <> EOF -> o = Some (Source fin) /\ r = []).
    { intros fs o r H Hf. inversion H; subst. match goal with A : skips trim [] ?x |- _ => assert (E : x = []) by (apply skips_length in A; destruct x; [reflexivity|cbn [length] in A; lia]); subst x end.
      match goal with H : cells [] _ _ _ |- _ => destruct (cells_nil _ _ _ _ H eq_refl) as [[[? _]|[_ ->]] ->] end; [contradiction|auto]. }
    induction 1 as [|w T r l H HA IH|w T fs f r l H HA IH|w T fs r l H Hw HA IH|w T fs r l H Hw Hw2 HA IH]; intros E Hf; [reflexivity| | | |]; subst T.
    - inversion H; subst. contradiction.
    - destruct (R _ _ _ H Hf) as [E ->]. injection E as ->. cbn [length repeat]. f_equal. auto.
    - destruct (R _ _ _ H Hf) as [E _]. discriminate.
    - destruct (R _ _ _ H Hf) as [E _]. discriminate.
  Qed.
  Lemma source_record : forall T x r, record T x r -> forall fs e, x = Some (fs, Some (Source e)) -> e = fin /\ r = [] /\ fin <> EOF.
  Proof.
    induction 1; intros fs' e E; try discriminate; [eauto|]. injection E as -> ->. eapply source_end. eassumption.
  Qed.
  Theorem answers_fun : forall l1 l2 w T, answers w T l1 -> answers w T l2 -> length l1 = length l2 -> l1 = l2.
  Proof.
    assert (D : forall w w2 l1 l2, answers w [] l1 -> answers w2 [] l2 -> length l1 = length l2 -> fin <> EOF -> l1 = l2).
    { intros w w2 l1 l2 H1 H2 HL Hf. rewrite (failed_answers _ _ _ H1 eq_refl Hf), (failed_answers _ _ _ H2 eq_refl Hf), HL. reflexivity. }
    induction l1 as [|a l1 IH]; intros l2 w T H1 H2 HL; [destruct l2; [reflexivity|discriminate]|].
    destruct l2 as [|b l2]; [discriminate|]. injection HL as HL.
    inversion H1; subst; inversion H2; subst;
      match goal with R1 : record T _ _, R2 : record T _ _ |- _ => pose proof (record_fun _ _ _ R1 _ _ R2) as [E X] end; try contradiction.
    - rewrite E in *. f_equal. eauto.
    - destruct X as [X S]. injection X as ->. rewrite E in *.
      f_equal. destruct S as [->|S]; [eauto|]. injection S as ->.
      match goal with R1 : record T _ _ |- _ => destruct (source_record _ _ _ R1 _ _ eq_refl) as [_ [Z Hf]] end.
      rewrite Z in *. eauto.
    - destruct X as [X _]. discriminate.
    - destruct X as [X _]. discriminate.
    - destruct X as [X _]. discriminate.
    - destruct X as [_ [->|S]]; [|discriminate]. rewrite E in *. f_equal. eauto.
    - destruct X as [_ [->|S]]; [|discriminate]. exfalso. intuition lia.
    - destruct X as [X _]. discriminate.
    - destruct X as [_ [->|S]]; [|discriminate]. exfalso. intuition lia.
    - destruct X as [_ [->|S]]; [|discriminate]. rewrite E in *. f_equal. eauto.
  Qed.
End Unique.
