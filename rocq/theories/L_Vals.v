From Coq Require Import ZArith Lia.
From Verif Require Import Base M_Decimal L_Decimal M_Formats M_Vals S_Vals.

Lemma bcmp_lt_before : forall a b, bcmp a b = Lt <-> before a b.
Proof.
  induction a as [|x a IH]; intros [|y b]; cbn [bcmp].
  - split; [discriminate|]. intros [[c [r E]]|[p [c [d [u [v [E _]]]]]]]; [discriminate|destruct p; discriminate].
  - split; [|reflexivity]. intros _. left. exists y, b. reflexivity.
  - split; [discriminate|]. intros [[c [r E]]|[p [c [d [u [v [_ [E _]]]]]]]]; [discriminate|destruct p; discriminate].
  - destruct (N.compare_spec x y) as [->|Hl|Hg].
    + rewrite IH. split.
      * intros [[c [r ->]]|[p [c [d [u [v [-> [-> H]]]]]]]]; [left; exists c, r; reflexivity|].
        right. exists (y :: p), c, d, u, v. auto.
      * intros [[c [r E]]|[p [c [d [u [v [E1 [E2 H]]]]]]]]; [left; injection E as ->; exists c, r; reflexivity|].
        destruct p as [|q p]; cbn in E1, E2; injection E1 as -> ->; injection E2; intros; subst; [lia|].
        right. exists p, c, d, u, v. auto.
    + split; [|reflexivity]. intros _. right. exists [], x, y, a, b. auto.
    + split; [discriminate|]. intros [[c [r E]]|[p [c [d [u [v [E1 [E2 H]]]]]]]]; [injection E; intros; subst; lia|].
      destruct p; cbn in E1, E2; injection E1 as -> ->; injection E2; intros; subst; lia.
Qed.

Lemma numeral_parse : forall s n, numeral s n <-> parse_digits s = Some n.
Proof.
  assert (D : forall c, is_digit c = true <-> (48 <= c <= 57)%N).
  { intros c. unfold is_digit. rewrite andb_true_iff, !N.leb_le. reflexivity. }
  split.
  - induction 1 as [c Hc|s n c H IH Hc].
    + cbn [parse_digits forallb]. rewrite (proj2 (D c) Hc). reflexivity.
    + unfold parse_digits in *. destruct s as [|x s]; [discriminate|]. cbn [app].
      change (x :: s ++ [c]) with ((x :: s) ++ [c]). rewrite forallb_app, dec_val_snoc.
      destruct (forallb is_digit (x :: s)) eqn:E; [|discriminate]. injection IH as <-.
      cbn [forallb andb]. rewrite (proj2 (D c) Hc). cbn [andb]. f_equal. lia.
  - revert n. induction s as [|c s IH] using rev_ind; intros n H; [discriminate|].
    assert (PD : parse_digits (s ++ [c]) = if forallb is_digit (s ++ [c]) then Some (dec_val (s ++ [c])) else None) by (destruct s; reflexivity).
    rewrite PD in H. rewrite forallb_app in H. destruct (forallb is_digit s) eqn:E; [|discriminate]. cbn [forallb andb] in H.
    destruct (is_digit c) eqn:Ec; [|discriminate]. cbn [andb] in H. injection H as <-. rewrite dec_val_snoc. apply D in Ec.
    destruct s as [|x s]; [cbn [app]; change (dec_val []) with 0%N; rewrite N.mul_0_l, N.add_0_l; constructor; assumption|].
    replace (dec_val (x :: s) * 10 + (c - 48))%N with (10 * dec_val (x :: s) + (c - 48))%N by lia.
    constructor; [|assumption]. apply IH. unfold parse_digits. rewrite E. reflexivity.
Qed.
Lemma numeral_head : forall s n, numeral s n -> exists c r, s = c :: r /\ (48 <= c <= 57)%N.
Proof.
  induction 1 as [c Hc|s n c H [c0 [r [-> Hc0]]] Hc]; [exists c, []; auto|]. exists c0, (r ++ [c]). auto.
Qed.
Lemma integer_parse : forall s z, integer_text s z <-> parse_signed s = Some z.
Proof.
  split.
  - intros [s0 n H|s0 n H|s0 n H].
    + destruct (numeral_head _ _ H) as [c [r [-> Hc]]]. apply numeral_parse in H. unfold parse_signed.
      replace (N.eqb c 45) with false by (symmetry; apply N.eqb_neq; lia). replace (N.eqb c 43) with false by (symmetry; apply N.eqb_neq; lia).
      rewrite H. reflexivity.
    + apply numeral_parse in H. cbn [parse_signed]. change (N.eqb 43 45) with false. change (N.eqb 43 43) with true. cbn iota. rewrite H. reflexivity.
    + apply numeral_parse in H. cbn [parse_signed]. change (N.eqb 45 45) with true. cbn iota. rewrite H. reflexivity.
  - unfold parse_signed. destruct s as [|c r]; [discriminate|].
    destruct (N.eqb_spec c 45) as [->|]; [|destruct (N.eqb_spec c 43) as [->|]].
    + destruct (parse_digits r) eqn:E; [|discriminate]. intros [= <-]. apply it_minus. apply numeral_parse. assumption.
    + destruct (parse_digits r) eqn:E; [|discriminate]. intros [= <-]. apply it_plus. apply numeral_parse. assumption.
    + destruct (parse_digits (c :: r)) eqn:E; [|discriminate]. intros [= <-]. apply it_plain. apply numeral_parse. assumption.
Qed.
Lemma int64_parse : forall s z, parse_int64 s = Some z <-> integer_text s z /\ int64 z.
Proof.
  intros s z. unfold parse_int64, int64. rewrite integer_parse. destruct (parse_signed s) as [y|]; [|split; [discriminate|intros [E _]; discriminate]].
  unfold in_int64, min_int64, max_int64. destruct (Z.leb_spec (-9223372036854775808) y), (Z.leb_spec y 9223372036854775807); cbn [andb];
    split; try discriminate; try (intros [= <-]; split; [reflexivity|lia]); intros [[= <-] ?]; try reflexivity; lia.
Qed.
