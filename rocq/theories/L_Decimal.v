(** Lemmas on decimal text. *)
From Verif Require Import Base M_Decimal.

Lemma dec_val_app : forall a b, dec_val (a ++ b) = fold_left (fun a c => a * 10 + (c - 48))%N b (dec_val a).
Proof. intros. unfold dec_val. now rewrite fold_left_app. Qed.
Lemma dec_val_snoc : forall a c, dec_val (a ++ [c]) = (dec_val a * 10 + (c - 48))%N.
Proof. intros. now rewrite dec_val_app. Qed.

Lemma size_nat_size : forall x, N.of_nat (N.size_nat x) = N.size x.
Proof.
  intros [|p]; [reflexivity|]. change (N.of_nat (Pos.size_nat p) = N.pos (Pos.size p)).
  induction p; cbn [Pos.size_nat Pos.size]; lia.
Qed.
Lemma size_nat_lt : forall a b, (0 < a)%N -> (2 * a <= b)%N -> (N.size_nat a < N.size_nat b)%nat.
Proof.
  intros a b Ha H. assert (N.size a < N.size b)%N.
  { rewrite !N.size_log2 by lia. pose proof (N.log2_le_mono _ _ H). rewrite N.log2_double in H0 by lia. lia. }
  rewrite <- !size_nat_size in H0. lia.
Qed.

Lemma dec_rev_spec : forall fuel n, (N.size_nat n < fuel)%nat ->
  dec_val (rev (dec_rev fuel n)) = n /\ forallb is_digit (rev (dec_rev fuel n)) = true /\ dec_rev fuel n <> [] /\
  (forall c t, rev (dec_rev fuel n) = c :: t -> c = 48%N -> t = []).
Proof.
  induction fuel as [|f IH]; [lia|]. intros n Hn. cbn [dec_rev].
  assert (Hm : (n mod 10 < 10)%N) by (apply N.mod_lt; lia).
  pose proof (N.div_mod n 10 ltac:(lia)) as E.
  assert (D : is_digit (48 + n mod 10)%N = true)
    by (remember (n mod 10)%N as m; unfold is_digit; apply andb_true_iff; split; apply N.leb_le; lia).
  destruct (N.eqb_spec (n / 10) 0) as [Q|Q].
  - cbn [rev app]. split; [|split; [|split]].
    + unfold dec_val. cbn [fold_left]. rewrite Q in E. clear - E. remember (n mod 10)%N as r. lia.
    + cbn [forallb]. now rewrite D.
    + easy.
    + intros c t H _. congruence.
  - assert (S : (N.size_nat (n / 10) < f)%nat).
    { apply Nat.lt_le_trans with (N.size_nat n); [|lia]. apply size_nat_lt; [lia|]. remember (n / 10)%N as q. remember (n mod 10)%N as r. lia. }
    destruct (IH _ S) as (V & F & NE & LZ). cbn [rev]. split; [|split; [|split]].
    + rewrite dec_val_snoc, V. clear - E. remember (n / 10)%N as q. remember (n mod 10)%N as r. lia.
    + rewrite forallb_app, F. cbn [forallb]. now rewrite D.
    + easy.
    + intros c t H Hc. destruct (rev (dec_rev f (n / 10))) as [|c' t'] eqn:R.
      * apply (f_equal (@rev N)) in R. rewrite rev_involutive in R. cbn in R. contradiction.
      * cbn in H. injection H as -> <-. pose proof (LZ _ _ eq_refl Hc) as ->.
        unfold dec_val in V. cbn in V. subst c. cbn in V. lia.
Qed.

Lemma dec_val_dec : forall n, dec_val (dec n) = n.
Proof. intros. unfold dec. destruct (dec_rev_spec (S (N.size_nat n)) n) as (V & _); [lia|assumption]. Qed.
Lemma dec_digits : forall n, forallb is_digit (dec n) = true.
Proof. intros. unfold dec. destruct (dec_rev_spec (S (N.size_nat n)) n) as (_ & F & _); [lia|assumption]. Qed.
Lemma dec_nonempty : forall n, dec n <> [].
Proof.
  intros n H. unfold dec in H. destruct (dec_rev_spec (S (N.size_nat n)) n) as (_ & _ & F & _); [lia|].
  apply F. apply (f_equal (@rev N)) in H. rewrite rev_involutive in H. exact H.
Qed.
Lemma dec_no_leading_zero : forall n c t, dec n = c :: t -> c = 48%N -> t = [].
Proof. intros n c t. unfold dec. destruct (dec_rev_spec (S (N.size_nat n)) n) as (_ & _ & _ & F); [lia|]. apply F. Qed.
Lemma dec_inj : forall a b, dec a = dec b -> a = b.
Proof. intros a b H. rewrite <- (dec_val_dec a), <- (dec_val_dec b). now f_equal. Qed.

Lemma parse_digits_dec : forall n, parse_digits (dec n) = Some n.
Proof.
  intros. unfold parse_digits. pose proof (dec_nonempty n). pose proof (dec_val_dec n). pose proof (dec_digits n).
  destruct (dec n) as [|c r]; [contradiction|]. rewrite H1. now rewrite H0.
Qed.
Lemma dec_head : forall n c t, dec n = c :: t -> (48 <= c <= 57)%N.
Proof.
  intros n c t H. pose proof (dec_digits n) as D. rewrite H in D. cbn in D. apply andb_true_iff in D as [D _].
  unfold is_digit in D. apply andb_true_iff in D as [A B]. apply N.leb_le in A, B. lia.
Qed.
Lemma parse_signed_itoa : forall z, parse_signed (itoa z) = Some z.
Proof.
  intros z. unfold itoa. destruct (Z.ltb_spec z 0) as [H|H].
  - unfold parse_signed. rewrite N.eqb_refl, parse_digits_dec. cbn [option_map]. f_equal. rewrite N2Z.inj_abs_N. lia.
  - pose proof (parse_digits_dec (Z.to_N z)) as P. destruct (dec (Z.to_N z)) as [|c t] eqn:E; [discriminate|].
    pose proof (dec_head _ _ _ E). unfold parse_signed.
    destruct (N.eqb_spec c 45); [lia|]. destruct (N.eqb_spec c 43); [lia|]. rewrite P. cbn [option_map]. f_equal. lia.
Qed.
Lemma parse_int64_itoa : forall z, in_int64 z = true -> parse_int64 (itoa z) = Some z.
Proof. intros z H. unfold parse_int64. now rewrite parse_signed_itoa, H. Qed.
Lemma itoa_inj : forall a b, itoa a = itoa b -> a = b.
Proof. intros a b H. apply (f_equal parse_signed) in H. rewrite !parse_signed_itoa in H. congruence. Qed.
Lemma itoa_nonempty : forall z, itoa z <> [].
Proof. intros z. unfold itoa. destruct (z <? 0)%Z; [easy|apply dec_nonempty]. Qed.
Lemma digit_range : forall c, is_digit c = true -> (48 <= c <= 57)%N.
Proof. intros c D. unfold is_digit in D. apply andb_true_iff in D as [A B]. apply N.leb_le in A, B. lia. Qed.
Lemma dec_in : forall n c, In c (dec n) -> (48 <= c <= 57)%N.
Proof. intros n c H. pose proof (dec_digits n) as D. rewrite forallb_forall in D. apply digit_range. auto. Qed.
Lemma itoa_in : forall z c, In c (itoa z) -> c = 45%N \/ (48 <= c <= 57)%N.
Proof. intros z c. unfold itoa. destruct (z <? 0)%Z; intros H; [destruct H as [<-|H]; [now left|]|]; right; eapply dec_in; eauto. Qed.

(** A digit list without a leading zero is the decimal text of its value. *)
Lemma dec_val_lt : forall s, forallb is_digit s = true -> (dec_val s < 10 ^ N.of_nat (length s))%N.
Proof.
  induction s as [|c s IH] using rev_ind; intros H; [cbn; lia|].
  rewrite forallb_app in H. apply andb_true_iff in H as [H1 H2]. cbn in H2. rewrite andb_true_r in H2.
  apply digit_range in H2. rewrite dec_val_snoc, app_length. cbn [length].
  replace (N.of_nat (length s + 1)) with (N.succ (N.of_nat (length s))) by lia. rewrite N.pow_succ_r'. specialize (IH H1). lia.
Qed.
Lemma dec_val_cons_ge : forall s c, forallb is_digit s = true -> (48 < c)%N -> (10 ^ N.of_nat (length s) <= dec_val (c :: s))%N.
Proof.
  induction s as [|d s IH] using rev_ind; intros c H Hc.
  - unfold dec_val. cbn. lia.
  - rewrite forallb_app in H. apply andb_true_iff in H as [H1 H2]. cbn in H2. rewrite andb_true_r in H2.
    apply digit_range in H2. change (c :: s ++ [d]) with ((c :: s) ++ [d]). rewrite dec_val_snoc, app_length. cbn [length].
    replace (N.of_nat (length s + 1)) with (N.succ (N.of_nat (length s))) by lia. rewrite N.pow_succ_r'. specialize (IH c H1 Hc). lia.
Qed.
Lemma digits_same_length : forall a b, length a = length b -> forallb is_digit a = true -> forallb is_digit b = true ->
  dec_val a = dec_val b -> a = b.
Proof.
  induction a as [|c a IH] using rev_ind; intros b L A B V.
  - destruct b; [reflexivity|discriminate].
  - destruct b as [|d b _] using rev_ind; [rewrite app_length in L; cbn in L; lia|].
    rewrite !app_length in L. cbn in L. rewrite forallb_app in A, B.
    apply andb_true_iff in A as [A1 A2]. apply andb_true_iff in B as [B1 B2]. cbn in A2, B2. rewrite andb_true_r in A2, B2.
    apply digit_range in A2, B2. rewrite !dec_val_snoc in V.
    assert (c = d /\ dec_val a = dec_val b) as [-> V'] by lia. f_equal. apply IH; auto; lia.
Qed.
Lemma dec_of_val : forall s, s <> [] -> forallb is_digit s = true -> (forall t, s = 48%N :: t -> t = []) -> dec (dec_val s) = s.
Proof.
  assert (LE : forall a b, a <> [] -> b <> [] -> forallb is_digit a = true -> forallb is_digit b = true ->
    (forall t, b = 48%N :: t -> t = []) -> dec_val a = dec_val b -> (length b <= length a)%nat).
  { intros a b NA NB A B LB V. destruct b as [|c b]; [contradiction|]. cbn in B. apply andb_true_iff in B as [B1 B2].
    apply digit_range in B1. destruct (N.eq_dec c 48) as [->|].
    - rewrite (LB _ eq_refl). destruct a; [contradiction|cbn; lia].
    - pose proof (dec_val_cons_ge b c B2 ltac:(lia)). pose proof (dec_val_lt a A). rewrite <- V in H.
      assert (10 ^ N.of_nat (length b) < 10 ^ N.of_nat (length a))%N by lia. apply N.pow_lt_mono_r_iff in H1; [|lia]. cbn. lia. }
  intros s NE D LZ. pose proof (dec_nonempty (dec_val s)). pose proof (dec_digits (dec_val s)). pose proof (dec_val_dec (dec_val s)).
  assert (LZ' : forall t, dec (dec_val s) = 48%N :: t -> t = []) by (intros t E; eapply dec_no_leading_zero; eauto).
  apply digits_same_length; auto. pose proof (LE _ _ H NE H0 D LZ H1). pose proof (LE _ _ NE H D H0 LZ' (eq_sym H1)). lia.
Qed.
Lemma dec_length : forall n k, (0 < k)%nat -> (n < 10 ^ N.of_nat k)%N -> (length (dec n) <= k)%nat.
Proof.
  intros n k Hk H. destruct (dec n) as [|c t] eqn:E; [cbn; lia|]. destruct (N.eq_dec c 48) as [->|Hc].
  - rewrite (dec_no_leading_zero _ _ _ E eq_refl). cbn. lia.
  - pose proof (dec_head _ _ _ E). pose proof (dec_digits n) as D. rewrite E in D. cbn in D. apply andb_true_iff in D as [_ D].
    pose proof (dec_val_cons_ge t c D ltac:(lia)) as G. rewrite <- E, dec_val_dec in G.
    assert (L : (10 ^ N.of_nat (length t) < 10 ^ N.of_nat k)%N) by lia. apply N.pow_lt_mono_r_iff in L; [|lia]. cbn. lia.
Qed.
