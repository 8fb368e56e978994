(** Lemmas on column names. *)
From Verif Require Import Base M_Columns S_Columns.
From Coq Require Import ZArith Lia.
Open Scope Z_scope.

(** ** ColIndexToLetters, small indexes *)
Definition letters_ok (x : Z) : bool :=
  match col_index_to_letters x with
  | Some w => forallb (fun c => (65 <=? c)%N && (c <=? 90)%N) w && Z.eqb (col_number w) (x + 1)
              && negb (Nat.eqb (length w) 0)
  | None => false
  end.
Fixpoint letters_upto (n : nat) (x : Z) : bool :=
  match n with O => true | S n' => letters_ok x && letters_upto n' (x + 1) end.

Lemma letters_upto_all : forall n x, letters_upto n x = true ->
  forall y, x <= y < x + Z.of_nat n -> letters_ok y = true.
Proof.
  induction n; intros x H y Hy; [lia|].
  simpl in H. apply andb_prop in H as [H1 H2].
  destruct (Z.eq_dec x y); [subst; auto|]. eapply IHn; eauto. lia.
Qed.

Lemma letters_small : letters_upto (26 * 26 * 26) 0 = true.
Proof. vm_compute. reflexivity. Qed.

Lemma letters_ok_spec : forall x, letters_ok x = true ->
  exists w, col_index_to_letters x = Some w /\ w <> [] /\ Forall upper w /\ col_number w = x + 1.
Proof.
  unfold letters_ok. intros x H. destruct (col_index_to_letters x) as [w|]; [|discriminate].
  apply andb_prop in H as [H H3]. apply andb_prop in H as [H1 H2].
  exists w. split; [reflexivity|]. split; [|split].
  - destruct w; [discriminate|congruence].
  - apply Forall_forall. intros c Hc. rewrite forallb_forall in H1. specialize (H1 c Hc).
    apply andb_prop in H1 as [A B]. apply N.leb_le in A, B. unfold upper. lia.
  - apply Z.eqb_eq. exact H2.
Qed.

(** ** ColIndexToLetters, every index *)
Lemma lle_loop_spec : forall fuel x k, 0 <= k -> 0 <= x ->
  (k = 0 \/ 26 ^ k <= x) ->
  x + 1 < 2 ^ (Z.of_nat fuel + k) ->
  exists j, 0 <= j /\ lle_loop fuel x 26 (26 ^ k) (26 ^ (k + 1)) = Some (26 ^ j) /\ x < 26 ^ (j + 1).
Proof.
  induction fuel; intros x k Hk Hx H1 H2.
  - assert (2 ^ k <= 26 ^ k) by (apply Z.pow_le_mono_l; lia).
    simpl in H2. destruct H1 as [->|H1]; [simpl in H2; lia|lia].
  - simpl. destruct (Z.leb_spec (26 ^ (k + 1)) x) as [L|L].
    + replace (26 ^ (k + 1) * 26) with (26 ^ (k + 1 + 1)) by (rewrite (Z.pow_add_r 26 (k+1) 1); lia).
      apply IHfuel; [lia|lia|now right|].
      replace (Z.of_nat fuel + (k + 1)) with (Z.of_nat (S fuel) + k) by lia. exact H2.
    + exists k. repeat split; auto.
Qed.

Lemma lle_spec : forall x, 0 <= x ->
  exists j, 0 <= j /\ largest_lesser_exponent x 26 = Some (26 ^ j) /\ x < 26 ^ (j + 1).
Proof.
  intros x Hx. unfold largest_lesser_exponent.
  apply (lle_loop_spec _ x 0); auto; [lia|].
  rewrite Z.abs_eq by lia.
  pose proof (Z.log2_spec (x + 1) ltac:(lia)) as [_ L].
  eapply Z.lt_le_trans; [exact L|]. apply Z.pow_le_mono_r; [lia|].
  pose proof (Z.log2_nonneg (x + 1)). lia.
Qed.

Lemma b26_loop_spec : forall j fuel x, (j < fuel)%nat -> 0 <= x < 26 ^ (Z.of_nat j + 1) ->
  let l := b26_loop fuel (26 ^ Z.of_nat j) x in
  length l = S j /\ Forall (fun c => 0 <= c < 26) l.
Proof.
  induction j; intros fuel x Hf Hx.
  - destruct fuel; [lia|]. cbn [b26_loop]. change (26 ^ Z.of_nat 0) with 1.
    change (1 <=? 0) with false. cbn iota. replace (Z.quot 1 26) with 0 by reflexivity.
    rewrite Z.quot_1_r. simpl in Hx.
    destruct fuel; simpl; split; auto; constructor; auto; lia.
  - destruct fuel; [lia|]. cbn [b26_loop].
    assert (P : 0 < 26 ^ Z.of_nat j) by (apply Z.pow_pos_nonneg; lia).
    replace (26 ^ Z.of_nat (S j)) with (26 ^ Z.of_nat j * 26) in * by
      (rewrite Nat2Z.inj_succ, Z.pow_succ_r by lia; lia).
    destruct (Z.leb_spec (26 ^ Z.of_nat j * 26) 0); [lia|].
    replace (Z.quot (26 ^ Z.of_nat j * 26) 26) with (26 ^ Z.of_nat j) by (rewrite Z.quot_mul; lia).
    set (D := 26 ^ Z.of_nat j) in *.
    assert (E : 26 ^ (Z.of_nat (S j) + 1) = D * 26 * 26).
    { unfold D. replace (Z.of_nat (S j) + 1) with (Z.of_nat j + 1 + 1) by lia.
      rewrite !Z.pow_add_r by lia. lia. }
    rewrite E in Hx.
    assert (R : 0 <= Z.rem x (D * 26) < D * 26) by (apply Z.rem_bound_pos; lia).
    destruct (IHj fuel (Z.rem x (D * 26)) ltac:(lia)) as [I1 I2].
    { rewrite Z.pow_add_r by lia. fold D. lia. }
    fold D in I1, I2. simpl. split; [now rewrite I1|]. constructor; [|exact I2].
    split; [apply Z.quot_pos; lia|]. apply Z.quot_lt_upper_bound; lia.
Qed.

Lemma int_to_base26_spec : forall x, 0 <= x ->
  exists l, int_to_base26 x = Some l /\ l <> [] /\ Forall (fun c => 0 <= c < 26) l.
Proof.
  intros x Hx. destruct (lle_spec x Hx) as (j & Hj & E & B).
  unfold int_to_base26. rewrite E.
  rewrite <- (Z2Nat.id j Hj) in *. set (n := Z.to_nat j) in *.
  destruct (b26_loop_spec n (S (Z.to_nat (Z.log2 (26 ^ Z.of_nat n + 1)) + 1)) x) as [L F]; auto.
  - assert (Z.of_nat n <= Z.log2 (26 ^ Z.of_nat n + 1)).
    { apply Z.log2_le_pow2; [pose proof (Z.pow_nonneg 26 (Z.of_nat n)); lia|].
      assert (2 ^ Z.of_nat n <= 26 ^ Z.of_nat n) by (apply Z.pow_le_mono_l; lia). lia. }
    lia.
  - eexists. split; [reflexivity|]. split; [|exact F]. intro C. rewrite C in L. discriminate.
Qed.

Lemma smoosh_up_range : forall rest part, 0 <= part <= 26 -> Forall (fun c => 0 <= c < 26) rest ->
  Forall (fun c => 0 <= c <= 26) (smoosh_up part rest).
Proof.
  induction rest as [|g rest IH]; intros part Hp Hr; simpl.
  - constructor; auto.
  - inversion Hr; subst. destruct (Z.eqb_spec part 0); simpl.
    + destruct (Z.ltb_spec 0 g); constructor; try lia; apply IH; auto; lia.
    + constructor; auto. apply IH; auto; lia.
Qed.

Lemma format_app : forall init last, Forall (fun c => 0 <= c <= 26) init -> 0 <= last < 26 ->
  format_column_name (init ++ [last]) <> [] /\ Forall upper (format_column_name (init ++ [last])).
Proof.
  induction init as [|p init IH]; intros last Hi Hl; simpl.
  - split; [congruence|]. constructor; auto. unfold upper. lia.
  - inversion Hi; subst. destruct (IH last H2 Hl) as [A B].
    destruct (init ++ [last]) eqn:E; [destruct init; discriminate|].
    split.
    + intro C. apply app_eq_nil in C. tauto.
    + apply Forall_app. split; [|exact B].
      destruct (Z.ltb_spec 0 p); constructor; auto. unfold upper. lia.
Qed.

Lemma letters_every : forall x, 0 <= x ->
  exists w, col_index_to_letters x = Some w /\ w <> [] /\ Forall upper w.
Proof.
  intros x Hx. destruct (int_to_base26_spec x Hx) as (l & E & N & F).
  unfold col_index_to_letters. rewrite E. eexists. split; [reflexivity|].
  assert (Fr : Forall (fun c => 0 <= c < 26) (rev l)).
  { apply Forall_forall. intros c Hc. rewrite Forall_forall in F. apply F. now apply in_rev. }
  unfold smoosh. destruct (rev l) as [|last r] eqn:R.
  { destruct l; [congruence|]. simpl in R. destruct (rev l); discriminate. }
  inversion Fr; subst. destruct r as [|p r].
  - apply (format_app []); auto.
  - inversion H2; subst. cbn [rev]. apply format_app; auto.
    apply Forall_forall. intros c Hc. apply in_rev in Hc.
    pose proof (smoosh_up_range r p ltac:(lia) H4) as S. rewrite Forall_forall in S. auto.
Qed.

(** ** AbstractColumnName *)
Definition digits_of (d : Z) : list Z := rev (b26_digits (S (Z.to_nat (Z.log2 (Z.abs d)))) d).

Lemma fuel_step : forall d, d <> 0 -> Z.quot d 26 <> 0 ->
  (Z.to_nat (Z.log2 (Z.abs (Z.quot d 26))) < Z.to_nat (Z.log2 (Z.abs d)))%nat.
Proof.
  intros d Hd Hq.
  assert (A : Z.abs (Z.quot d 26) = Z.abs d / 26).
  { rewrite <- Z.quot_abs by lia. change (Z.abs 26) with 26. now rewrite Z.quot_div_nonneg by lia. }
  rewrite A. assert (0 < Z.abs d / 26) by lia.
  assert (Z.log2 (Z.abs d / 26 * 2) <= Z.log2 (Z.abs d)).
  { apply Z.log2_le_mono. pose proof (Z.mul_div_le (Z.abs d) 26). lia. }
  rewrite Z.mul_comm, Z.log2_double in H0 by lia.
  pose proof (Z.log2_nonneg (Z.abs d / 26)). lia.
Qed.

(** Enough fuel: unfold one digit. *)
Lemma b26_digits_fuel : forall f1 f2 d, (Z.to_nat (Z.log2 (Z.abs d)) < f1)%nat ->
  (Z.to_nat (Z.log2 (Z.abs d)) < f2)%nat -> b26_digits f1 d = b26_digits f2 d.
Proof.
  induction f1 as [|f1 IH]; intros f2 d H1 H2; [lia|]. destruct f2 as [|f2]; [lia|].
  cbn [b26_digits]. destruct (Z.eqb_spec d 0); [reflexivity|]. f_equal.
  destruct (Z.eq_dec (Z.quot d 26) 0) as [E|E].
  - rewrite E. destruct f1, f2; reflexivity.
  - pose proof (fuel_step d n E). apply IH; lia.
Qed.

Lemma b26_digits_step : forall fuel d, d <> 0 -> (Z.to_nat (Z.log2 (Z.abs d)) < fuel)%nat ->
  b26_digits fuel d =
  Z.rem d 26 :: (if Z.eqb (Z.quot d 26) 0 then [] else b26_digits (S (Z.to_nat (Z.log2 (Z.abs (Z.quot d 26))))) (Z.quot d 26)).
Proof.
  intros fuel d Hd Hf. remember (S (Z.to_nat (Z.log2 (Z.abs (Z.quot d 26))))) as f' eqn:Ef.
  destruct fuel; [lia|]. cbn [b26_digits]. destruct (Z.eqb_spec d 0); [contradiction|]. f_equal.
  destruct (Z.eqb_spec (Z.quot d 26) 0) as [E|E].
  - rewrite E. destruct fuel; reflexivity.
  - pose proof (fuel_step d Hd E). apply b26_digits_fuel; lia.
Qed.

Lemma digits_step : forall d, d <> 0 ->
  digits_of d = (if Z.eqb (Z.quot d 26) 0 then [] else digits_of (Z.quot d 26)) ++ [Z.rem d 26].
Proof.
  intros d Hd. unfold digits_of at 1. rewrite b26_digits_step by (auto; lia).
  cbn [rev]. destruct (Z.eqb (Z.quot d 26) 0); reflexivity.
Qed.

Lemma base26_value_snoc : forall l c, base26_value (l ++ [c]) = base26_value l * 26 + c.
Proof. intros. unfold base26_value. now rewrite fold_left_app. Qed.

Lemma digits_repr : forall d, 0 < d -> base26_repr (digits_of d) d /\ digits_of d <> [].
Proof.
  intros d. remember (Z.to_nat d) as n. revert d Heqn.
  induction n as [n IH] using lt_wf_ind. intros d E Hd.
  rewrite digits_step by lia.
  pose proof (Z.rem_bound_pos d 26 ltac:(lia) ltac:(lia)) as R.
  pose proof (Z.quot_rem' d 26) as Q.
  destruct (Z.eqb_spec (Z.quot d 26) 0) as [Z0|Z0].
  - split; [|simpl; congruence]. split; [|split].
    + unfold base26_value. simpl. lia.
    + simpl. constructor; auto.
    + intros c t C. simpl in C. injection C as <- _. lia.
  - assert (0 <= Z.quot d 26) by (apply Z.quot_pos; lia).
    destruct (IH (Z.to_nat (Z.quot d 26)) ltac:(lia) (Z.quot d 26) eq_refl ltac:(lia)) as [(V & F & L) N].
    split; [|destruct (digits_of (Z.quot d 26)); simpl; congruence].
    split; [|split].
    + rewrite base26_value_snoc, V. lia.
    + apply Forall_app. auto.
    + intros c t C. destruct (digits_of (Z.quot d 26)) as [|c' t'] eqn:DQ; [congruence|].
      simpl in C. injection C as <- _. eapply L. reflexivity.
Qed.

Lemma base26_value_cons_ge : forall l v, Forall (fun c => 0 <= c) l -> 0 <= v ->
  v <= fold_left (fun v c => v * 26 + c) l v.
Proof.
  induction l as [|c l IH]; intros v F Hv; simpl; [lia|]. inversion F; subst.
  etransitivity; [|apply IH]; auto; lia.
Qed.

(** Positional representation is unique. *)
Lemma repr_unique : forall n a b, base26_repr a n -> base26_repr b n -> a = b.
Proof.
  intros n a. revert n. induction a as [|x a IH] using rev_ind; intros n b (V & F & L) (V' & F' & L').
  - destruct b as [|y b]; auto. exfalso.
    specialize (L' y b eq_refl). unfold base26_value in *. simpl in *.
    pose proof (base26_value_cons_ge b y). inversion F'; subst.
    assert (y <= fold_left (fun v c => v * 26 + c) b y); [|lia].
    apply base26_value_cons_ge; [|lia]. eapply Forall_impl; [|eassumption]. simpl; intros; lia.
  - destruct b as [|y b _] using rev_ind.
    + exfalso. destruct a as [|z a].
      * simpl in *. specialize (L x [] eq_refl). unfold base26_value in *. simpl in *. lia.
      * specialize (L z (a ++ [x]) eq_refl). unfold base26_value in V, V'. simpl in V, V'.
        inversion F; subst.
        assert (z <= fold_left (fun v c => v * 26 + c) (a ++ [x]) z); [|lia].
        apply base26_value_cons_ge; [|lia]. eapply Forall_impl; [|eassumption]. simpl; intros; lia.
    + rewrite base26_value_snoc in *.
      apply Forall_app in F as [Fa Fx]. apply Forall_app in F' as [Fb Fy].
      inversion Fx; subst. inversion Fy; subst.
      assert (base26_value a = base26_value b) by lia. assert (x = y) by lia. subst y. f_equal.
      apply (IH (base26_value a)); split; auto; split; auto.
      * intros c t E. apply (L c (t ++ [x])). now rewrite E.
      * intros c t E. apply (L' c (t ++ [x])). now rewrite E.
Qed.

Lemma b26_string_cons : forall c rest,
  b26_string (c :: rest) =
  match b26_char (match rest with [] => c | _ => if (0 <? c) then (c - 1) else c end) with
  | Ok ch => match b26_string rest with Ok s => Ok (ch :: s) | r => r end
  | Err e => Err e | Panic => Panic | OutOfFuel => OutOfFuel
  end.
Proof. reflexivity. Qed.

Lemma b26_char_ok : forall i, 0 <= i < 26 -> b26_char i = Ok (Z.to_N (97 + i)).
Proof.
  intros. unfold b26_char. destruct (Z.leb_spec 0 i); [|lia]. destruct (Z.ltb_spec i 26); [|lia]. reflexivity.
Qed.

Lemma b26_string_ok : forall ds, Forall (fun c => 0 <= c < 26) ds ->
  exists s, b26_string ds = Ok s /\ Forall lower s /\ length s = length ds.
Proof.
  induction ds as [|c ds IH]; intros F.
  - exists []. repeat split; constructor.
  - inversion F; subst. destruct (IH H2) as (s & E & L & Len).
    rewrite b26_string_cons.
    assert (Hi : 0 <= match ds with [] => c | _ => if 0 <? c then c - 1 else c end < 26).
    { destruct ds; [lia|]. destruct (Z.ltb_spec 0 c); lia. }
    rewrite b26_char_ok by exact Hi. rewrite E. eexists. split; [reflexivity|].
    split; [|simpl; now rewrite Len]. constructor; auto. unfold lower. lia.
Qed.

Lemma b26_string_eq : forall a b, Forall (fun c => 0 <= c < 26) a -> Forall (fun c => 0 <= c < 26) b ->
  (b26_string a = b26_string b <-> same_name_digits a b).
Proof.
  induction a as [|x a IH]; intros b Fa Fb.
  - destruct b as [|y b]; [simpl; tauto|]. split; [|simpl; tauto].
    destruct (b26_string_ok (y :: b) Fb) as (s & E & _ & Len). rewrite E. simpl. intros C.
    injection C as <-. discriminate.
  - destruct b as [|y b].
    { split; [|simpl; destruct a; tauto].
      destruct (b26_string_ok (x :: a) Fa) as (s & E & _ & Len). rewrite E. simpl. intros C.
      injection C as ->. discriminate. }
    inversion Fa; inversion Fb; subst. specialize (IH b H2 H6).
    destruct (b26_string_ok a H2) as (sa & Ea & _ & La). destruct (b26_string_ok b H6) as (sb & Eb & _ & Lb).
    rewrite !b26_string_cons.
    rewrite b26_char_ok by (destruct a; [lia|]; destruct (Z.ltb_spec 0 x); lia).
    rewrite b26_char_ok by (destruct b; [lia|]; destruct (Z.ltb_spec 0 y); lia).
    rewrite Ea, Eb in *.
    destruct a as [|x' a], b as [|y' b]; simpl same_name_digits.
    + simpl in La, Lb. destruct sa, sb; try discriminate. split; intros C; [|now subst].
      assert (Z.to_N (97 + x) = Z.to_N (97 + y)) by congruence. lia.
    + split; [|destruct b; tauto]. intros C. assert (sa = sb) by congruence. subst sb. simpl in *. congruence.
    + split; [|destruct a; tauto]. intros C. assert (sa = sb) by congruence. subst sb. simpl in *. congruence.
    + change (same_name_digits (x :: x' :: a) (y :: y' :: b)) with
        ((x = y \/ (x <= 1 /\ y <= 1)) /\ same_name_digits (x' :: a) (y' :: b)).
      rewrite <- IH. split.
      * intros C. split; [|congruence].
        assert (C1 : Z.to_N (97 + (if 0 <? x then x - 1 else x)) = Z.to_N (97 + (if 0 <? y then y - 1 else y))) by congruence.
        destruct (Z.ltb_spec 0 x), (Z.ltb_spec 0 y); lia.
      * intros [C1 C2]. injection C2 as ->. f_equal. f_equal.
        destruct (Z.ltb_spec 0 x), (Z.ltb_spec 0 y); lia.
Qed.

Lemma b26_string_neg_head : forall c ds, c < 0 -> b26_string (c :: ds) = Panic.
Proof.
  intros c ds Hc. rewrite b26_string_cons.
  replace (match ds with [] => c | _ => if 0 <? c then c - 1 else c end) with c.
  - unfold b26_char. destruct (Z.leb_spec 0 c); [lia|]. reflexivity.
  - destruct ds; auto. destruct (Z.ltb_spec 0 c); lia.
Qed.

Lemma digits_neg : forall d, d < 0 -> exists c t, digits_of d = c :: t /\ c < 0.
Proof.
  intros d. remember (Z.to_nat (- d)) as n. revert d Heqn.
  induction n as [n IH] using lt_wf_ind. intros d E Hd.
  rewrite digits_step by lia.
  pose proof (Z.quot_rem' d 26) as Q.
  pose proof (Z.rem_bound_pos (- d) 26 ltac:(lia) ltac:(lia)) as R.
  rewrite Z.rem_opp_l in R by lia.
  destruct (Z.eqb_spec (Z.quot d 26) 0) as [Z0|Z0].
  - exists (Z.rem d 26), []. split; [reflexivity|lia].
  - assert (Z.quot d 26 <= 0).
    { assert (0 <= Z.quot (- d) 26) by (apply Z.quot_pos; lia). rewrite Z.quot_opp_l in H by lia. lia. }
    destruct (IH (Z.to_nat (- Z.quot d 26)) ltac:(lia) (Z.quot d 26) eq_refl ltac:(lia)) as (c & t & E' & N).
    rewrite E'. exists c, (t ++ [Z.rem d 26]). auto.
Qed.
