(** RFC 3339 texts of points in time: what is written is read again, and what is read. *)
From Coq Require Import ZArith Lia ZifyN ZifyBool.
From Verif Require Import Base M_Decimal L_Decimal M_Unmarshal S_NDJson L_Unmarshal L_UnmarshalInv M_Time S_Signing L_Time P_Signing M_Doc M_Encode S_Encode M_DocText S_DocText.
Local Open Scope Z_scope.

Lemma div_step : forall y k, 0 < k -> y / k = (y - 1) / k + (if y mod k =? 0 then 1 else 0).
Proof.
  intros y k Hk. pose proof (Z.div_mod y k ltac:(lia)). pose proof (Z.mod_pos_bound y k Hk).
  destruct (Z.eqb_spec (y mod k) 0).
  - enough ((y - 1) / k = y / k - 1) by lia. symmetry. apply (Z.div_unique _ _ _ (k - 1)); lia.
  - enough ((y - 1) / k = y / k) by lia. symmetry. apply (Z.div_unique _ _ _ (y mod k - 1)); lia.
Qed.
Definition year_start (y : Z) : Z := 365 * (y - 1) + (y - 1) / 4 - (y - 1) / 100 + (y - 1) / 400.
Lemma year_start_step : forall y, year_start (y + 1) = year_start y + 365 + (if leap_year y then 1 else 0).
Proof.
  intros y. unfold year_start. replace (y + 1 - 1) with y by lia.
  rewrite (div_step y 4), (div_step y 100), (div_step y 400) by lia. unfold leap_year.
  pose proof (Z.div_mod y 4 ltac:(lia)). pose proof (Z.div_mod y 100 ltac:(lia)). pose proof (Z.div_mod y 400 ltac:(lia)).
  pose proof (Z.mod_pos_bound y 4 ltac:(lia)). pose proof (Z.mod_pos_bound y 100 ltac:(lia)). pose proof (Z.mod_pos_bound y 400 ltac:(lia)).
  destruct (Z.eqb_spec (y mod 4) 0), (Z.eqb_spec (y mod 100) 0), (Z.eqb_spec (y mod 400) 0); cbn [andb orb negb]; lia.
Qed.
Lemma leap_same : forall y, is_leap y = leap_year y.
Proof. reflexivity. Qed.
Lemma twelve : forall m, 1 <= m <= 12 -> In m [1; 2; 3; 4; 5; 6; 7; 8; 9; 10; 11; 12].
Proof. intros m H. cbn. lia. Qed.
Ltac months H := apply twelve in H; cbn [In] in H; decompose [or] H; clear H; subst; try contradiction.
Lemma month_length : forall y m, 1 <= m <= 12 -> days_before y (m + 1) - days_before y m = days_in_month y m.
Proof.
  intros y m H. unfold days_before, days_in_month. rewrite leap_same.
  months H; destruct (leap_year y); vm_compute; reflexivity.
Qed.
Lemma before_first : forall y, days_before y 1 = 0.
Proof. intros y. unfold days_before. cbn. destruct (is_leap y); reflexivity. Qed.
Lemma before_last : forall y, days_before y 13 = 365 + (if leap_year y then 1 else 0).
Proof. intros y. unfold days_before. rewrite leap_same. destruct (leap_year y); reflexivity. Qed.
Definition valid_date (y m d : Z) : Prop := 1 <= m <= 12 /\ 1 <= d <= days_in_month y m.
Lemma day_number_eq : forall y m d, day_number y m d = year_start y + days_before y m + d - 1.
Proof. intros. unfold day_number, year_start. lia. Qed.
Lemma day_number_next : forall y m d, valid_date y m d -> (let '(y', m', d') := next_date (y, m, d) in day_number y' m' d') = day_number y m d + 1.
Proof.
  intros y m d [Hm Hd]. unfold next_date. pose proof (month_length y m Hm) as L.
  destruct (Z.ltb_spec d (days_in_month y m)); [rewrite !day_number_eq; lia|].
  destruct (Z.ltb_spec m 12); [rewrite !day_number_eq; lia|].
  rewrite !day_number_eq, year_start_step, before_first. assert (m = 12) by lia. subst m.
  change (12 + 1) with 13 in L. rewrite before_last in L. lia.
Qed.
Lemma day_of_date : forall n, (let '(y, m, d) := date_of_day n in day_number y m d) = n.
Proof.
  assert (S : forall n, (let '(y, m, d) := date_of_day n in day_number y m d) = n <->
                        (let '(y, m, d) := date_of_day (n + 1) in day_number y m d) = n + 1).
  { intros n. rewrite date_of_next_day. destruct (date_of_day n) as [[y m] d] eqn:E.
    pose proof (day_number_next y m d (date_of_day_range _ _ _ _ E)) as Q. destruct (next_date (y, m, d)) as [[y' m'] d']. lia. }
  intros n. destruct (Z.le_ge_cases 0 n) as [H|H].
  - pattern n. apply natlike_ind; [vm_compute; reflexivity| |assumption]. intros x _ Hx. exact (proj1 (S x) Hx).
  - assert (G : forall k, 0 <= k -> (let '(y, m, d) := date_of_day (- k) in day_number y m d) = - k).
    { intros k Hk. pattern k. apply natlike_ind; [vm_compute; reflexivity| |assumption]. intros x _ Hx. apply (proj2 (S (- Z.succ x))).
      replace (- Z.succ x + 1) with (- x) by lia. exact Hx. }
    specialize (G (- n) ltac:(lia)). now rewrite Z.opp_involutive in G.
Qed.
Lemma before_mono : forall y m m', 1 <= m -> m < m' <= 12 -> days_before y (m + 1) <= days_before y m'.
Proof.
  intros y m m' H H'. assert (A : 1 <= m <= 12) by lia. assert (B : 1 <= m' <= 12) by lia. unfold days_before.
  months A; months B; try lia; destruct (is_leap y); vm_compute; discriminate.
Qed.
Lemma before_bounds : forall y m, 1 <= m <= 12 -> 0 <= days_before y m /\ days_before y (m + 1) <= days_before y 13.
Proof. intros y m A. unfold days_before. months A; destruct (is_leap y); vm_compute; split; discriminate. Qed.
Lemma year_start_mono : forall y y', y <= y' -> year_start y <= year_start y'.
Proof.
  intros y y' H. replace y' with (y + (y' - y)) by lia. generalize (y' - y) (Z.le_0_sub y y'). intros k K.
  assert (0 <= k) by (apply K; assumption). clear K H. pattern k. apply natlike_ind; [rewrite Z.add_0_r; lia| |assumption].
  intros x _ Hx. replace (y + Z.succ x) with (y + x + 1) by lia. rewrite year_start_step. destruct (leap_year (y + x)); lia.
Qed.
Lemma day_number_inj : forall y m d y' m' d', valid_date y m d -> valid_date y' m' d' -> day_number y m d = day_number y' m' d' -> (y, m, d) = (y', m', d').
Proof.
  assert (Y : forall y m d y' m' d', valid_date y m d -> valid_date y' m' d' -> day_number y m d = day_number y' m' d' -> y < y' -> False).
  { intros y m d y' m' d' [H1 H2] [H3 H4] E L. rewrite !day_number_eq in E. pose proof (month_length y m H1). pose proof (before_bounds y m H1).
    pose proof (before_bounds y' m' H3). pose proof (year_start_mono (y + 1) y' ltac:(lia)). rewrite year_start_step in *. rewrite before_last in *. lia. }
  intros y m d y' m' d' V V' E. assert (y = y') by (destruct (Z.lt_total y y') as [L|[L|L]]; [destruct (Y _ _ _ _ _ _ V V' E L)|assumption|destruct (Y _ _ _ _ _ _ V' V (eq_sym E) L)]).
  subst y'. assert (M : forall m d m' d', valid_date y m d -> valid_date y m' d' -> day_number y m d = day_number y m' d' -> m < m' -> False).
  { intros a b a' b' [H1 H2] [H3 H4] Q L. rewrite !day_number_eq in Q. pose proof (month_length y a H1). pose proof (before_mono y a a' ltac:(lia) ltac:(lia)). lia. }
  assert (m = m') by (destruct (Z.lt_total m m') as [L|[L|L]]; [destruct (M _ _ _ _ V V' E L)|assumption|destruct (M _ _ _ _ V' V (eq_sym E) L)]).
  subst m'. rewrite !day_number_eq in E. do 2 f_equal; lia.
Qed.
Lemma date_iff : forall day y m d, date_of_day day = (y, m, d) <-> valid_date y m d /\ day_number y m d = day.
Proof.
  intros day y m d. pose proof (day_of_date day) as D. split.
  - intros E. rewrite E in D. split; [exact (date_of_day_range _ _ _ _ E)|assumption].
  - intros [V E]. destruct (date_of_day day) as [[y' m'] d'] eqn:E'. symmetry. apply day_number_inj; [assumption|exact (date_of_day_range _ _ _ _ E')|lia].
Qed.

(** Digits. *)
Lemma digit_val_iff : forall c v, digit_val c = Some v <-> 0 <= v < 10 /\ c = Z.to_N (48 + v).
Proof.
  intros c v. unfold digit_val, is_digit. destruct ((48 <=? c)%N && (c <=? 57)%N) eqn:E; split; intros H.
  - injection H as <-. lia.
  - f_equal. lia.
  - discriminate.
  - lia.
Qed.
Lemma two_iff : forall a b n, two a b = Some n <-> 0 <= n < 100 /\ [a; b] = two_digits n.
Proof.
  intros a b n. unfold two, two_digits.
  pose proof (digit_val_iff a) as A. pose proof (digit_val_iff b) as B. split.
  - intros H. destruct (digit_val a) as [x|]; [|discriminate]. destruct (digit_val b) as [y|]; [|discriminate]. injection H as <-.
    destruct (proj1 (A x) eq_refl) as [A1 ->]. destruct (proj1 (B y) eq_refl) as [B1 ->].
    assert (Q : (x * 10 + y) / 10 = x) by (symmetry; apply (Z.div_unique _ _ _ y); lia).
    assert (R : (x * 10 + y) mod 10 = y) by (symmetry; apply (Z.mod_unique _ _ x); lia). rewrite Q, R. split; [lia|reflexivity].
  - intros [H E]. injection E as -> ->. pose proof (Z.div_mod n 10 ltac:(lia)). pose proof (Z.mod_pos_bound n 10 ltac:(lia)).
    rewrite (proj2 (A (n / 10))) by (split; [lia|reflexivity]). rewrite (proj2 (B (n mod 10))) by (split; [lia|reflexivity]). f_equal. lia.
Qed.
Lemma two_some : forall n, 0 <= n < 100 -> two (Z.to_N (48 + n / 10)) (Z.to_N (48 + n mod 10)) = Some n.
Proof. intros n H. apply two_iff. auto. Qed.

(** Fractions. *)
Lemma dec_val_app_pow : forall b a, dec_val (a ++ b) = (dec_val a * 10 ^ N.of_nat (length b) + dec_val b)%N.
Proof.
  induction b as [|c b IH] using rev_ind; intros a; [rewrite app_nil_r; change (dec_val []) with 0%N; cbn [length N.of_nat N.pow]; lia|].
  rewrite app_assoc, dec_val_snoc, IH, dec_val_snoc, app_length, Nat2N.inj_add. cbn [length N.of_nat Pos.of_succ_nat]. rewrite N.pow_add_r. change (10 ^ 1)%N with 10%N. lia.
Qed.
Lemma dec_val_repeat : forall k, dec_val (repeat 48%N k) = 0%N.
Proof. intros k. rewrite <- (app_nil_r (repeat 48%N k)), dec_val_zeros. reflexivity. Qed.
Lemma digits_bool : forall s, digits s <-> forallb is_digit s = true.
Proof.
  intros s. rewrite forallb_forall. unfold digits. rewrite Forall_forall. split; intros H c Hc; specialize (H c Hc).
  - now apply is_digit_true.
  - now apply is_digit_inv.
Qed.
Lemma of_N_pow10 : forall k, Z.of_N (10 ^ N.of_nat k) = 10 ^ Z.of_nat k.
Proof. intros k. rewrite N2Z.inj_pow. now rewrite nat_N_Z. Qed.
Lemma fraction_value_ok : forall ds, digits ds -> fraction_value ds = Z.of_N (dec_val ds) * 10 ^ 9 / 10 ^ Z.of_nat (length ds).
Proof.
  intros ds D. unfold fraction_value. destruct (Nat.le_gt_cases (length ds) 9) as [L|L].
  - rewrite firstn_app, firstn_all2 by lia.
    assert (R : firstn (9 - length ds) (repeat 48%N 9) = repeat 48%N (9 - length ds)).
    { assert (K : (9 - length ds <= 9)%nat) by lia. revert K. generalize (9 - length ds)%nat. intros k K.
      do 10 (destruct k as [|k]; [reflexivity|]). lia. }
    rewrite R, dec_val_app_pow, dec_val_repeat, repeat_length, N.add_0_r, N2Z.inj_mul, of_N_pow10.
    replace (10 ^ 9) with (10 ^ Z.of_nat (9 - length ds) * 10 ^ Z.of_nat (length ds)) by (rewrite <- Z.pow_add_r by lia; f_equal; lia).
    rewrite Z.mul_assoc, Z.div_mul; [reflexivity|]. pose proof (Z.pow_pos_nonneg 10 (Z.of_nat (length ds))). lia.
  - rewrite firstn_app. replace (9 - length ds)%nat with O by lia. change (firstn 0 (repeat 48%N 9)) with (@nil N). rewrite app_nil_r.
    assert (Lf : length (firstn 9 ds) = 9%nat) by (rewrite firstn_length; lia).
    assert (Ls : length (skipn 9 ds) = (length ds - 9)%nat) by apply skipn_length.
    assert (E : dec_val ds = (dec_val (firstn 9 ds) * 10 ^ N.of_nat (length (skipn 9 ds)) + dec_val (skipn 9 ds))%N) by (now rewrite <- dec_val_app_pow, firstn_skipn).
    assert (B : (dec_val (skipn 9 ds) < 10 ^ N.of_nat (length (skipn 9 ds)))%N).
    { apply dec_val_lt. apply digits_bool. rewrite <- (firstn_skipn 9 ds) in D. apply Forall_app in D. tauto. }
    rewrite Ls in *. rewrite E. set (k := (length ds - 9)%nat) in *. replace (Z.of_nat (length ds)) with (Z.of_nat k + 9) by lia.
    rewrite Z.pow_add_r by lia. rewrite Z.div_mul_cancel_r; [|pose proof (Z.pow_pos_nonneg 10 (Z.of_nat k)); lia|discriminate].
    rewrite N2Z.inj_add, N2Z.inj_mul, of_N_pow10.
    apply (Z.div_unique _ _ _ (Z.of_N (dec_val (skipn 9 ds)))); [|ring]. left. rewrite <- of_N_pow10. split; [apply N2Z.is_nonneg|]. apply N2Z.inj_lt. assumption.
Qed.
Lemma fraction_read : forall ns f r, fraction_of ns f -> no_digit r -> (forall c t, r = c :: t -> c <> 46%N) -> parse_fraction (f ++ r) = Some (ns, r).
Proof.
  intros ns f r [[-> ->]|[ds [-> [Hn [D ->]]]]] R Dot.
  - cbn [app]. destruct r as [|c r]; [reflexivity|]. cbn. destruct (N.eqb_spec c 46) as [E|_]; [destruct (Dot c r eq_refl E)|reflexivity].
  - cbn [app parse_fraction N.eqb Pos.eqb]. rewrite span_digits_app by assumption. destruct ds as [|c ds]; [contradiction|].
    rewrite fraction_value_ok by assumption. reflexivity.
Qed.
Lemma fraction_inv : forall s ns r, parse_fraction s = Some (ns, r) -> exists f, s = f ++ r /\ fraction_of ns f.
Proof.
  intros [|c t] ns r H; cbn in H; [injection H as <- <-; exists []; split; [reflexivity|left; auto]|].
  destruct (N.eqb_spec c 46) as [->|_]; [|injection H as <- <-; exists []; split; [reflexivity|left; auto]].
  destruct (span_digits t) as [[|a0 a] b] eqn:E; [discriminate|]. injection H as <- <-. apply span_digits_inv in E. destruct E as [D ->].
  exists (46%N :: a0 :: a). split; [reflexivity|]. right. exists (a0 :: a). split; [reflexivity|]. split; [discriminate|]. split; [exact D|]. now apply fraction_value_ok.
Qed.
Lemma trim_zeros_spec : forall s, exists k, s = trim_zeros s ++ repeat 48%N k /\ last (trim_zeros s) 0%N <> 48%N.
Proof.
  induction s as [|c s [k [E L]]]; [exists O; split; [reflexivity|discriminate]|]. cbn [trim_zeros].
  destruct (trim_zeros s) as [|x u] eqn:T.
  - destruct (N.eqb_spec c 48) as [->|N]; [exists (S k); split; [cbn in *; congruence|discriminate]|]. exists k. split; [cbn in *; congruence|exact N].
  - exists k. split; [cbn in *; congruence|]. exact L.
Qed.
Lemma fraction_written : forall ns, 0 <= ns < 1000000000 ->
  fraction_of ns (fraction_text ns) /\ (length (fraction_text ns) <= 10)%nat /\ last (fraction_text ns) 0%N <> 48%N.
Proof.
  intros ns H. unfold fraction_text. destruct (Z.eqb_spec ns 0) as [->|NZ].
  { split; [left; auto|]. split; [cbn; lia|discriminate]. }
  unfold append_int. destruct (Z.ltb_spec ns 0); [lia|]. set (s := pad 9 (dec (Z.to_N ns))).
  assert (L : length s = 9%nat).
  { unfold s, pad. rewrite app_length, repeat_length. pose proof (dec_length (Z.to_N ns) 9 ltac:(lia)) as Q.
    change (10 ^ N.of_nat 9)%N with 1000000000%N in Q. specialize (Q ltac:(lia)). lia. }
  assert (D : digits s) by (apply digits_bool, pad_digits).
  assert (V : Z.of_N (dec_val s) = ns) by (unfold s, pad; rewrite dec_val_zeros, dec_val_dec; lia).
  destruct (trim_zeros_spec s) as [k [E La]]. assert (LL : (length (trim_zeros s) + k = 9)%nat) by (rewrite E, app_length, repeat_length in L; exact L).
  assert (VV : dec_val s = (dec_val (trim_zeros s) * 10 ^ N.of_nat k)%N) by (rewrite E at 1; rewrite dec_val_app_pow, dec_val_repeat, repeat_length; lia).
  assert (Ne : trim_zeros s <> []) by (intros Z0; rewrite Z0 in VV; change (dec_val []) with 0%N in VV; lia).
  split; [|split].
  - right. exists (trim_zeros s). split; [reflexivity|]. split; [assumption|]. split.
    + rewrite E in D. apply Forall_app in D. tauto.
    + rewrite <- V, VV, N2Z.inj_mul, of_N_pow10. replace (10 ^ 9) with (10 ^ Z.of_nat k * 10 ^ Z.of_nat (length (trim_zeros s))) by (rewrite <- Z.pow_add_r by lia; f_equal; lia).
      rewrite Z.mul_assoc, Z.div_mul; [reflexivity|]. pose proof (Z.pow_pos_nonneg 10 (Z.of_nat (length (trim_zeros s)))). lia.
  - cbn [length]. lia.
  - destruct (trim_zeros s) as [|x u]; [contradiction|]. exact La.
Qed.

(** Zones. *)
Lemma zone_iff : forall s z, parse_zone s = Some z <-> zone_of z s.
Proof.
  intros s z. split.
  - intros H. destruct s as [|g [|a [|b [|c [|d [|e [|x y]]]]]]]; cbn in H; try discriminate.
    + destruct (N.eqb_spec g 90) as [->|]; [|discriminate]. injection H as <-. left. auto.
    + destruct (two a b) as [h|] eqn:E1; [|discriminate]. destruct (two d e) as [m|] eqn:E2; [|discriminate].
      destruct (N.eqb_spec c 58) as [->|]; [|discriminate]. cbn [andb] in H.
      destruct (Z.ltb_spec h 24); [|discriminate]. destruct (Z.ltb_spec m 60); [|discriminate]. cbn [andb] in H.
      apply two_iff in E1, E2. destruct E1 as [B1 E1], E2 as [B2 E2]. injection E1 as -> ->. injection E2 as -> ->.
      right. exists h, m. split; [lia|]. destruct (N.eqb_spec g 43) as [->|]; [injection H as <-; left; auto|].
      destruct (N.eqb_spec g 45) as [->|]; [injection H as <-; right; auto|discriminate].
  - intros [[-> ->]|[h [m [[H M] [[-> ->]|[-> ->]]]]]]; [reflexivity| |]; unfold two_digits; cbn [app bs map list_ascii_of_string parse_zone];
      rewrite !two_some by lia; rewrite (proj2 (Z.ltb_lt h 24)), (proj2 (Z.ltb_lt m 60)) by lia; reflexivity.
Qed.
Lemma zone_head : forall z zt, zone_of z zt -> no_digit zt /\ forall c t, zt = c :: t -> c <> 46%N.
Proof.
  intros z zt [[-> _]|[h [m [_ [[-> _]|[-> _]]]]]]; (split; [reflexivity|]); intros c t E; injection E as <- _; discriminate.
Qed.

Theorem time_iff : forall s t, parse_time s = Some t <-> exists f zt, time_text t f zt s.
Proof.
  intros s t. split.
  - intros H.
    destruct s as [|y1 [|y2 [|y3 [|y4 [|a [|m1 [|m2 [|b [|d1 [|d2 [|tt [|h1 [|h2 [|c [|i1 [|i2 [|e [|s1 [|s2 r]]]]]]]]]]]]]]]]]]]; try discriminate.
    cbn [parse_time] in H.
    destruct (two y1 y2) as [yh|] eqn:E1; [|discriminate]. destruct (two y3 y4) as [yl|] eqn:E2; [|discriminate].
    destruct (two m1 m2) as [m|] eqn:E3; [|discriminate]. destruct (two d1 d2) as [d|] eqn:E4; [|discriminate].
    destruct (two h1 h2) as [h|] eqn:E5; [|discriminate]. destruct (two i1 i2) as [i|] eqn:E6; [|discriminate].
    destruct (two s1 s2) as [sec|] eqn:E7; [|discriminate]. destruct (parse_fraction r) as [[ns r']|] eqn:E8; [|discriminate].
    cbv zeta in H.
    match type of H with (if ?b then _ else _) = _ => destruct b eqn:C; [|discriminate] end.
    destruct (parse_zone r') as [z|] eqn:E9; [|discriminate]. injection H as <-.
    rewrite !andb_true_iff, !N.eqb_eq, !Z.leb_le, !Z.ltb_lt in C. destruct C as (((((((((((-> & ->) & ->) & ->) & ->) & C1) & C2) & C3) & C4) & C5) & C6) & C7).
    apply two_iff in E1, E2, E3, E4, E5, E6, E7. apply zone_iff in E9. apply fraction_inv in E8. destruct E8 as [f [-> F]].
    destruct E1 as [B1 E1], E2 as [B2 E2], E3 as [B3 E3], E4 as [B4 E4], E5 as [B5 E5], E6 as [B6 E6], E7 as [B7 E7].
    rewrite month_length in C4 by lia.
    exists f, r'. exists (day_number (yh * 100 + yl) m d), (yh * 100 + yl), m, d, h, i, sec, ns, z.
    split; [apply date_iff; split; [split; lia|reflexivity]|]. split; [lia|]. split; [assumption|]. split; [assumption|]. split; [reflexivity|].
    unfold four_digits. assert (Q : (yh * 100 + yl) / 100 = yh) by (symmetry; apply (Z.div_unique _ _ _ yl); lia).
    assert (R : (yh * 100 + yl) mod 100 = yl) by (symmetry; apply (Z.mod_unique _ _ yh); lia). rewrite Q, R, <- E1, <- E2, <- E3, <- E4, <- E5, <- E6, <- E7. reflexivity.
  - intros (f & zt & day & y & m & d & h & i & sec & ns & z & Hd & (Hy & Hh & Hi & Hs) & F & Z0 & -> & ->).
    apply date_iff in Hd. destruct Hd as [[Hm Hdd] <-]. pose proof (days_in_month_le y m).
    pose proof (Z.div_mod y 100 ltac:(lia)). pose proof (Z.mod_pos_bound y 100 ltac:(lia)).
    destruct (zone_head _ _ Z0) as [N1 N2]. pose proof (fraction_read ns f zt F N1 N2) as PF.
    unfold four_digits, two_digits. cbn [app bs map list_ascii_of_string]. cbn [parse_time]. rewrite !two_some by lia. rewrite PF. cbv zeta.
    replace (y / 100 * 100 + y mod 100) with y by lia. rewrite month_length by assumption.
    rewrite (proj2 (Z.leb_le 1 m)), (proj2 (Z.leb_le m 12)), (proj2 (Z.leb_le 1 d)), (proj2 (Z.leb_le d _)), (proj2 (Z.ltb_lt h 24)), (proj2 (Z.ltb_lt i 60)), (proj2 (Z.ltb_lt sec 60)) by lia.
    rewrite (proj2 (zone_iff zt z) Z0). reflexivity.
Qed.
Lemma year_range : forall t y m d, encodable_time t -> date_of_day (t / 1000000000 / 86400) = (y, m, d) -> 0 <= y <= 9999.
Proof.
  intros t y m d T E. apply date_iff in E. destruct E as [[Hm Hd] E]. rewrite day_number_eq in E.
  assert (B : -366 <= t / 1000000000 / 86400 < 3652059).
  { unfold encodable_time in T. rewrite Z.div_div by lia. split; [apply Z.div_le_lower_bound; lia|apply Z.div_lt_upper_bound; lia]. }
  pose proof (month_length y m Hm). pose proof (before_bounds y m Hm). rewrite before_last in *.
  destruct (Z.le_gt_cases 0 y) as [Y1|Y1].
  - split; [assumption|]. destruct (Z.le_gt_cases y 9999) as [|Y2]; [assumption|]. pose proof (year_start_mono 10000 y ltac:(lia)) as Q.
    change (year_start 10000) with 3652059 in Q. lia.
  - pose proof (year_start_mono (y + 1) 0 ltac:(lia)) as Q. rewrite year_start_step in Q. change (year_start 0) with (-366) in Q. lia.
Qed.
Theorem time_written : forall t, encodable_time t -> utc_text t (rfc3339_nano t).
Proof.
  intros t T. unfold utc_text. destruct (fraction_written (t mod 1000000000) ltac:(apply Z.mod_pos_bound; lia)) as [F [L1 L2]].
  exists (fraction_text (t mod 1000000000)). split; [|auto]. unfold rfc3339_nano. cbv zeta.
  destruct (date_of_day (t / 1000000000 / 86400)) as [[y m] d] eqn:E. pose proof (year_range _ _ _ _ T E) as Y.
  destruct (date_of_day_range _ _ _ _ E) as [B1 B2]. pose proof (days_in_month_le y m).
  set (s := (t / 1000000000) mod 86400). assert (S : 0 <= s < 86400) by (apply Z.mod_pos_bound; lia).
  pose proof (Z.div_mod t 1000000000 ltac:(lia)) as D1. pose proof (Z.div_mod (t / 1000000000) 86400 ltac:(lia)) as D2. fold s in D2.
  pose proof (Z.div_mod s 3600 ltac:(lia)). pose proof (Z.mod_pos_bound s 3600 ltac:(lia)).
  pose proof (Z.div_mod s 60 ltac:(lia)). pose proof (Z.mod_pos_bound s 60 ltac:(lia)).
  pose proof (Z.div_mod (s / 60) 60 ltac:(lia)). pose proof (Z.mod_pos_bound (s / 60) 60 ltac:(lia)).
  assert (Q : s / 60 / 60 = s / 3600) by (rewrite Z.div_div by lia; reflexivity).
  rewrite four_digits_ok, !two_digits_ok by lia.
  exists (t / 1000000000 / 86400), y, m, d, (s / 3600), (s / 60 mod 60), (s mod 60), (t mod 1000000000), 0.
  split; [assumption|]. split; [lia|]. split; [assumption|]. split; [left; auto|]. split; [lia|reflexivity].
Qed.
