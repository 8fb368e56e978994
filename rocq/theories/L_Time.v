(** Lemmas on calendar dates and RFC 3339 text. *)
From Verif Require Import Base M_Decimal L_Decimal M_Time S_Signing.
Local Open Scope Z_scope.

(** ** Exhaustive checks over small ranges *)
Fixpoint all_in (f : Z -> bool) (k : nat) (lo : Z) : bool :=
  match k with O => f lo | S k => all_in f k lo && all_in f k (lo + 2 ^ Z.of_nat k) end.
Lemma all_in_spec : forall f k lo, all_in f k lo = true -> forall z, lo <= z < lo + 2 ^ Z.of_nat k -> f z = true.
Proof.
  intros f. induction k as [|k IH]; intros lo H z Hz.
  - cbn in Hz. replace z with lo by lia. exact H.
  - cbn [all_in] in H. apply andb_true_iff in H as [H1 H2].
    rewrite Nat2Z.inj_succ, Z.pow_succ_r in Hz by lia.
    destruct (Z_lt_ge_dec z (lo + 2 ^ Z.of_nat k)); [apply (IH lo); [assumption|lia]|apply (IH (lo + 2 ^ Z.of_nat k)); [assumption|lia]].
Qed.

(** ** One 400-year era *)
Definition year_start (y : Z) : Z := 365 * y + y / 4 - y / 100.
Definition year_len (y : Z) : Z := if (y =? 399) || leap_year (y + 1) then 366 else 365.
Definition yg (doe : Z) : Z := doe - doe / 1460 + doe / 36524 - doe / 146096.
Definition month_day (doy : Z) : Z * Z :=
  let mp := (5 * doy + 2) / 153 in (if mp <? 10 then mp + 3 else mp - 9, doy - (153 * mp + 2) / 5 + 1).

Lemma yg_step : forall x, 0 <= x -> yg x <= yg (x + 1).
Proof.
  intros x H. unfold yg.
  pose proof (Z.div_mod x 1460 ltac:(lia)). pose proof (Z.mod_pos_bound x 1460 ltac:(lia)).
  pose proof (Z.div_mod x 36524 ltac:(lia)). pose proof (Z.mod_pos_bound x 36524 ltac:(lia)).
  pose proof (Z.div_mod x 146096 ltac:(lia)). pose proof (Z.mod_pos_bound x 146096 ltac:(lia)).
  pose proof (Z.div_mod (x + 1) 1460 ltac:(lia)). pose proof (Z.mod_pos_bound (x + 1) 1460 ltac:(lia)).
  pose proof (Z.div_mod (x + 1) 36524 ltac:(lia)). pose proof (Z.mod_pos_bound (x + 1) 36524 ltac:(lia)).
  pose proof (Z.div_mod (x + 1) 146096 ltac:(lia)). pose proof (Z.mod_pos_bound (x + 1) 146096 ltac:(lia)).
  lia.
Qed.
Lemma yg_mono : forall a n, 0 <= a -> yg a <= yg (a + Z.of_nat n).
Proof.
  intros a n H. induction n as [|n IH]; [rewrite Z.add_0_r; lia|].
  pose proof (yg_step (a + Z.of_nat n) ltac:(lia)). replace (a + Z.of_nat (S n)) with (a + Z.of_nat n + 1) by lia. lia.
Qed.
Definition year_ok (y : Z) : bool :=
  (400 <=? y) ||
  ((yg (year_start y) / 365 =? y) && (yg (year_start y + year_len y - 1) / 365 =? y) &&
   ((y =? 399) || (year_start (y + 1) =? year_start y + year_len y))).
Lemma year_ok_all : forall y, 0 <= y < 400 ->
  yg (year_start y) / 365 = y /\ yg (year_start y + year_len y - 1) / 365 = y /\
  (y = 399 \/ year_start (y + 1) = year_start y + year_len y).
Proof.
  intros y H. assert (K : all_in year_ok 9 0 = true) by (vm_compute; reflexivity).
  pose proof (all_in_spec _ _ _ K y) as Q. change (2 ^ Z.of_nat 9) with 512 in Q. specialize (Q ltac:(lia)). unfold year_ok in Q.
  rewrite !orb_true_iff, !andb_true_iff, orb_true_iff, !Z.eqb_eq, Z.leb_le in Q. destruct Q as [Q|[[Q1 Q2] Q3]]; [lia|auto].
Qed.
Lemma year_split : forall n doe, (n <= 399)%nat -> 0 <= doe < year_start (Z.of_nat n) + year_len (Z.of_nat n) ->
  exists y, 0 <= y <= Z.of_nat n /\ year_start y <= doe < year_start y + year_len y.
Proof.
  induction n as [|n IH]; intros doe L H.
  - exists 0. split; [lia|]. exact H.
  - destruct (Z_lt_ge_dec doe (year_start (Z.of_nat n) + year_len (Z.of_nat n))) as [C|C].
    + destruct (IH doe ltac:(lia) ltac:(lia)) as (y & Y1 & Y2). exists y. split; [lia|exact Y2].
    + destruct (year_ok_all (Z.of_nat n) ltac:(lia)) as (_ & _ & [E|E]); [lia|].
      exists (Z.of_nat (S n)). replace (Z.of_nat (S n)) with (Z.of_nat n + 1) in * by lia. split; [lia|]. lia.
Qed.
Lemma doe_split : forall doe, 0 <= doe < 146097 -> exists y doy, doe = year_start y + doy /\ 0 <= y < 400 /\ 0 <= doy < year_len y /\
  date_of_doe doe = (let '(m, d) := month_day doy in ((if m <=? 2 then y + 1 else y), m, d)).
Proof.
  intros doe H. destruct (year_split 399 doe ltac:(lia)) as (y & Y & B).
  { change (year_start (Z.of_nat 399) + year_len (Z.of_nat 399)) with 146097. exact H. }
  exists y, (doe - year_start y). split; [lia|]. split; [lia|]. split; [lia|].
  destruct (year_ok_all y ltac:(lia)) as (S1 & S2 & _).
  assert (0 <= year_start y) by (unfold year_start; pose proof (Z.div_pos y 4 ltac:(lia) ltac:(lia)); pose proof (Z.div_le_upper_bound y 100 y ltac:(lia)); lia).
  assert (E : (doe - doe / 1460 + doe / 36524 - doe / 146096) / 365 = y).
  { fold (yg doe). pose proof (yg_mono (year_start y) (Z.to_nat (doe - year_start y)) ltac:(lia)) as M1.
    pose proof (yg_mono doe (Z.to_nat (year_start y + year_len y - 1 - doe)) ltac:(lia)) as M2.
    rewrite Z2Nat.id in M1, M2 by lia. replace (year_start y + (doe - year_start y)) with doe in M1 by lia.
    replace (doe + (year_start y + year_len y - 1 - doe)) with (year_start y + year_len y - 1) in M2 by lia.
    pose proof (Z.div_le_mono _ _ 365 ltac:(lia) M1). pose proof (Z.div_le_mono _ _ 365 ltac:(lia) M2). lia. }
  unfold date_of_doe. cbv zeta. rewrite E. fold (year_start y). unfold month_day. cbv zeta. reflexivity.
Qed.

Definition doe_of_date (p : Z * Z * Z) : Z :=
  let '(y, m, d) := p in
  let yoe := if m <=? 2 then y - 1 else y in
  let mp := if m <=? 2 then m + 9 else m - 3 in
  year_start yoe + (153 * mp + 2) / 5 + d - 1.
(** The day after the [doy]-th day of a year that starts in March; the year is given relative to that year. *)
Definition next_l (leap : bool) (c m d : Z) : Z * Z * Z :=
  if d <? (if m =? 2 then (if leap then 29 else 28) else if (m =? 4) || (m =? 6) || (m =? 9) || (m =? 11) then 30 else 31) then (c, m, d + 1)
  else if m <? 12 then (c, m + 1, 1) else (c + 1, 1, 1).
Definition rel_date (doy : Z) : Z * Z * Z := let '(m, d) := month_day doy in ((if m <=? 2 then 1 else 0), m, d).
Definition date_eqb (a b : Z * Z * Z) : bool :=
  let '(y, m, d) := a in let '(y', m', d') := b in (y =? y') && (m =? m') && (d =? d').
Lemma date_eqb_eq : forall a b, date_eqb a b = true -> a = b.
Proof.
  intros [[y m] d] [[y' m'] d']. unfold date_eqb. rewrite !andb_true_iff, !Z.eqb_eq. intros [[-> ->] ->]. reflexivity.
Qed.
Definition month_ok (doy : Z) : bool :=
  (366 <=? doy) ||
  (let '(c, m, d) := rel_date doy in
   let mp := if m <=? 2 then m + 9 else m - 3 in
   ((153 * mp + 2) / 5 + d - 1 =? doy) && (1 <=? m) && (m <=? 12) && (1 <=? d) &&
   (d <=? (if m =? 2 then (if doy =? 365 then 29 else 28) else if (m =? 4) || (m =? 6) || (m =? 9) || (m =? 11) then 30 else 31)) &&
   forallb (fun leap => (if leap : bool then false else doy =? 365) ||
     date_eqb (next_l leap c m d) (if doy + 1 =? (if leap : bool then 366 else 365) then (1, 3, 1) else rel_date (doy + 1))) [true; false]).
Lemma month_ok_all : forall doy, 0 <= doy < 366 -> month_ok doy = true.
Proof.
  intros y H. assert (K : all_in month_ok 9 0 = true) by (vm_compute; reflexivity).
  pose proof (all_in_spec _ _ _ K y) as Q. change (2 ^ Z.of_nat 9) with 512 in Q. apply Q. lia.
Qed.
Lemma next_date_rel : forall y c m d, next_date (y + c, m, d) = (let '(c', m', d') := next_l (leap_year (y + c)) c m d in (y + c', m', d')).
Proof.
  intros. unfold next_date, next_l, days_in_month. cbv zeta.
  destruct (_ <? _); [reflexivity|]. destruct (m <? 12); [reflexivity|]. rewrite Z.add_assoc. reflexivity.
Qed.
Lemma year_len_leap : forall y, 0 <= y < 400 -> year_len y = if leap_year (y + 1) then 366 else 365.
Proof. intros y H. unfold year_len. destruct (Z.eqb_spec y 399) as [->|]; reflexivity. Qed.

Lemma era_facts : forall doe y m d, 0 <= doe < 146097 -> date_of_doe doe = (y, m, d) ->
  let yoe := if m <=? 2 then y - 1 else y in
  doe_of_date (y, m, d) = doe /\ 0 <= yoe < 400 /\ 1 <= m <= 12 /\ 1 <= d <= days_in_month y m /\
  next_date (y, m, d) = (if doe + 1 =? 146097 then (let '(y1, m1, d1) := date_of_doe 0 in (y1 + 400, m1, d1)) else date_of_doe (doe + 1)).
Proof.
  intros doe y m d H E. cbv zeta. destruct (doe_split doe H) as (yoe & doy & Hd & Hy & Ho & E'). rewrite E in E'.
  pose proof (year_len_leap yoe Hy) as LL.
  assert (Ho' : 0 <= doy < 366) by (destruct (leap_year (yoe + 1)); lia).
  pose proof (month_ok_all doy Ho') as K. unfold month_ok in K.
  apply orb_true_iff in K as [K|K]; [apply Z.leb_le in K; lia|].
  destruct (rel_date doy) as [[c m'] d'] eqn:R. unfold rel_date in R. destruct (month_day doy) as [m2 d2] eqn:MD.
  apply pair_equal_spec in R as [R ->]. apply pair_equal_spec in R as [Rc ->].
  apply pair_equal_spec in E' as [E' ->]. apply pair_equal_spec in E' as [Ey ->].
  assert (Yc : y = yoe + c) by (rewrite Ey, <- Rc; destruct (m' <=? 2); lia). clear Ey.
  assert (Yy : (if m' <=? 2 then y - 1 else y) = yoe) by (rewrite Yc, <- Rc; destruct (m' <=? 2); lia).
  rewrite !andb_true_iff, Z.eqb_eq, !Z.leb_le in K. destruct K as [[[[[K1 K2] K3] K4] K5] K6].
  assert (LY : m' <= 2 -> leap_year y = leap_year (yoe + 1)) by (intros Q; apply Z.leb_le in Q; rewrite Yc, <- Rc, Q; reflexivity).
  split; [|split; [|split; [|split]]].
  - unfold doe_of_date. rewrite Yy. lia.
  - rewrite Yy. exact Hy.
  - lia.
  - split; [lia|]. unfold days_in_month. destruct (Z.eqb_spec m' 2) as [->|]; [|exact K5]. rewrite LY by lia.
    destruct (Z.eqb_spec doy 365); destruct (leap_year (yoe + 1)); try lia.
  - rewrite Yc, next_date_rel.
    assert (NL : next_l (leap_year (yoe + c)) c m' d' = next_l (leap_year (yoe + 1)) c m' d').
    { unfold next_l. destruct (Z.eqb_spec m' 2) as [->|]; [|reflexivity]. rewrite <- Yc, LY by lia. reflexivity. }
    rewrite NL. cbn [forallb] in K6. rewrite !andb_true_iff in K6. destruct K6 as [K6 [K7 _]].
    assert (NX : next_l (leap_year (yoe + 1)) c m' d' = if doy + 1 =? year_len yoe then (1, 3, 1) else rel_date (doy + 1)).
    { destruct (leap_year (yoe + 1)); rewrite LL.
      - cbn [orb] in K6. now apply date_eqb_eq.
      - apply orb_true_iff in K7 as [K7|K7]; [apply Z.eqb_eq in K7; lia|]. now apply date_eqb_eq. }
    rewrite NX. clear NX NL K1 K2 K3 K4 K5 K6 K7.
    destruct (year_ok_all yoe Hy) as (_ & _ & NS).
    destruct (Z.eqb_spec (doe + 1) 146097) as [W|W].
    + assert (yoe = 399 /\ doy = 365) as [-> ->].
      { destruct NS as [->|NS]; [change (year_start 399) with 145731 in Hd; lia|].
        destruct (Z.eq_dec yoe 399) as [->|]; [change (year_start 399) with 145731 in Hd; lia|].
        exfalso. assert (year_start (yoe + 1) <= 145731); [|lia].
        change 145731 with (year_start 399). unfold year_start.
        pose proof (Z.div_mod (yoe + 1) 4 ltac:(lia)). pose proof (Z.mod_pos_bound (yoe + 1) 4 ltac:(lia)).
        pose proof (Z.div_mod (yoe + 1) 100 ltac:(lia)). pose proof (Z.mod_pos_bound (yoe + 1) 100 ltac:(lia)).
        change (399 / 4) with 99. change (399 / 100) with 3. lia. }
      reflexivity.
    + destruct (doe_split (doe + 1) ltac:(lia)) as (yoe2 & doy2 & Hd2 & Hy2 & Ho2 & E2). rewrite E2.
      destruct (year_ok_all yoe2 Hy2) as (S1 & _ & _).
      assert (ORD : forall a b, 0 <= a < b -> b < 400 -> year_start a + year_len a <= year_start b).
      { intros a b Hab Hb. destruct (year_ok_all a ltac:(lia)) as (_ & _ & [Q|Q]); [lia|]. rewrite <- Q.
        unfold year_start. pose proof (Z.div_mod (a + 1) 4 ltac:(lia)). pose proof (Z.mod_pos_bound (a + 1) 4 ltac:(lia)).
        pose proof (Z.div_mod (a + 1) 100 ltac:(lia)). pose proof (Z.mod_pos_bound (a + 1) 100 ltac:(lia)).
        pose proof (Z.div_mod b 4 ltac:(lia)). pose proof (Z.mod_pos_bound b 4 ltac:(lia)).
        pose proof (Z.div_mod b 100 ltac:(lia)). pose proof (Z.mod_pos_bound b 100 ltac:(lia)). lia. }
      destruct (Z.eqb_spec (doy + 1) (year_len yoe)) as [L|L].
      * assert (yoe2 = yoe + 1 /\ doy2 = 0) as [-> ->].
        { destruct NS as [->|NS]; [change (year_start 399) with 145731 in Hd; change (year_len 399) with 366 in L; lia|].
          destruct (Z_lt_ge_dec yoe2 (yoe + 1)) as [C|C].
          - assert (C' : yoe2 = yoe \/ yoe2 < yoe) by lia. destruct C' as [->|C']; [lia|]. pose proof (ORD yoe2 yoe ltac:(lia) ltac:(lia)). lia.
          - destruct (Z.eq_dec yoe2 (yoe + 1)) as [->|N]; [lia|]. pose proof (ORD (yoe + 1) yoe2 ltac:(lia) ltac:(lia)).
            pose proof (year_len_leap (yoe + 1) ltac:(lia)). destruct (leap_year (yoe + 1 + 1)); lia. }
        change (month_day 0) with (3, 1). reflexivity.
      * assert (yoe2 = yoe /\ doy2 = doy + 1) as [-> ->].
        { destruct (Z_lt_ge_dec yoe2 yoe) as [C|C]; [pose proof (ORD yoe2 yoe ltac:(lia) ltac:(lia)); lia|].
          destruct (Z.eq_dec yoe2 yoe) as [->|N]; [lia|]. pose proof (ORD yoe yoe2 ltac:(lia) ltac:(lia)). lia. }
        unfold rel_date. destruct (month_day (doy + 1)) as [m3 d3]. destruct (m3 <=? 2); [reflexivity|]. now rewrite Z.add_0_r.
Qed.

Lemma leap_shift : forall y e, leap_year (y + 400 * e) = leap_year y.
Proof.
  intros. unfold leap_year.
  replace ((y + 400 * e) mod 4) with (y mod 4) by (replace (y + 400 * e) with (y + (100 * e) * 4) by lia; symmetry; apply Z.mod_add; lia).
  replace ((y + 400 * e) mod 100) with (y mod 100) by (replace (y + 400 * e) with (y + (4 * e) * 100) by lia; symmetry; apply Z.mod_add; lia).
  replace ((y + 400 * e) mod 400) with (y mod 400) by (replace (y + 400 * e) with (y + e * 400) by lia; symmetry; apply Z.mod_add; lia).
  reflexivity.
Qed.
Lemma next_shift : forall y m d e, next_date (y + 400 * e, m, d) = (let '(y', m', d') := next_date (y, m, d) in (y' + 400 * e, m', d')).
Proof.
  intros. unfold next_date, days_in_month. rewrite leap_shift.
  destruct (_ <? _); [reflexivity|]. destruct (_ <? _); [reflexivity|]. f_equal. f_equal. lia.
Qed.

(** Consecutive days have consecutive dates. *)
Lemma date_of_next_day : forall day, date_of_day (day + 1) = next_date (date_of_day day).
Proof.
  intros day. unfold date_of_day.
  set (z := day + 306). replace (day + 1 + 306) with (z + 1) by (unfold z; lia).
  pose proof (Z.mod_pos_bound z 146097 ltac:(lia)) as B. pose proof (Z.div_mod z 146097 ltac:(lia)) as D.
  destruct (date_of_doe (z mod 146097)) as [[y m] d] eqn:E.
  destruct (era_facts _ _ _ _ B E) as (_ & _ & _ & _ & N). rewrite next_shift, N.
  destruct (Z.eqb_spec (z mod 146097 + 1) 146097) as [W|W].
  - assert (Q : z + 1 = (z / 146097 + 1) * 146097) by lia. rewrite Q, Z.mod_mul, Z.div_mul by lia.
    destruct (date_of_doe 0) as [[y1 m1] d1]. f_equal. f_equal. lia.
  - assert (Q1 : (z + 1) / 146097 = z / 146097) by (symmetry; apply (Z.div_unique _ _ _ (z mod 146097 + 1)); lia).
    assert (Q2 : (z + 1) mod 146097 = z mod 146097 + 1) by (symmetry; apply (Z.mod_unique _ _ (z / 146097)); lia).
    rewrite Q1, Q2. destruct (date_of_doe (z mod 146097 + 1)) as [[y2 m2] d2]. reflexivity.
Qed.
Lemma date_of_day_range : forall day y m d, date_of_day day = (y, m, d) -> 1 <= m <= 12 /\ 1 <= d <= days_in_month y m.
Proof.
  intros day y m d H. unfold date_of_day in H. pose proof (Z.mod_pos_bound (day + 306) 146097 ltac:(lia)) as B.
  destruct (date_of_doe ((day + 306) mod 146097)) as [[y' m'] d'] eqn:E. apply pair_equal_spec in H as [H <-]. apply pair_equal_spec in H as [<- <-].
  destruct (era_facts _ _ _ _ B E) as (_ & _ & M & Dd & _). split; [assumption|].
  unfold days_in_month in *. now rewrite leap_shift.
Qed.
Lemma date_of_day_inj : forall a b, date_of_day a = date_of_day b -> a = b.
Proof.
  intros a b H. unfold date_of_day in H.
  pose proof (Z.mod_pos_bound (a + 306) 146097 ltac:(lia)) as Ba. pose proof (Z.mod_pos_bound (b + 306) 146097 ltac:(lia)) as Bb.
  pose proof (Z.div_mod (a + 306) 146097 ltac:(lia)). pose proof (Z.div_mod (b + 306) 146097 ltac:(lia)).
  destruct (date_of_doe ((a + 306) mod 146097)) as [[y m] d] eqn:Ea. destruct (date_of_doe ((b + 306) mod 146097)) as [[y' m'] d'] eqn:Eb.
  destruct (era_facts _ _ _ _ Ba Ea) as (Ra & Ya & _). destruct (era_facts _ _ _ _ Bb Eb) as (Rb & Yb & _).
  apply pair_equal_spec in H as [H ->]. apply pair_equal_spec in H as [Hy ->]. assert (y = y' /\ (a + 306) / 146097 = (b + 306) / 146097) as [-> Q] by (destruct (m' <=? 2); lia).
  rewrite Ra in Rb. lia.
Qed.

(** ** Padded numbers *)
Lemma dec_val_zeros : forall k s, dec_val (repeat 48%N k ++ s) = dec_val s.
Proof. induction k; intros; [reflexivity|]. cbn [repeat app]. unfold dec_val in *. cbn [fold_left]. apply IHk. Qed.
Lemma pad_digits : forall w n, forallb is_digit (pad w (dec n)) = true.
Proof.
  intros. unfold pad. rewrite forallb_app, dec_digits, andb_true_r. induction (w - length (dec n))%nat; [reflexivity|]. cbn. exact IHn0.
Qed.
Lemma pad_inj : forall w a b, pad w (dec a) = pad w (dec b) -> a = b.
Proof. intros w a b H. apply (f_equal dec_val) in H. unfold pad in H. now rewrite !dec_val_zeros, !dec_val_dec in H. Qed.
Lemma pad_head : forall w n c t, pad w (dec n) = c :: t -> (48 <= c <= 57)%N.
Proof. intros w n c t H. pose proof (pad_digits w n) as D. rewrite H in D. cbn in D. apply andb_true_iff in D as [D _]. now apply digit_range. Qed.
Lemma pad_nonempty : forall w n, pad w (dec n) <> [].
Proof. intros w n H. unfold pad in H. apply app_eq_nil in H as [_ H]. now apply dec_nonempty in H. Qed.
Lemma append_int_inj : forall w a b, append_int w a = append_int w b -> a = b.
Proof.
  intros w a b. unfold append_int. destruct (Z.ltb_spec a 0), (Z.ltb_spec b 0); intros E.
  - injection E as E. apply pad_inj in E. lia.
  - symmetry in E. apply pad_head in E. lia.
  - apply pad_head in E. lia.
  - apply pad_inj in E. lia.
Qed.
Lemma append_int_in : forall w z c, In c (append_int w z) -> c = 45%N \/ (48 <= c <= 57)%N.
Proof.
  intros w z c. unfold append_int. assert (P : forall n, In c (pad w (dec n)) -> (48 <= c <= 57)%N).
  { intros n H. pose proof (pad_digits w n) as D. rewrite forallb_forall in D. apply digit_range. auto. }
  destruct (z <? 0); intros H; [destruct H as [<-|H]; [now left|]|]; right; eapply P; eauto.
Qed.
Lemma append_int_2_length : forall z, 0 <= z < 100 -> length (append_int 2 z) = 2%nat.
Proof.
  intros z H. assert (K : all_in (fun z => (100 <=? z) || (Nat.eqb (length (append_int 2 z)) 2)) 7 0 = true) by (vm_compute; reflexivity).
  pose proof (all_in_spec _ _ _ K z) as Q. change (2 ^ Z.of_nat 7) with 128 in Q. specialize (Q ltac:(lia)). cbv beta in Q.
  apply orb_true_iff in Q as [Q|Q]; [apply Z.leb_le in Q; lia|]. now apply Nat.eqb_eq.
Qed.

Lemma app_same_len : forall A (a b c d : list A), length b = length d -> a ++ b = c ++ d -> a = c /\ b = d.
Proof.
  intros A. induction a as [|x a IH]; intros b [|y c] d L E; cbn in *.
  - auto.
  - subst b. cbn in L. rewrite app_length in L. lia.
  - subst d. cbn in L. rewrite app_length in L. lia.
  - injection E as -> E. destruct (IH _ _ _ L E) as [-> ->]. auto.
Qed.
Lemma app_len2 : forall A (a b c d : list A), length a = length c -> a ++ b = c ++ d -> a = c /\ b = d.
Proof.
  intros A. induction a as [|x a IH]; intros b [|y c] d L E; cbn in *; try discriminate; [auto|].
  injection E as -> E. destruct (IH _ c d ltac:(lia) E) as [-> ->]. auto.
Qed.

Lemma rfc3339_parts : forall t y m d, date_of_day (t / 1000000000 / 86400) = (y, m, d) ->
  let s := (t / 1000000000) mod 86400 in
  rfc3339 t = append_int 4 y ++ bs "-" ++ append_int 2 m ++ bs "-" ++ append_int 2 d ++ bs "T" ++
    append_int 2 (s / 3600) ++ bs ":" ++ append_int 2 (s / 60 mod 60) ++ bs ":" ++ append_int 2 (s mod 60) ++ bs "Z".
Proof. intros t y m d E. unfold rfc3339. now rewrite E. Qed.

Lemma rfc3339_seconds : forall t u, t / 1000000000 = u / 1000000000 -> rfc3339 t = rfc3339 u.
Proof. intros t u H. unfold rfc3339. now rewrite H. Qed.

Lemma days_in_month_le : forall y m, days_in_month y m <= 31.
Proof. intros. unfold days_in_month. destruct (m =? 2); [destruct (leap_year y); lia|]. destruct (_ || _); lia. Qed.

Lemma rfc3339_inj : forall t u, rfc3339 t = rfc3339 u -> t / 1000000000 = u / 1000000000.
Proof.
  intros t u H.
  destruct (date_of_day (t / 1000000000 / 86400)) as [[y m] d] eqn:E1.
  destruct (date_of_day (u / 1000000000 / 86400)) as [[y' m'] d'] eqn:E2.
  rewrite (rfc3339_parts _ _ _ _ E1), (rfc3339_parts _ _ _ _ E2) in H.
  destruct (date_of_day_range _ _ _ _ E1) as [M1 D1]. destruct (date_of_day_range _ _ _ _ E2) as [M2 D2].
  pose proof (days_in_month_le y m). pose proof (days_in_month_le y' m').
  set (a := t / 1000000000) in *. set (b := u / 1000000000) in *.
  pose proof (Z.mod_pos_bound a 86400 ltac:(lia)) as Ba. pose proof (Z.mod_pos_bound b 86400 ltac:(lia)) as Bb.
  set (s := a mod 86400) in *. set (s' := b mod 86400) in *.
  assert (HH : forall x, 0 <= x < 86400 -> 0 <= x / 3600 < 100 /\ 0 <= x / 60 mod 60 < 100 /\ 0 <= x mod 60 < 100).
  { intros x Hx. pose proof (Z.mod_pos_bound x 60 ltac:(lia)). pose proof (Z.mod_pos_bound (x / 60) 60 ltac:(lia)).
    split; [|lia]. split; [apply Z.div_pos; lia|]. apply Z.div_lt_upper_bound; lia. }
  destruct (HH s Ba) as (A1 & A2 & A3). destruct (HH s' Bb) as (B1 & B2 & B3).
  apply app_same_len in H as [Y H].
  2:{ rewrite !app_length. rewrite !append_int_2_length by lia. reflexivity. }
  apply append_int_inj in Y. subst y'.
  apply app_len2 in H as [_ H]; [|reflexivity]. apply app_len2 in H as [X1 H]; [|now rewrite !append_int_2_length by lia].
  apply app_len2 in H as [_ H]; [|reflexivity]. apply app_len2 in H as [X2 H]; [|now rewrite !append_int_2_length by lia].
  apply app_len2 in H as [_ H]; [|reflexivity]. apply app_len2 in H as [X3 H]; [|now rewrite !append_int_2_length by lia].
  apply app_len2 in H as [_ H]; [|reflexivity]. apply app_len2 in H as [X4 H]; [|now rewrite !append_int_2_length by lia].
  apply app_len2 in H as [_ H]; [|reflexivity]. apply app_len2 in H as [X5 H]; [|now rewrite !append_int_2_length by lia].
  apply append_int_inj in X1, X2, X3, X4, X5. subst m' d'.
  rewrite <- E2 in E1. apply date_of_day_inj in E1.
  assert (S : s = s').
  { pose proof (Z.div_mod s 60 ltac:(lia)) as K1. pose proof (Z.div_mod s' 60 ltac:(lia)) as K2.
    pose proof (Z.div_mod (s / 60) 60 ltac:(lia)) as K3. pose proof (Z.div_mod (s' / 60) 60 ltac:(lia)) as K4.
    rewrite Z.div_div in K3, K4 by lia. change (60 * 60) with 3600 in *. lia. }
  pose proof (Z.div_mod a 86400 ltac:(lia)) as K1. pose proof (Z.div_mod b 86400 ltac:(lia)) as K2. fold s in K1. fold s' in K2. lia.
Qed.
Lemma rfc3339_chars : forall t, ~ In cLF (rfc3339 t) /\ rfc3339 t <> [].
Proof.
  intros t. destruct (date_of_day (t / 1000000000 / 86400)) as [[y m] d] eqn:E1. rewrite (rfc3339_parts _ _ _ _ E1). cbv zeta.
  assert (P : forall w z, ~ In cLF (append_int w z)) by (intros w z H; apply append_int_in in H; unfold cLF in H; lia).
  split.
  - rewrite !in_app_iff. intros H.
    repeat (destruct H as [H|H]; [solve [eapply P; exact H | cbn in H; unfold cLF in H; destruct H as [H|[]]; discriminate H]|]).
    cbn in H. unfold cLF in H. destruct H as [H|[]]; discriminate H.
  - intros H. apply app_eq_nil in H as [_ H]. discriminate H.
Qed.
