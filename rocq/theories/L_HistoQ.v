(** The sketch with exact arithmetic, and the order of float64. *)
From Coq Require Import ZArith QArith Lia Lqa Floats.SpecFloat.
From Verif Require Import Base M_Float M_Histo S_Histo L_Histo.
Local Open Scope nat_scope.

(** ** float64 without NaN is ordered. *)
Definition not_nan (f : f64) : Prop := f <> S754_nan.
Definition f_cmp (a b : f64) : comparison := match SFcompare a b with Some c => c | None => Eq end.
Lemma f_cmp_some : forall a b, not_nan a -> not_nan b -> SFcompare a b = Some (f_cmp a b).
Proof. intros [s|s| |s m e] [s'|s'| |s' m' e'] Ha Hb; try (exfalso; apply Ha; reflexivity); try (exfalso; apply Hb; reflexivity); reflexivity. Qed.
(** A key that orders floats: sign, exponent, mantissa. *)
Definition lexc (c d : comparison) : comparison := match c with Eq => d | _ => c end.
Definition f_key (f : f64) : Z * Z * Z :=
  match f with
  | S754_infinity true => (-2, 0, 0)
  | S754_finite true m e => (-1, - e, Z.neg m)
  | S754_zero _ => (0, 0, 0)
  | S754_finite false m e => (1, e, Z.pos m)
  | S754_infinity false => (2, 0, 0)
  | S754_nan => (3, 0, 0)
  end%Z.
Definition k_cmp (a b : Z * Z * Z) : comparison :=
  let '(x, y, z) := a in let '(x', y', z') := b in lexc (Z.compare x x') (lexc (Z.compare y y') (Z.compare z z')).
Lemma f_cmp_key : forall a b, not_nan a -> not_nan b -> f_cmp a b = k_cmp (f_key a) (f_key b).
Proof.
  intros [s|s| |s m e] [s'|s'| |s' m' e'] Ha Hb; try (exfalso; apply Ha; reflexivity); try (exfalso; apply Hb; reflexivity);
    try destruct s; try destruct s'; try reflexivity; unfold f_cmp, SFcompare, f_key, k_cmp; cbn [lexc Z.compare].
  - rewrite Z.compare_opp, (Z.compare_antisym e e'). destruct (e ?= e')%Z eqn:E; reflexivity.
  - destruct (e ?= e')%Z; reflexivity.
Qed.
Lemma k_cmp_le : forall a b, k_cmp a b <> Gt <-> let '(x, y, z) := a in let '(x', y', z') := b in (x < x' \/ x = x' /\ (y < y' \/ y = y' /\ z <= z'))%Z.
Proof.
  intros [[x y] z] [[x' y'] z']. unfold k_cmp, lexc. destruct (Z.compare_spec x x'); [destruct (Z.compare_spec y y'); [destruct (Z.compare_spec z z')|..]|..]; split; intros; try lia; try discriminate; try congruence.
Qed.
Lemma f_leb_key : forall a b, not_nan a -> not_nan b -> f_leb a b = true <-> k_cmp (f_key a) (f_key b) <> Gt.
Proof.
  intros a b Ha Hb. unfold f_leb, SFleb. rewrite (f_cmp_some a b Ha Hb), (f_cmp_key a b Ha Hb). destruct (k_cmp _ _); split; intros; congruence || reflexivity.
Qed.
Lemma f_refl : forall a, not_nan a -> f_leb a a = true.
Proof. intros a Ha. apply f_leb_key; [assumption|assumption|]. apply k_cmp_le. destruct (f_key a) as [[x y] z]. lia. Qed.
Lemma f_trans : forall a b c, not_nan a -> not_nan b -> not_nan c -> f_leb a b = true -> f_leb b c = true -> f_leb a c = true.
Proof.
  intros a b c Ha Hb Hc. rewrite !f_leb_key by assumption. rewrite !k_cmp_le. destruct (f_key a) as [[x y] z], (f_key b) as [[x' y'] z'], (f_key c) as [[x2 y2] z2]. lia.
Qed.
Lemma f_total : forall a b, not_nan a -> not_nan b -> f_leb a b = true \/ f_leb b a = true.
Proof.
  intros a b Ha Hb. rewrite !f_leb_key by assumption. rewrite !k_cmp_le. destruct (f_key a) as [[x y] z], (f_key b) as [[x' y'] z']. lia.
Qed.
Lemma k_cmp_antisym : forall a b, k_cmp b a = CompOpp (k_cmp a b).
Proof.
  intros [[x y] z] [[x' y'] z']. unfold k_cmp. rewrite (Z.compare_antisym x x'), (Z.compare_antisym y y'), (Z.compare_antisym z z').
  destruct (x ?= x')%Z, (y ?= y')%Z, (z ?= z')%Z; reflexivity.
Qed.
Lemma f_lt_le : forall a b, not_nan a -> not_nan b -> f_ltb a b = negb (f_leb b a).
Proof.
  intros a b Ha Hb. unfold f_ltb, f_leb, SFltb, SFleb. rewrite (f_cmp_some a b Ha Hb), (f_cmp_some b a Hb Ha), !f_cmp_key by assumption.
  rewrite (k_cmp_antisym (f_key a) (f_key b)). destruct (k_cmp (f_key a) (f_key b)); reflexivity.
Qed.
Lemma f_eq_le : forall a b, not_nan a -> not_nan b -> f_eqb a b = f_leb a b && f_leb b a.
Proof.
  intros a b Ha Hb. unfold f_eqb, f_leb, SFeqb, SFleb. rewrite (f_cmp_some a b Ha Hb), (f_cmp_some b a Hb Ha), !f_cmp_key by assumption.
  rewrite (k_cmp_antisym (f_key a) (f_key b)). destruct (k_cmp (f_key a) (f_key b)); reflexivity.
Qed.

(** ** Rationals *)
Definition q_le : Q -> Q -> bool := Qle_bool.
Definition q_lt (a b : Q) : bool := negb (Qle_bool b a).
Definition q_eq : Q -> Q -> bool := Qeq_bool.
Definition any_q (_ : Q) : Prop := True.
Lemma q_refl : forall a, any_q a -> q_le a a = true.
Proof. intros a _. apply Qle_bool_iff. apply Qle_refl. Qed.
Lemma q_trans : forall a b c, any_q a -> any_q b -> any_q c -> q_le a b = true -> q_le b c = true -> q_le a c = true.
Proof. intros a b c _ _ _. unfold q_le. rewrite !Qle_bool_iff. apply Qle_trans. Qed.
Lemma q_total : forall a b, any_q a -> any_q b -> q_le a b = true \/ q_le b a = true.
Proof. intros a b _ _. unfold q_le. rewrite !Qle_bool_iff. lra. Qed.
Lemma q_lt_le : forall a b, any_q a -> any_q b -> q_lt a b = negb (q_le b a).
Proof. reflexivity. Qed.
Lemma q_eq_le : forall a b, any_q a -> any_q b -> q_eq a b = q_le a b && q_le b a.
Proof.
  intros a b _ _. unfold q_eq, q_le. destruct (Qeq_bool a b) eqn:E.
  - apply Qeq_bool_iff in E. symmetry. apply andb_true_intro. rewrite !Qle_bool_iff. lra.
  - destruct (Qle_bool a b) eqn:E1; [|reflexivity]. destruct (Qle_bool b a) eqn:E2; [|reflexivity]. exfalso.
    apply Qle_bool_iff in E1, E2. apply Qeq_bool_neq in E. apply E. lra.
Qed.
Lemma q_lt_iff : forall a b, q_le a b = true /\ q_le b a = false <-> (a < b)%Q.
Proof.
  intros a b. unfold q_le. rewrite Qle_bool_iff. split.
  - intros [H1 H2]. apply Qnot_le_lt. intros H. apply Qle_bool_iff in H. congruence.
  - intros H. split; [lra|]. destruct (Qle_bool b a) eqn:E; [|reflexivity]. apply Qle_bool_iff in E. lra.
Qed.

Section Exact.
  Variable big : Q.
  Notation centroid := (centroid Q).
  Notation sketch := (sketch Q).
  Notation c_merge := (c_merge Q Qplus Qmult Qdiv inject_Z).
  Notation add_many := (add_many Q q_lt q_le q_eq Qplus Qminus Qmult Qdiv inject_Z big).
  Notation closest := (closest Q q_lt Qminus).
  Notation asc := (asc Q q_le any_q).
  Definition q_mass (cs : list centroid) : Q := fold_right (fun c s => c_p c * inject_Z (Z.abs (c_m c)) + s)%Q 0%Q cs.

  Lemma q_asc_mid : forall l c r, asc (l ++ c :: r) <-> asc l /\ asc r /\
    (forall x, In x l -> (c_p x < c_p c)%Q) /\ (forall x, In x r -> (c_p c < c_p x)%Q) /\ (forall x y, In x l -> In y r -> (c_p x < c_p y)%Q).
  Proof.
    intros l c r. rewrite (asc_mid Q q_le any_q). split.
    - intros [H1 [H2 [_ [H3 [H4 H5]]]]]. split; [assumption|]. split; [assumption|]. split; [intros; apply q_lt_iff; auto|]. split; [intros; apply q_lt_iff; auto|intros; apply q_lt_iff; auto].
    - intros [H1 [H2 [H3 [H4 H5]]]]. split; [assumption|]. split; [assumption|]. split; [exact I|]. split; [intros; apply q_lt_iff; auto|]. split; [intros; apply q_lt_iff; auto|intros; apply q_lt_iff; auto].
  Qed.
  Lemma pos_Q : forall z, (z <> 0)%Z -> (0 < inject_Z (Z.abs z))%Q.
  Proof. intros z H. change 0%Q with (inject_Z 0). rewrite <- Zlt_Qlt. lia. Qed.
  (** The merged centroid lies between the two and keeps the mass. *)
  Lemma merge_between : forall c d, c_m c <> 0%Z -> c_m d <> 0%Z -> (c_p c < c_p d)%Q ->
    (c_p c < c_p (c_merge c d) < c_p d)%Q /\
    (c_p (c_merge c d) * inject_Z (Z.abs (c_m (c_merge c d))) == c_p c * inject_Z (Z.abs (c_m c)) + c_p d * inject_Z (Z.abs (c_m d)))%Q.
  Proof.
    intros c d Hc Hd H. unfold M_Histo.c_merge. cbn [c_p c_m]. rewrite Z.abs_opp. rewrite (Z.abs_eq (Z.abs (c_m c) + Z.abs (c_m d))) by lia.
    rewrite inject_Z_plus. pose proof (pos_Q _ Hc) as P1. pose proof (pos_Q _ Hd) as P2.
    set (m := inject_Z (Z.abs (c_m c))) in *. set (n := inject_Z (Z.abs (c_m d))) in *. set (a := c_p c) in *. set (b := c_p d) in *.
    assert (P : (0 < m + n)%Q) by lra. split; [split|].
    - apply Qlt_shift_div_l; [assumption|]. assert (a * n < b * n)%Q by (apply Qmult_lt_compat_r; assumption). lra.
    - apply Qlt_shift_div_r; [assumption|]. assert (a * m < b * m)%Q by (apply Qmult_lt_compat_r; assumption). lra.
    - field. lra.
  Qed.
  Lemma q_mass_app : forall a b, (q_mass (a ++ b) == q_mass a + q_mass b)%Q.
  Proof. induction a as [|c a IH]; intros b; [change (q_mass b == 0 + q_mass b)%Q; lra|].
    change (c_p c * inject_Z (Z.abs (c_m c)) + q_mass (a ++ b) == c_p c * inject_Z (Z.abs (c_m c)) + q_mass a + q_mass b)%Q. rewrite IH. lra. Qed.
  Lemma q_mass_cons : forall c l, q_mass (c :: l) = (c_p c * inject_Z (Z.abs (c_m c)) + q_mass l)%Q.
  Proof. reflexivity. Qed.

  Definition q_ok (h : sketch) : Prop := asc (sk_cs h) /\ Forall (fun c => (sk_min h <= c_p c <= sk_max h)%Q) (sk_cs h).
  Lemma q_lt_true : forall a b, q_lt a b = true <-> (a < b)%Q.
  Proof.
    intros a b. unfold q_lt. destruct (Qle_bool b a) eqn:E; cbn [negb].
    - apply Qle_bool_iff in E. split; [discriminate|lra].
    - split; [|reflexivity]. intros _. apply Qnot_le_lt. intros H. apply Qle_bool_iff in H. congruence.
  Qed.
  Lemma q_add : forall v n h, (0 < n)%Z -> room Q h -> q_ok h ->
    q_ok (add_many v n h) /\ (q_mass (sk_cs (add_many v n h)) == q_mass (sk_cs h) + v * inject_Z n)%Q.
  Proof.
    intros v n h Hn [R1 [R2 R3]] [Q1 Q2].
    destruct (add_cases Q q_lt q_le q_eq Qplus Qminus Qmult Qdiv inject_Z big v n h R1 R2) as [C1 [C2 [C4 [C5 C3]]]].
    set (h' := add_many v n h) in *.
    assert (MN : (sk_min h' <= v /\ sk_min h' <= sk_min h)%Q).
    { rewrite C4. destruct (q_lt v (sk_min h)) eqn:E; [apply q_lt_true in E; split; lra|]. split; [|lra]. apply Qnot_lt_le. intros H. apply q_lt_true in H. congruence. }
    assert (MX : (v <= sk_max h' /\ sk_max h <= sk_max h')%Q).
    { rewrite C5. destruct (q_lt (sk_max h) v) eqn:E; [apply q_lt_true in E; split; lra|]. split; [|lra]. apply Qnot_lt_le. intros H. apply q_lt_true in H. congruence. }
    assert (OLD : Forall (fun c => (sk_min h' <= c_p c <= sk_max h')%Q) (sk_cs h)) by (eapply Forall_impl; [|exact Q2]; cbn beta; intros c H; lra).
    destruct C3 as [[l [c [r [E1 [_ [Ev E2]]]]]]|[l [r [E1 [E0 [Ev C3]]]]]].
    - unfold q_ok. rewrite E2. rewrite E1 in *. apply Forall_mid in OLD, R3. destruct OLD as [O1 [O2 O3]]. destruct R3 as [R3 [R4 R5]].
      split; [split; [apply q_asc_mid in Q1; apply q_asc_mid; exact Q1|apply Forall_mid; auto]|]. rewrite !q_mass_app, !q_mass_cons. cbn [c_p c_m].
      apply Qeq_bool_iff in Ev. assert (EZ : Z.abs (c_m c + (if (c_m c <? 0)%Z then -1 else 1) * n) = (Z.abs (c_m c) + n)%Z) by (destruct (Z.ltb_spec (c_m c) 0); lia).
      rewrite EZ, inject_Z_plus, <- Ev. lra.
    - rewrite E1 in E0. assert (HI : asc (l ++ mkC v n :: r)) by (apply (asc_insert Q q_le q_eq any_q q_trans q_total q_eq_le); [exact I|rewrite <- E1; assumption|assumption|assumption]).
      assert (HB : Forall (fun c => (sk_min h' <= c_p c <= sk_max h')%Q) (l ++ mkC v n :: r)) by (rewrite E1 in OLD; apply Forall_app in OLD; destruct OLD; apply Forall_mid; cbn [c_p]; split; [assumption|split; [lra|assumption]]).
      assert (HZ : Forall (fun c => c_m c <> 0%Z) (l ++ mkC v n :: r)) by (rewrite E1 in R3; apply Forall_app in R3; destruct R3; apply Forall_mid; cbn [c_m]; split; [assumption|split; [lia|assumption]]).
      assert (HM : (q_mass (l ++ mkC v n :: r) == q_mass (sk_cs h) + v * inject_Z n)%Q) by (rewrite E1, !q_mass_app, q_mass_cons; cbn [c_p c_m]; rewrite Z.abs_eq by lia; lra).
      unfold q_ok. destruct C3 as [[E2 _]|[a [c [d [b [E2 [_ [E3 _]]]]]]]]; [rewrite E2; auto|]. rewrite E3. rewrite E2 in HI, HB, HZ, HM.
      pose proof HI as HI0. apply q_asc_mid in HI. destruct HI as [A1 [A2 [A3 [A4 A5]]]]. apply (q_asc_mid [] d b) in A2. destruct A2 as [_ [A2 [_ [A6 _]]]].
      apply Forall_mid in HB, HZ. destruct HB as [B1 [B2 B3]], HZ as [Z1 [Z2 Z3]]. inversion B3; subst. inversion Z3; subst.
      destruct (merge_between c d) as [M1 M2]; [assumption|assumption|apply A4; left; reflexivity|].
      split; [split|].
      + apply q_asc_mid. split; [assumption|]. split; [assumption|]. split; [intros x Hx; pose proof (A3 x Hx); lra|].
        split; [intros x Hx; pose proof (A6 x Hx); lra|]. intros x y Hx Hy. apply A5; [assumption|right; assumption].
      + apply Forall_mid. split; [assumption|]. split; [lra|assumption].
      + rewrite <- HM. rewrite !q_mass_app, !q_mass_cons, M2. lra.
  Qed.
  Lemma q_adds : forall vs h, Forall (fun v => (0 < snd v)%Z) vs -> room Q h -> q_ok h ->
    let h' := fold_left (fun h v => add_many (fst v) (snd v) h) vs h in q_ok h' /\ (q_mass (sk_cs h') == q_mass (sk_cs h) + mass vs)%Q.
  Proof.
    induction vs as [|[v n] vs IH]; intros h Hp R HQ; cbn [fold_left fst snd]; cbv zeta; [split; [assumption|cbn; lra]|].
    inversion Hp; subst. cbn [snd] in *. destruct (q_add v n h) as [A1 A2]; [assumption|assumption|assumption|].
    destruct (add_weight Q q_lt q_le q_eq Qplus Qminus Qmult Qdiv inject_Z big v n h) as [W _]; [assumption|assumption|].
    destruct (IH (add_many v n h)) as [I1 I2]; [assumption|assumption|assumption|]. split; [assumption|]. rewrite I2, A2. cbn [mass fold_right fst snd]. fold (mass vs). lra.
  Qed.
  (** Which pair is merged: the leftmost of the closest ones. *)
  Lemma closest_least : forall cs i mi md, exists k, closest i mi md cs = k /\
    (k = mi /\ (forall a c d b, cs = a ++ c :: d :: b -> (md <= c_p d - c_p c)%Q) \/
     exists a c d b, cs = a ++ c :: d :: b /\ k = (i + length a)%nat /\ (c_p d - c_p c < md)%Q /\
       (forall a' c' d' b', cs = a' ++ c' :: d' :: b' -> (length a' < length a)%nat -> (c_p d - c_p c < c_p d' - c_p c')%Q) /\
       (forall a' c' d' b', cs = a' ++ c' :: d' :: b' -> (c_p d - c_p c <= c_p d' - c_p c')%Q)).
  Proof.
    induction cs as [|x cs IH]; intros i mi md; [exists mi; split; [reflexivity|left; split; [reflexivity|intros [|] ? ? ? E; discriminate]]|].
    destruct cs as [|y r]; [exists mi; split; [reflexivity|left; split; [reflexivity|intros [|? [|]] ? ? ? E; discriminate]]|].
    change (closest i mi md (x :: y :: r)) with (if q_lt (c_p y - c_p x)%Q md then closest (S i) i (c_p y - c_p x)%Q (y :: r) else closest (S i) mi md (y :: r)).
    destruct (q_lt (c_p y - c_p x)%Q md) eqn:E.
    - apply q_lt_true in E. destruct (IH (S i) i (c_p y - c_p x)%Q) as [k [Ek [[K1 K2]|[a [c [d [b [K1 [K2 [K3 [K4 K5]]]]]]]]]]]; exists k; (split; [exact Ek|right]).
      + exists [], x, y, r. split; [reflexivity|]. split; [cbn; lia|]. split; [assumption|]. split; [intros [|] ? ? ? ? HH; cbn in HH; lia|].
        intros [|z a'] c' d' b' Eq; [injection Eq as <- <- <-; lra|]. injection Eq as <- Eq. apply (K2 a' c' d' b'). exact Eq.
      + exists (x :: a), c, d, b. split; [rewrite K1; reflexivity|]. split; [cbn [length]; lia|]. split; [lra|]. split.
        * intros [|z a'] c' d' b' Eq HH; [injection Eq as <- <- <-; assumption|]. injection Eq as <- Eq. cbn [length] in HH. apply (K4 a' c' d' b'); [exact Eq|lia].
        * intros [|z a'] c' d' b' Eq; [injection Eq as <- <- <-; lra|]. injection Eq as <- Eq. apply (K5 a' c' d' b'). exact Eq.
    - assert (E' : (md <= c_p y - c_p x)%Q) by (apply Qnot_lt_le; intros H; apply q_lt_true in H; congruence).
      destruct (IH (S i) mi md) as [k [Ek [[K1 K2]|[a [c [d [b [K1 [K2 [K3 [K4 K5]]]]]]]]]]]; exists k; (split; [exact Ek|]).
      + left. split; [assumption|]. intros [|z a'] c' d' b' Eq; [injection Eq as <- <- <-; assumption|]. injection Eq as <- Eq. apply (K2 a' c' d' b'). exact Eq.
      + right. exists (x :: a), c, d, b. split; [rewrite K1; reflexivity|]. split; [cbn [length]; lia|]. split; [assumption|]. split.
        * intros [|z a'] c' d' b' Eq HH; [injection Eq as <- <- <-; lra|]. injection Eq as <- Eq. cbn [length] in HH. apply (K4 a' c' d' b'); [exact Eq|lia].
        * intros [|z a'] c' d' b' Eq; [injection Eq as <- <- <-; lra|]. injection Eq as <- Eq. apply (K5 a' c' d' b'). exact Eq.
  Qed.
End Exact.
