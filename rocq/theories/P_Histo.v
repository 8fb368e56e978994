(** C50: the histogram sketch. *)
From Coq Require Import ZArith QArith Lia Lqa Floats.SpecFloat.
From Verif Require Import Base M_Float M_Histo S_Histo L_Histo L_HistoQ.
Local Open Scope nat_scope.

Section Weights.
  Variable F : Type.
  Variables flt fle feq : F -> F -> bool.
  Variables fadd fsub fmul fdiv : F -> F -> F.
  Variable of_Z : Z -> F.
  Variables fmax fmin : F.
  Notation add_many := (add_many F flt fle feq fadd fsub fmul fdiv of_Z fmax).
  (** Adding values with their counts one after the other. *)
  Definition adds (vs : list (F * Z)) (h : sketch F) : sketch F := fold_left (fun h v => add_many (fst v) (snd v) h) vs h.
  Lemma new_room : forall n h, sk_new F fmax fmin n = Ok h -> room F h /\ sk_cap h = S n /\ sk_cs h = [] /\ sk_count h = 0%Z /\ sk_min h = fmax /\ sk_max h = fmin /\ 1 <= n.
  Proof.
    intros [|n] h E; [discriminate|]. injection E as <-. cbn [sk_cs sk_cap sk_count sk_min sk_max]. unfold room. cbn [sk_cs sk_cap length].
    repeat split; try lia; constructor.
  Qed.
  (** Whatever the rounding: never more than n bins, and no value is lost. *)
  Theorem sketch_weights : forall n h0 vs, sk_new F fmax fmin n = Ok h0 -> Forall (fun v => (0 < snd v)%Z) vs ->
    let h := adds vs h0 in
    let '(bins, freqs) := read F fadd of_Z h in
    length freqs <= n /\ length bins = S (length freqs) /\ sk_count h = added F vs /\
    fold_right (fun m s => (Z.abs m + s)%Z) 0%Z freqs = added F vs.
  Proof.
    intros n h0 vs H0 Hp. destruct (new_room n h0 H0) as [R [C1 [C2 [C3 _]]]]. cbv zeta. unfold read, adds.
    destruct (adds_weight F flt fle feq fadd fsub fmul fdiv of_Z fmax vs h0 Hp R) as [[W1 [W2 _]] [W3 [W4 W5]]]. cbv zeta in *.
    set (h := fold_left _ vs h0) in *. rewrite app_length, !map_length. cbn [length]. split; [lia|]. split; [lia|]. split; [lia|].
    rewrite C2 in W4. cbn in W4. rewrite <- W4. generalize (sk_cs h). clear. intros l. unfold weight. induction l as [|c l IH]; [reflexivity|]. cbn [map fold_right]. rewrite IH. reflexivity.
  Qed.
  Theorem sketch_new_panics : forall n, sk_new F fmax fmin n = Panic <-> n = 0.
  Proof. intros [|n]; split; intros H; try discriminate; reflexivity. Qed.
  (** Merging another sketch adds its weight, if it has one per centroid. *)
  Theorem sketch_merge_weights : forall n h0 x, sk_new F fmax fmin n = Ok h0 -> Forall (fun c => c_m c <> 0%Z) (sk_cs x) -> forall vs, Forall (fun v => (0 < snd v)%Z) vs ->
    let h := adds vs h0 in let h' := sk_merge F flt fle feq fadd fsub fmul fdiv of_Z fmax h x in
    length (sk_cs h') <= n /\ sk_count h' = (sk_count h + weight F (sk_cs x))%Z /\ weight F (sk_cs h') = (weight F (sk_cs h) + weight F (sk_cs x))%Z.
  Proof.
    intros n h0 x H0 Hx vs Hp. destruct (new_room n h0 H0) as [R [C1 _]]. cbv zeta. unfold adds.
    destruct (adds_weight F flt fle feq fadd fsub fmul fdiv of_Z fmax vs h0 Hp R) as [R1 [C4 _]]. cbv zeta in *. set (h := fold_left _ vs h0) in *.
    pose proof (adds_weight F flt fle feq fadd fsub fmul fdiv of_Z fmax (map (fun c => (c_p c, Z.abs (c_m c))) (sk_cs x)) h) as W.
    assert (E1 : forall l h, fold_left (fun h v => add_many (fst v) (snd v) h) (map (fun c => (c_p c, Z.abs (c_m c))) l) h = fold_left (fun h c => add_many (c_p c) (Z.abs (c_m c)) h) l h)
      by (induction l as [|c l IH]; intros g; [reflexivity|cbn [map fold_left fst snd]; apply IH]).
    assert (E2 : added F (map (fun c => (c_p c, Z.abs (c_m c))) (sk_cs x)) = weight F (sk_cs x)).
    { unfold added, weight. generalize (sk_cs x). induction l as [|c l IH]; [reflexivity|]. cbn [map fold_right snd]. rewrite IH. reflexivity. }
    rewrite E1, E2 in W. destruct W as [[W1 [W2 _]] [W3 [W4 W5]]]; [|assumption|].
    { clear - Hx. induction Hx; cbn [map]; constructor; [cbn [snd]; lia|assumption]. }
    unfold sk_merge. split; [lia|]. split; assumption.
  Qed.
End Weights.

(** ** float64 *)
Notation f_adds := (adds f64 f_ltb f_leb f_eqb f_add f_sub f_mul f_div f_int f_max).
Notation f_new := (sk_new f64 f_max (f_neg f_max)).
Notation f_read := (read f64 f_add f_int).
Notation f_merge := (sk_merge f64 f_ltb f_leb f_eqb f_add f_sub f_mul f_div f_int f_max).
Definition finite (f : f64) : Prop := match f with S754_nan | S754_infinity _ => False | _ => valid_binary 53 1024 f = true end.
Lemma finite_not_nan : forall f, finite f -> not_nan f.
Proof. intros f H -> . exact H. Qed.
Lemma finite_le_max : forall f, finite f -> f_leb f f_max = true /\ f_leb (f_neg f_max) f = true.
Proof.
  assert (X : forall m e, bounded 53 1024 m e = true -> (e < 971 \/ e = 971 /\ Zpos m <= 9007199254740991)%Z).
  { intros m e H. unfold bounded in H. apply andb_prop in H. destruct H as [H1 H2]. apply Zle_bool_imp_le in H2. cbn in H2.
    destruct (Z.eq_dec e 971) as [->|]; [right; split; [reflexivity|]|left; lia]. unfold canonical_mantissa in H1. apply Zeq_bool_eq in H1. unfold fexp, emin in H1.
    assert (HD : (Zpos (digits2_pos m) <= 53)%Z) by lia. assert (P : forall p, (Zpos p < 2 ^ Zpos (digits2_pos p))%Z).
    { induction p as [p IH|p IH|]; cbn [digits2_pos]; [| |reflexivity]; rewrite Pos2Z.inj_succ, Z.pow_succ_r by lia; lia. }
    specialize (P m). assert (2 ^ Zpos (digits2_pos m) <= 2 ^ 53)%Z by (apply Z.pow_le_mono_r; lia). lia. }
  intros [s|s| |s m e] H; try contradiction.
  - destruct s; split; reflexivity.
  - cbn in H. apply X in H. rewrite !f_leb_key by (intros E; discriminate). rewrite !k_cmp_le. destruct s; cbn; lia.
Qed.
(** Min and Max are exact for finite values. *)
Theorem sketch_min_max : forall n h0 vs, f_new n = Ok h0 -> vs <> [] -> Forall (fun v => finite (fst v) /\ (0 < snd v)%Z) vs ->
  let h := f_adds vs h0 in least f64 f_leb (sk_min h) vs /\ greatest f64 f_leb (sk_max h) vs.
Proof.
  intros n h0 vs H0 Hne HV. destruct (new_room _ _ _ _ _ H0) as [_ [_ [_ [_ [C1 [C2 _]]]]]]. cbv zeta. unfold adds. rewrite Forall_forall in HV.
  assert (HN : forall v k, In (v, k) vs -> not_nan v) by (intros v k H; apply finite_not_nan, (HV _ H)).
  destruct (adds_min f64 f_ltb f_leb f_eqb f_add f_sub f_mul f_div f_int f_max not_nan f_refl f_trans f_total f_lt_le vs h0) as [M0 M1]; [assumption|rewrite C1; intros E; discriminate|].
  destruct (adds_max f64 f_ltb f_leb f_eqb f_add f_sub f_mul f_div f_int f_max not_nan f_refl f_trans f_total f_lt_le vs h0) as [X0 X1]; [assumption|rewrite C2; intros E; discriminate|].
  cbv zeta in *. set (h := fold_left _ vs h0) in *. destruct vs as [|[v k] vs]; [contradiction|]. rewrite C1 in M1. rewrite C2 in X1.
  assert (Fv : finite v) by (apply (HV (v, k)); left; reflexivity). destruct (finite_le_max v Fv) as [L1 L2].
  destruct M1 as [[w [j [M2 M3]]] M4], X1 as [[w' [j' [X2 X3]]] X4]. split; (split; [|intros x i Hx; try (apply (M4 x i); right; assumption); apply (X4 x i); right; assumption]).
  - destruct M2 as [E|M2]; [|exists w, j; auto]. injection E as <- _. exists v, k. split; [left; reflexivity|]. destruct M3 as [M3 _]. split; [|apply (M4 v k); right; left; reflexivity].
    apply (f_trans v f_max); try assumption; [apply (HN v k); left; reflexivity|intros E; discriminate].
  - destruct X2 as [E|X2]; [|exists w', j'; auto]. injection E as <- _. exists v, k. split; [left; reflexivity|]. destruct X3 as [_ X3]. split; [apply (X4 v k); right; left; reflexivity|].
    apply (f_trans _ (f_neg f_max)); try assumption; [intros E; discriminate|apply (HN v k); left; reflexivity].
Qed.
(** With at most n different values nothing is merged: the histogram is exact. *)
Theorem sketch_exact : forall n h0 vs, f_new n = Ok h0 -> Forall (fun v => not_nan (fst v) /\ (0 < snd v)%Z) vs -> at_most_distinct f64 f_leb n vs ->
  let '(bins, freqs) := f_read (f_adds vs h0) in
  exists values, bins = values ++ [f_add (sk_max (f_adds vs h0)) (f_int 1)] /\ ascending f64 f_leb values /\
    Forall2 (fun p m => (0 < m)%Z /\ times f64 f_leb p vs m) values freqs /\
    (forall v k, In (v, k) vs -> exists p, In p values /\ same f64 f_leb v p).
Proof.
  intros n h0 vs H0 HV [ds [HD [HI HX]]]. destruct (new_room _ _ _ _ _ H0) as [R [C1 [C2 _]]]. unfold read. rewrite Forall_forall in HV.
  assert (HN : forall v k, In (v, k) vs -> not_nan v) by (intros v k H; apply (HV _ H)).
  assert (T : tallies f64 f_leb not_nan vs (f_adds vs h0)).
  { unfold adds. apply (adds_tallies f64 f_ltb f_leb f_eqb f_add f_sub f_mul f_div f_int f_max not_nan f_refl f_trans f_total f_eq_le ds vs [] h0); try assumption.
    - rewrite Forall_forall. intros v H. apply HV. assumption.
    - unfold tallies. rewrite C2. split; [split; [exact I|constructor]|]. split; [constructor|]. split; [intros v k []|intros c []].
    - lia.
    - rewrite Forall_forall. intros d Hd. apply HI in Hd. apply in_map_iff in Hd. destruct Hd as [[v k] [<- Hd]]. apply (HN v k). assumption. }
  exists (map c_p (sk_cs (f_adds vs h0))). split; [reflexivity|]. destruct T as [[T1 _] [T2 [T3 _]]]. split; [assumption|]. split.
  - clear - T2. induction T2; cbn [map]; constructor; assumption.
  - intros v k Hv. destruct (T3 v k Hv) as [c [Hc Hs]]. exists (c_p c). split; [apply in_map; assumption|assumption].
Qed.

(** ** Exact arithmetic: what the algorithm keeps when nothing is rounded. *)
Section Rational.
  Variable big : Q.                       (* math.MaxFloat64 *)
  Variable q_sqrt : Q -> Q.
  Notation q_adds := (adds Q q_lt q_le q_eq Qplus Qminus Qmult Qdiv inject_Z big).
  Notation q_new := (sk_new Q big (- big)%Q).
  Notation q_sum := (sum Q q_lt q_le q_eq Qplus Qminus Qmult Qdiv inject_Z).
  Notation q_quantile := (quantile Q q_lt q_eq Qplus Qminus Qmult Qdiv q_sqrt inject_Z).
  Definition in_range (v : Q) : Prop := (- big <= v <= big)%Q.

  Lemma q_made : forall n h0 vs, q_new n = Ok h0 -> Forall (fun v => (0 < snd v)%Z) vs ->
    room Q (q_adds vs h0) /\ q_ok (q_adds vs h0) /\ (q_mass (sk_cs (q_adds vs h0)) == mass vs)%Q.
  Proof.
    intros n h0 vs H0 Hp. destruct (new_room _ _ _ _ _ H0) as [R [C1 [C2 _]]].
    assert (Q0 : q_ok h0) by (unfold q_ok; rewrite C2; split; [split; [exact I|constructor]|constructor]).
    destruct (L_HistoQ.q_adds big vs h0 Hp R Q0) as [A1 A2]. destruct (adds_weight Q q_lt q_le q_eq Qplus Qminus Qmult Qdiv inject_Z big vs h0 Hp R) as [W _].
    split; [exact W|]. split; [exact A1|]. unfold adds. rewrite A2, C2. cbn. lra.
  Qed.
  (** The bins are strictly ascending, between Min and Max, and keep the sum of all values. *)
  Theorem sketch_rational : forall n h0 vs, q_new n = Ok h0 -> Forall (fun v => (0 < snd v)%Z) vs ->
    let h := q_adds vs h0 in
    ascending Q q_le (map c_p (sk_cs h)) /\ Forall (fun p => (sk_min h <= p <= sk_max h)%Q) (map c_p (sk_cs h)) /\
    (fold_right (fun c s => c_p c * inject_Z (Z.abs (c_m c)) + s) 0 (sk_cs h) == mass vs)%Q.
  Proof.
    intros n h0 vs H0 Hp. destruct (q_made n h0 vs H0 Hp) as [_ [[[A1 _] A2] A3]]. cbv zeta. split; [assumption|]. split; [|exact A3].
    clear - A2. induction A2; cbn [map]; constructor; assumption.
  Qed.
  (** The pair merged is the leftmost of the closest ones. *)
  Theorem sketch_merges_closest : forall v k h, room Q h -> length (sk_cs h) = sk_cap h - 1 ->
    (forall c, In c (sk_cs h) -> ~ c_p c == v)%Q -> ascending Q q_le (map c_p (sk_cs h)) ->
    (forall c d, In c (mkC v k :: sk_cs h) -> In d (mkC v k :: sk_cs h) -> (c_p d - c_p c < big)%Q) ->
    exists a c d b l r, sk_cs h = l ++ r /\ l ++ mkC v k :: r = a ++ c :: d :: b /\ ascending Q q_le (map c_p (a ++ c :: d :: b)) /\
      (forall a' c' d' b', a ++ c :: d :: b = a' ++ c' :: d' :: b' -> (c_p d - c_p c <= c_p d' - c_p c')%Q) /\
      (forall a' c' d' b', a ++ c :: d :: b = a' ++ c' :: d' :: b' -> length a' < length a -> (c_p d - c_p c < c_p d' - c_p c')%Q) /\
      exists m, sk_cs (add_many Q q_lt q_le q_eq Qplus Qminus Qmult Qdiv inject_Z big v k h) = a ++ m :: b /\
        c_m m = (- (Z.abs (c_m c) + Z.abs (c_m d)))%Z /\
        (c_p m == (c_p c * inject_Z (Z.abs (c_m c)) + c_p d * inject_Z (Z.abs (c_m d))) / inject_Z (Z.abs (c_m c) + Z.abs (c_m d)))%Q.
  Proof.
    intros v k h [R1 [R2 R3]] HL HV HA HB.
    destruct (add_cases Q q_lt q_le q_eq Qplus Qminus Qmult Qdiv inject_Z big v k h R1 R2) as [_ [_ [_ [_ [[l [c [r [E1 [_ [Ev _]]]]]]|[l [r [E1 [E0 [Ev C3]]]]]]]]]].
    { exfalso. apply (HV c); [rewrite E1; apply in_or_app; right; left; reflexivity|]. apply Qeq_bool_iff. exact Ev. }
    destruct C3 as [[_ E3]|[a [c [d [b [E2 [E4 [E3 _]]]]]]]]; [lia|]. exists a, c, d, b, l, r. split; [assumption|]. split; [assumption|].
    assert (AS : L_Histo.asc Q q_le any_q (sk_cs h)) by (split; [assumption|clear; induction (sk_cs h); constructor; [exact I|assumption]]).
    rewrite E1 in E0. assert (HI : L_Histo.asc Q q_le any_q (l ++ mkC v k :: r)) by (apply (asc_insert Q q_le q_eq any_q q_trans q_total q_eq_le); [exact I|rewrite <- E1; assumption|assumption|assumption]).
    rewrite E2 in *. split; [apply HI|].
    destruct (closest_least (a ++ c :: d :: b) 0 0 big) as [i [Ei [[_ K]|[a2 [c2 [d2 [b2 [K1 [K2 [K3 [K4 K5]]]]]]]]]]].
    { exfalso. assert (IN : forall x, In x (a ++ c :: d :: b) -> In x (mkC v k :: sk_cs h)) by (rewrite <- E2, E1; intros x Hx; apply in_app_or in Hx; destruct Hx as [Hx|[<-|Hx]]; [right; apply in_or_app; auto|left; reflexivity|right; apply in_or_app; auto]).
      specialize (K a c d b eq_refl). assert (c_p d - c_p c < big)%Q by (apply HB; apply IN, in_or_app; right; [left|right; left]; reflexivity). lra. }
    assert (EL : length a = length a2) by (rewrite E4, Ei, K2; lia).
    assert (EA : a = a2 /\ c :: d :: b = c2 :: d2 :: b2).
    { clear - K1 EL. revert a2 K1 EL. induction a as [|x a IH]; intros [|y a2] K EL; try discriminate; [auto|]. cbn in K, EL. injection K as -> K. injection EL as EL. destruct (IH a2 K EL) as [-> ->]. auto. }
    destruct EA as [<- EA]. injection EA as <- <- <-. split; [intros a' c' d' b' E; apply (K5 a' c' d' b' E)|]. split; [intros a' c' d' b' E; apply (K4 a' c' d' b' E)|].
    eexists. split; [exact E3|]. unfold c_merge. cbn [c_m c_p]. split; [reflexivity|apply Qeq_refl].
  Qed.

  Lemma sum_split : forall cs p, L_Histo.asc Q q_le any_q cs -> exists l r, cs = l ++ r /\ length l = sort_search (length cs) (at_cs Q (fun c => q_lt p (c_p c)) cs) /\
    (forall c, In c l -> (c_p c <= p)%Q) /\ (forall c, In c r -> (p < c_p c)%Q).
  Proof.
    intros cs p HA. set (k := sort_search _ _). assert (Hk : k <= length cs) by apply search_le.
    assert (EL : cs = firstn k cs ++ skipn k cs) by (symmetry; apply firstn_skipn).
    assert (HL : length (firstn k cs) = k) by (rewrite firstn_length; lia). exists (firstn k cs), (skipn k cs). split; [assumption|]. split; [assumption|].
    destruct (asc_search Q q_le any_q (fun x => q_lt p x) (firstn k cs) (skipn k cs)) as [P1 P2].
    { rewrite <- EL. assumption. }
    { intros a b _ _ Hab Ha. apply q_lt_true in Ha. apply Qle_bool_iff in Hab. apply q_lt_true. lra. }
    { rewrite <- EL. exact HL. }
    split.
    - intros c Hc. specialize (P1 c Hc). destruct (Qlt_le_dec p (c_p c)) as [X|X]; [|assumption]. apply q_lt_true in X. congruence.
    - intros c Hc. apply q_lt_true. apply P2. assumption.
  Qed.
  Lemma get_mid : forall (h : sketch Q) l ci cj r k, sk_cs h = (l ++ [ci]) ++ cj :: r -> length (l ++ [ci]) = k -> get_centroids Q h k = Ok (ci, cj).
  Proof.
    intros h l ci cj r k EL HL. rewrite app_length in HL. cbn [length] in HL.
    unfold get_centroids. destruct k as [|j]; [lia|]. rewrite EL, !app_length. cbn [length]. destruct (Nat.eqb_spec (S j) (length l + 1 + S (length r))); [lia|].
    rewrite nth_error_app1 by (rewrite app_length; cbn [length]; lia). rewrite nth_error_app2 by lia. replace (j - length l) with 0 by lia. change (nth_error [ci] 0) with (Some ci).
    rewrite nth_error_app2 by (rewrite app_length; cbn [length]; lia). rewrite app_length. cbn [length]. replace (S j - (length l + 1)) with 0 by lia. reflexivity.
  Qed.
  Lemma get_last : forall (h : sketch Q) l ci k, sk_cs h = l ++ [ci] -> length (l ++ [ci]) = k -> get_centroids Q h k = Ok (ci, mkC (sk_max h) 0).
  Proof.
    intros h l ci k EL HL. rewrite app_length in HL. cbn [length] in HL.
    unfold get_centroids. destruct k as [|j]; [lia|]. rewrite EL, !app_length. cbn [length]. destruct (Nat.eqb_spec (S j) (length l + 1)); [|lia].
    rewrite nth_error_app2 by lia. replace (j - length l) with 0 by lia. reflexivity.
  Qed.
  Lemma firstn_pred : forall (l : list (centroid Q)) ci r k, length (l ++ [ci]) = k -> firstn (k - 1) ((l ++ [ci]) ++ r) = l.
  Proof. intros l ci r k H. rewrite app_length in H. cbn [length] in H. rewrite <- app_assoc, firstn_app. replace (k - 1) with (length l) by lia. rewrite firstn_all, Nat.sub_diag, firstn_O, app_nil_r. reflexivity. Qed.
  (** Sum stays between 0 and the count, merged or not. *)
  Lemma area : forall s mi mj p pi pj, (0 <= s)%Q -> (0 <= mi)%Q -> (0 <= mj)%Q -> (pi <= p)%Q -> (p < pj)%Q ->
    let x := (s + mi / 2 + (mi + (mi + (mj - mi) * (p - pi) / (pj - pi))) * (p - pi) / 2 / (pj - pi))%Q in (0 <= x <= s + mi + mj / 2)%Q.
  Proof.
    intros s mi mj p pi pj Hs Hi Hj H1 H2. cbv zeta. set (x := ((p - pi) / (pj - pi))%Q).
    assert (E : (s + mi / 2 + (mi + (mi + (mj - mi) * (p - pi) / (pj - pi))) * (p - pi) / 2 / (pj - pi) == s + mi / 2 + (2 * mi * x + (mj - mi) * (x * x)) / 2)%Q) by (unfold x; field; lra).
    rewrite E. assert (X0 : (0 <= x)%Q) by (unfold x; apply Qle_shift_div_l; lra). assert (X1 : (x <= 1)%Q) by (unfold x; apply Qle_shift_div_r; lra). clearbody x. clear E.
    assert (A : (0 <= x * x)%Q) by nra. assert (B : (x * x <= x)%Q) by nra. assert (C1 : (0 <= mj * (x * x))%Q) by nra. assert (C2 : (mj * (x * x) <= mj)%Q) by nra.
    assert (D1 : (0 <= mi * (x - x * x))%Q) by nra. assert (D2 : (0 <= mi * x)%Q) by nra. assert (D3 : (0 <= mi * ((1 - x) * (1 - x)))%Q) by (apply Qmult_le_0_compat; nra).
    split; [|]; unfold Qdiv; change (/ 2)%Q with (1 # 2)%Q; lra.
  Qed.
  Lemma added_nonneg : forall l : list (Q * Z), Forall (fun v => (0 < snd v)%Z) l -> (0 <= added Q l)%Z.
  Proof. intros l H. induction H as [|[w j] l P H IH]; cbn in *; [lia|]. fold (added Q l) in *. lia. Qed.
  Theorem sketch_sum_bounds : forall n h0 vs p, q_new n = Ok h0 -> Forall (fun v => (0 < snd v)%Z) vs -> Forall (fun v => in_range (fst v)) vs -> vs <> [] ->
    exists s, q_sum (q_adds vs h0) p = Ok s /\ (0 <= s <= inject_Z (added Q vs))%Q.
  Proof.
    intros n h0 vs p H0 Hp Hr Hne. destruct (q_made n h0 vs H0 Hp) as [R [[A1 A2] _]]. destruct (new_room _ _ _ _ _ H0) as [R0 [_ [C2 [C3 _]]]].
    destruct (adds_weight Q q_lt q_le q_eq Qplus Qminus Qmult Qdiv inject_Z big vs h0 Hp R0) as [_ [_ [W1 W2]]]. cbv zeta in W1, W2.
    change (fold_left _ vs h0) with (q_adds vs h0) in W1, W2. rewrite C2 in W1. cbn [weight fold_right] in W1. rewrite C3 in W2. rewrite Z.add_0_l in W1, W2. set (h := q_adds vs h0) in *. clearbody h.
    assert (WN : forall l, (0 <= weight Q l)%Z) by (intros l; induction l as [|c l IH]; [cbn; lia|rewrite weight_cons; lia]).
    assert (ZL : forall a b, (a <= b)%Z -> (inject_Z a <= inject_Z b)%Q) by (intros a b X; rewrite <- Zle_Qle; assumption).
    assert (AN : (0 <= added Q vs)%Z) by (rewrite <- W1; apply WN).
    assert (AP : (0 < added Q vs)%Z) by (destruct vs as [|[v k] r]; [contradiction|]; pose proof (Forall_inv Hp) as P1; pose proof (Forall_inv_tail Hp) as P2; cbn [snd] in P1; cbn; fold (added Q r); pose proof (added_nonneg r P2); lia).
    unfold sum. destruct (q_le (sk_max h) p) eqn:L1; [|destruct (q_lt p (sk_min h)) eqn:L2].
    - eexists. split; [reflexivity|]. rewrite W2. split; [apply (ZL 0%Z); assumption|apply Qle_refl].
    - eexists. split; [reflexivity|]. split; [apply Qle_refl|apply (ZL 0%Z); assumption].
    - assert (NM : ~ (sk_max h <= p)%Q) by (intros X; apply Qle_bool_iff in X; change (q_le (sk_max h) p = true) in X; congruence).
      assert (Nm : ~ (p < sk_min h)%Q) by (intros X; apply q_lt_true in X; congruence).
      destruct (sum_split (sk_cs h) p A1) as [l [r [EL [HL [P1 P2]]]]]. set (k := sort_search _ _) in *. clearbody k.
      assert (CE : sk_cs h <> []) by (intros E; rewrite E in W1; cbn in W1; lia).
      destruct l as [|x l0] eqn:El; [|destruct (exists_last (l := l)) as [l' [ci El2]]; [rewrite El; discriminate|]; rewrite <- El in *; clear El; subst l].
      + cbn in HL. subst k. cbn [app] in EL. destruct r as [|cj r]; [contradiction|]. unfold get_centroids. rewrite EL. cbn [Nat.sub firstn weight fold_right c_m c_p Z.ltb Z.compare andb Z.abs]. eexists. split; [reflexivity|].
        pose proof (area 0 0 (inject_Z (Z.abs (c_m cj))) p (sk_min h) (c_p cj)) as B. cbv zeta in B. specialize (P2 cj (or_introl eq_refl)).
        destruct B as [B1 B2]; try lra; [apply (ZL 0%Z); lia|]. unfold two. change (inject_Z 2) with 2%Q. change (inject_Z 0) with 0%Q. split; [exact B1|].
        rewrite EL, weight_cons in W1. pose proof (WN r). assert (B3 : (inject_Z (Z.abs (c_m cj)) <= inject_Z (added Q vs))%Q) by (apply ZL; lia). assert (B4 : (0 <= inject_Z (Z.abs (c_m cj)))%Q) by (apply (ZL 0%Z); lia).
        eapply Qle_trans; [exact B2|]. unfold Qdiv. change (/ 2)%Q with (1 # 2)%Q. lra.
      + assert (G : exists cj, get_centroids Q h k = Ok (ci, cj) /\ (p < c_p cj)%Q /\ (weight Q l' + Z.abs (c_m ci) + Z.abs (c_m cj) <= added Q vs)%Z).
        { destruct r as [|cj r].
          - rewrite app_nil_r in EL. exists (mkC (sk_max h) 0%Z). split; [apply (get_last h l'); assumption|]. cbn [c_p c_m]. split; [lra|]. rewrite EL, weight_app, weight_cons in W1. cbn [weight fold_right] in W1. lia.
          - exists cj. split; [apply (get_mid h l' ci cj r); assumption|]. split; [apply P2; left; reflexivity|]. rewrite EL, !weight_app, !weight_cons in W1. cbn [weight fold_right] in W1. pose proof (WN r). lia. }
        destruct G as [cj [EG [Hpj HW]]]. rewrite EG. assert (EF : firstn (k - 1) (sk_cs h) = l') by (rewrite EL; apply firstn_pred; assumption). rewrite EF.
        assert (Pi : (c_p ci <= p)%Q) by (apply P1, in_or_app; right; left; reflexivity).
        pose proof (WN l'). assert (S0 : (0 <= inject_Z (weight Q l'))%Q) by (apply (ZL 0%Z); lia). assert (S1 : (0 <= inject_Z (Z.abs (c_m ci)))%Q) by (apply (ZL 0%Z); lia). assert (S2 : (0 <= inject_Z (Z.abs (c_m cj)))%Q) by (apply (ZL 0%Z); lia).
        assert (S3 : (inject_Z (weight Q l') + inject_Z (Z.abs (c_m ci)) + inject_Z (Z.abs (c_m cj)) <= inject_Z (added Q vs))%Q) by (rewrite <- !inject_Z_plus; apply ZL; assumption).
        destruct (((0 <? c_m ci)%Z && ((0 <? c_m cj)%Z || q_eq (c_p ci) p))%bool) eqn:EB; eexists; (split; [reflexivity|]).
        * apply andb_prop in EB. destruct EB as [EB _]. apply Z.ltb_lt in EB. replace (Z.abs (c_m ci)) with (c_m ci) in * by lia. lra.
        * pose proof (area (inject_Z (weight Q l')) (inject_Z (Z.abs (c_m ci))) (inject_Z (Z.abs (c_m cj))) p (c_p ci) (c_p cj) S0 S1 S2 Pi Hpj) as B. cbv zeta in B. unfold two. change (inject_Z 2) with 2%Q.
          destruct B as [B1 B2]. split; [exact B1|]. eapply Qle_trans; [exact B2|]. unfold Qdiv. change (/ 2)%Q with (1 # 2)%Q. lra.
  Qed.
  Lemma loop_spec : forall cs t s pv i w i' s', (s + pv == inject_Z w)%Q -> q_loop Q q_lt Qplus Qdiv inject_Z t s pv i cs = (i', s') ->
    exists a b, cs = a ++ b /\ i' = i + length a /\
      (forall a1 c a2, a = a1 ++ c :: a2 -> (inject_Z (w + weight Q a1) + inject_Z (Z.abs (c_m c)) / 2 <= t)%Q) /\
      (forall c b', b = c :: b' -> (t < inject_Z (w + weight Q a) + inject_Z (Z.abs (c_m c)) / 2)%Q).
  Proof.
    induction cs as [|c cs IH]; intros t s pv i w i' s' Hw E.
    - injection E as <- <-. exists [], []. split; [reflexivity|]. split; [cbn; lia|]. split; [intros [|] ? ? X; discriminate|intros ? ? X; discriminate].
    - cbn [q_loop] in E. unfold two in E. change (inject_Z 2) with 2%Q in E. destruct (q_lt t (s + inject_Z (Z.abs (c_m c)) / 2 + pv)%Q) eqn:L.
      + injection E as <- <-. apply q_lt_true in L. exists [], (c :: cs). split; [reflexivity|]. split; [cbn; lia|]. split; [intros [|] ? ? X; discriminate|]. intros x b' X. injection X as <- <-.
        cbn [weight fold_right]. rewrite Z.add_0_r, <- Hw. lra.
      + assert (NL : ~ (t < s + inject_Z (Z.abs (c_m c)) / 2 + pv)%Q) by (intros X; apply q_lt_true in X; congruence).
        assert (Hw' : (s + (inject_Z (Z.abs (c_m c)) / 2 + pv) + inject_Z (Z.abs (c_m c)) / 2 == inject_Z (w + Z.abs (c_m c)))%Q) by (rewrite inject_Z_plus, <- Hw; field).
        destruct (IH _ _ _ _ (w + Z.abs (c_m c))%Z _ _ Hw' E) as [a [b [E1 [E2 [E3 E4]]]]].
        exists (c :: a), b. split; [rewrite E1; reflexivity|]. split; [cbn [length]; lia|]. split.
        * intros [|y a1] x a2 X; injection X as <- X; [cbn [weight fold_right]; rewrite Z.add_0_r, <- Hw; lra|]. rewrite weight_cons, Z.add_assoc. apply (E3 a1 x a2 X).
        * intros x b' X. rewrite weight_cons, Z.add_assoc. apply (E4 x b' X).
  Qed.
  (** Sum and Quantile while nothing is merged. *)
  Section Tally.
    Variables (n : nat) (h0 : sketch Q) (vs : list (Q * Z)).
    Hypothesis New : q_new n = Ok h0.
    Hypothesis Pos : Forall (fun v => (0 < snd v)%Z) vs.
    Hypothesis Range : Forall (fun v => in_range (fst v)) vs.
    Hypothesis Few : at_most_distinct Q q_le n vs.
    Notation h := (q_adds vs h0).
    Lemma t_tallies : tallies Q q_le any_q vs h.
    Proof.
      destruct Few as [ds [HD [_ HX]]]. destruct (new_room _ _ _ _ _ New) as [R [C1 [C2 _]]].
      unfold adds. apply (adds_tallies Q q_lt q_le q_eq Qplus Qminus Qmult Qdiv inject_Z big any_q q_refl q_trans q_total q_eq_le ds vs [] h0); try assumption.
      - intros; exact I.
      - unfold tallies. rewrite C2. split; [split; [exact I|constructor]|]. split; [constructor|]. split; [intros v k []|intros c []].
      - lia.
      - clear. induction ds; constructor; [exact I|assumption].
    Qed.
    Lemma t_weight_if : forall f, respects Q q_le any_q f -> weight_if Q f (sk_cs h) = count_if Q f vs.
    Proof.
      intros f Hf. destruct Few as [ds [HD [_ HX]]]. destruct (new_room _ _ _ _ _ New) as [R [C1 [C2 _]]]. unfold adds.
      rewrite (adds_weight_if Q q_lt q_le q_eq Qplus Qminus Qmult Qdiv inject_Z big any_q q_refl q_trans q_total q_eq_le f ds vs [] h0); try assumption.
      - rewrite C2. cbn. lia.
      - intros; exact I.
      - unfold tallies. rewrite C2. split; [split; [exact I|constructor]|]. split; [constructor|]. split; [intros v k []|intros c []].
      - lia.
      - clear. induction ds; constructor; [exact I|assumption].
    Qed.
    Lemma t_asc : L_Histo.asc Q q_le any_q (sk_cs h).
    Proof. apply t_tallies. Qed.
    Lemma t_min : vs <> [] -> exists c r, sk_cs h = c :: r /\ (c_p c == sk_min h)%Q.
    Proof.
      intros Hne. destruct (new_room _ _ _ _ _ New) as [_ [_ [_ [_ [C1 _]]]]]. destruct t_tallies as [T1 [T2 [T3 T4]]].
      destruct (adds_min Q q_lt q_le q_eq Qplus Qminus Qmult Qdiv inject_Z big any_q q_refl q_trans q_total q_lt_le vs h0) as [_ [[w [j [M2 M3]]] M4]]; [intros; exact I|exact I|].
      cbv zeta in *. fold (adds Q q_lt q_le q_eq Qplus Qminus Qmult Qdiv inject_Z big vs h0) in M3, M4. rewrite C1 in M2, M4. destruct M3 as [M3a M3b]. apply Qle_bool_iff in M3a. apply Qle_bool_iff in M3b.
      assert (ML : forall v k, In (v, k) vs -> (sk_min h <= v)%Q) by (intros v k Hv; apply Qle_bool_iff; apply (M4 v k); right; assumption).
      assert (MH : exists v k, In (v, k) vs /\ (v == sk_min h)%Q).
      { destruct M2 as [E|M2]; [|exists w, j; split; [assumption|lra]]. injection E as <- _. destruct vs as [|[v k] r]; [contradiction|]. exists v, k. split; [left; reflexivity|].
        pose proof (ML v k (or_introl eq_refl)). inversion Range; subst. unfold in_range in *. cbn [fst] in *. lra. }
      destruct MH as [v [k [Hv Ev]]]. destruct (T3 v k Hv) as [c [Hc [S1 S2]]]. apply Qle_bool_iff in S1. apply Qle_bool_iff in S2.
      destruct (sk_cs h) as [|c0 r] eqn:Ecs; [contradiction|]. exists c0, r. split; [reflexivity|].
      destruct (T4 c0) as [v0 [k0 [Hv0 [S3 S4]]]]; [left; reflexivity|]. apply Qle_bool_iff in S3. apply Qle_bool_iff in S4. pose proof (ML v0 k0 Hv0).
      destruct Hc as [<-|Hc]; [lra|]. apply (q_asc_mid [] c0 r) in T1. destruct T1 as [_ [_ [_ [T1 _]]]]. specialize (T1 c Hc). lra.
    Qed.
    Lemma t_max : vs <> [] -> (exists c, In c (sk_cs h) /\ (c_p c == sk_max h)%Q) /\ (forall c, In c (sk_cs h) -> (c_p c <= sk_max h)%Q) /\ (forall v k, In (v, k) vs -> (v <= sk_max h)%Q).
    Proof.
      intros Hne. destruct (new_room _ _ _ _ _ New) as [_ [_ [_ [_ [_ [C1 _]]]]]]. destruct t_tallies as [T1 [T2 [T3 T4]]].
      destruct (adds_max Q q_lt q_le q_eq Qplus Qminus Qmult Qdiv inject_Z big any_q q_refl q_trans q_total q_lt_le vs h0) as [_ [[w [j [M2 M3]]] M4]]; [intros; exact I|exact I|].
      cbv zeta in *. fold (adds Q q_lt q_le q_eq Qplus Qminus Qmult Qdiv inject_Z big vs h0) in M3, M4. rewrite C1 in M2, M4. destruct M3 as [M3a M3b]. apply Qle_bool_iff in M3a. apply Qle_bool_iff in M3b.
      assert (ML : forall v k, In (v, k) vs -> (v <= sk_max h)%Q) by (intros v k Hv; apply Qle_bool_iff; apply (M4 v k); right; assumption).
      assert (MH : exists v k, In (v, k) vs /\ (v == sk_max h)%Q).
      { destruct M2 as [E|M2]; [|exists w, j; split; [assumption|lra]]. injection E as <- _. destruct vs as [|[v k] r]; [contradiction|]. exists v, k. split; [left; reflexivity|].
        pose proof (ML v k (or_introl eq_refl)). inversion Range; subst. unfold in_range in *. cbn [fst] in *. lra. }
      split; [|split; [|assumption]].
      - destruct MH as [v [k [Hv Ev]]]. destruct (T3 v k Hv) as [c [Hc [S1 S2]]]. apply Qle_bool_iff in S1. apply Qle_bool_iff in S2. exists c. split; [assumption|lra].
      - intros c Hc. destruct (T4 c Hc) as [v [k [Hv [S1 S2]]]]. apply Qle_bool_iff in S1. apply Qle_bool_iff in S2. pose proof (ML v k Hv). lra.
    Qed.
    Lemma t_pos : Forall (fun c => (0 < c_m c)%Z) (sk_cs h).
    Proof. destruct t_tallies as [_ [T2 _]]. eapply Forall_impl; [|exact T2]. intros c H. apply H. Qed.
    Lemma weight_pos_if : forall f cs, (forall c, In c cs -> f (c_p c) = true) -> weight_if Q f cs = weight Q cs.
    Proof. intros f cs. induction cs as [|c cs IH]; intros H; [reflexivity|]. rewrite weight_if_cons, weight_cons, (H c) by (left; reflexivity). rewrite IH by (intros; apply H; right; assumption). reflexivity. Qed.
    Lemma weight_none_if : forall f cs, (forall c, In c cs -> f (c_p c) = false) -> weight_if Q f cs = 0%Z.
    Proof. intros f cs. induction cs as [|c cs IH]; intros H; [reflexivity|]. rewrite weight_if_cons, (H c) by (left; reflexivity). apply IH. intros; apply H; right; assumption. Qed.
    Lemma respects_le : forall p, respects Q q_le any_q (fun v => Qle_bool v p).
    Proof.
      intros p a b _ _ [S1 S2]. unfold q_le in *. rewrite Qle_bool_iff in S1, S2. destruct (Qle_bool a p) eqn:E1, (Qle_bool b p) eqn:E2; try reflexivity; exfalso.
      - apply Qle_bool_iff in E1. enough (Qle_bool b p = true) by congruence. apply Qle_bool_iff. lra.
      - apply Qle_bool_iff in E2. enough (Qle_bool a p = true) by congruence. apply Qle_bool_iff. lra.
    Qed.
    Lemma respects_lt : forall p, respects Q q_le any_q (fun v => q_lt v p).
    Proof.
      intros p a b _ _ [S1 S2]. unfold q_le in *. rewrite Qle_bool_iff in S1, S2. destruct (q_lt a p) eqn:E1, (q_lt b p) eqn:E2; try reflexivity; exfalso.
      - apply q_lt_true in E1. enough (q_lt b p = true) by congruence. apply q_lt_true. lra.
      - apply q_lt_true in E2. enough (q_lt a p = true) by congruence. apply q_lt_true. lra.
    Qed.
    Lemma respects_same : forall p, respects Q q_le any_q (fun v => Qeq_bool v p).
    Proof.
      intros p a b _ _ [S1 S2]. unfold q_le in *. rewrite Qle_bool_iff in S1, S2. destruct (Qeq_bool a p) eqn:E1, (Qeq_bool b p) eqn:E2; try reflexivity; exfalso.
      - apply Qeq_bool_iff in E1. enough (Qeq_bool b p = true) by congruence. apply Qeq_bool_iff. lra.
      - apply Qeq_bool_iff in E2. enough (Qeq_bool a p = true) by congruence. apply Qeq_bool_iff. lra.
    Qed.
    Lemma t_vs : sk_cs h <> [] -> vs <> [].
    Proof. intros H E. destruct (t_tallies) as [_ [_ [_ T4]]]. destruct (sk_cs h) as [|c r]; [contradiction|]. destruct (T4 c) as [v [k [Hv _]]]; [left; reflexivity|]. rewrite E in Hv. contradiction. Qed.
    Lemma t_count : sk_count h = added Q vs.
    Proof.
      destruct (new_room _ _ _ _ _ New) as [R [_ [_ [C3 _]]]]. unfold adds. destruct (adds_weight Q q_lt q_le q_eq Qplus Qminus Qmult Qdiv inject_Z big vs h0 Pos R) as [_ [_ [_ W]]]. cbv zeta in W. rewrite W, C3. lia.
    Qed.
    Lemma count_all : forall f vs, (forall v k, In (v, k) vs -> f v = true) -> count_if Q f vs = added Q vs.
    Proof. intros f l. induction l as [|[v k] l IH]; intros H; [reflexivity|]. cbn. rewrite (H v k) by (left; reflexivity). fold (count_if Q f l) (added Q l). rewrite IH by (intros w j Hw; apply (H w j); right; assumption). reflexivity. Qed.
    Lemma count_none : forall f vs, (forall v k, In (v, k) vs -> f v = false) -> count_if Q f vs = 0%Z.
    Proof. intros f l. induction l as [|[v k] l IH]; intros H; [reflexivity|]. cbn. rewrite (H v k) by (left; reflexivity). fold (count_if Q f l). apply IH. intros w j Hw; apply (H w j); right; assumption. Qed.
    (** Sum counts the values up to p. *)
    Lemma t_sum : forall p, vs <> [] -> exists s, q_sum h p = Ok s /\ (s == inject_Z (count_if Q (fun v => Qle_bool v p) vs))%Q.
    Proof.
      intros p Hne. destruct (t_min Hne) as [c0 [r0 [E0 Emin]]]. destruct (t_max Hne) as [[cm [Hcm Emax]] [Hmax Vmax]]. unfold sum.
      destruct (q_le (sk_max h) p) eqn:L1; [|destruct (q_lt p (sk_min h)) eqn:L2].
      - eexists. split; [reflexivity|]. rewrite t_count. rewrite (count_all (fun v => Qle_bool v p)); [apply Qeq_refl|]. intros v k Hv. apply Qle_bool_iff. apply Qle_bool_iff in L1. pose proof (Vmax v k Hv). lra.
      - eexists. split; [reflexivity|]. apply q_lt_true in L2. rewrite <- (t_weight_if (fun v => Qle_bool v p) (respects_le p)), weight_none_if; [apply Qeq_refl|].
        intros c Hc. destruct (Qle_bool (c_p c) p) eqn:E; [|reflexivity]. apply Qle_bool_iff in E. exfalso. rewrite E0 in Hc. destruct Hc as [<-|Hc]; [lra|].
        pose proof t_asc as A. rewrite E0 in A. apply (q_asc_mid [] c0 r0) in A. destruct A as [_ [_ [_ [A _]]]]. specialize (A c Hc). lra.
      - destruct (sum_split (sk_cs h) p t_asc) as [l [r [EL [HL [P1 P2]]]]]. set (k := sort_search _ _) in *.
        assert (NM : ~ (sk_max h <= p)%Q) by (intros X; apply Qle_bool_iff in X; change (q_le (sk_max h) p = true) in X; congruence).
        assert (Nm : ~ (p < sk_min h)%Q) by (intros X; apply q_lt_true in X; congruence).
        assert (HR : exists cj r', r = cj :: r').
        { destruct r as [|cj r']; [exfalso|eauto]. rewrite app_nil_r in EL. rewrite EL in Hcm. specialize (P1 _ Hcm). lra. }
        assert (HL2 : exists l' ci, l = l' ++ [ci]).
        { destruct l as [|x l'] eqn:El; [exfalso|rewrite <- El; destruct (exists_last (l := l)) as [l2 [c2 X]]; [rewrite El; discriminate|eauto]].
          cbn in EL. rewrite E0 in EL. rewrite <- EL in P2. specialize (P2 c0 (or_introl eq_refl)). lra. }
        destruct HR as [cj [r' Er]], HL2 as [l' [ci El]]. clearbody k. subst r l.
        rewrite (get_mid h l' ci cj r' k EL HL). pose proof t_pos as TP. rewrite Forall_forall in TP. assert (Pi : (0 < c_m ci)%Z) by (apply TP; rewrite EL; apply in_or_app; left; apply in_or_app; right; left; reflexivity).
        assert (Pj : (0 < c_m cj)%Z) by (apply TP; rewrite EL; apply in_or_app; right; left; reflexivity).
        destruct (Z.ltb_spec 0 (c_m ci)); [|lia]. destruct (Z.ltb_spec 0 (c_m cj)); [|lia]. cbn [andb orb]. eexists. split; [reflexivity|].
        rewrite <- (t_weight_if (fun v => Qle_bool v p) (respects_le p)), EL.
        rewrite (firstn_pred l' ci (cj :: r') k HL).
        rewrite weight_if_app, (weight_pos_if _ (l' ++ [ci])), (weight_none_if _ (cj :: r')).
        + rewrite weight_app, weight_cons. cbn [weight fold_right]. rewrite <- inject_Z_plus. replace (Z.abs (c_m ci)) with (c_m ci) by lia.
          replace (weight Q l' + (c_m ci + 0) + 0)%Z with (weight Q l' + c_m ci)%Z by lia. apply Qeq_refl.
        + intros c Hc. specialize (P2 c Hc). destruct (Qle_bool (c_p c) p) eqn:E; [|reflexivity]. apply Qle_bool_iff in E. lra.
        + intros c Hc. apply Qle_bool_iff. apply P1. assumption.
    Qed.
    Lemma count_ext : forall f g l, (forall x, f x = g x) -> count_if Q f l = count_if Q g l.
    Proof. intros f g l H. induction l as [|[v k] l IH]; [reflexivity|]. cbn. fold (count_if Q f l) (count_if Q g l). rewrite IH, H. reflexivity. Qed.
    Lemma mid_ext : forall a b, (a == b)%Q -> (mid_rank a vs == mid_rank b vs)%Q.
    Proof.
      intros a b E. unfold mid_rank. rewrite (count_ext (fun x => negb (Qle_bool a x)) (fun x => negb (Qle_bool b x))), (count_ext (fun x => Qeq_bool x a) (fun x => Qeq_bool x b)); [apply Qeq_refl| |].
      - intros x. destruct (Qeq_bool x a) eqn:E1, (Qeq_bool x b) eqn:E2; try reflexivity; exfalso.
        + apply Qeq_bool_iff in E1. enough (Qeq_bool x b = true) by congruence. apply Qeq_bool_iff. lra.
        + apply Qeq_bool_iff in E2. enough (Qeq_bool x a = true) by congruence. apply Qeq_bool_iff. lra.
      - intros x. f_equal. destruct (Qle_bool a x) eqn:E1, (Qle_bool b x) eqn:E2; try reflexivity; exfalso.
        + apply Qle_bool_iff in E1. enough (Qle_bool b x = true) by congruence. apply Qle_bool_iff. lra.
        + apply Qle_bool_iff in E2. enough (Qle_bool a x = true) by congruence. apply Qle_bool_iff. lra.
    Qed.
    Lemma t_mid : forall a c b, sk_cs h = a ++ c :: b -> (mid_rank (c_p c) vs == inject_Z (0 + weight Q a) + inject_Z (Z.abs (c_m c)) / 2)%Q.
    Proof.
      intros a c b E. unfold mid_rank. pose proof t_asc as A. rewrite E in A. apply q_asc_mid in A. destruct A as [_ [_ [A1 [A2 _]]]].
      rewrite (count_ext (fun x => negb (Qle_bool (c_p c) x)) (fun x => q_lt x (c_p c))) by reflexivity.
      rewrite <- (t_weight_if (fun x => q_lt x (c_p c)) (respects_lt _)), <- (t_weight_if (fun x => Qeq_bool x (c_p c)) (respects_same _)), E.
      rewrite !weight_if_app, !weight_if_cons.
      rewrite (weight_pos_if (fun x => q_lt x (c_p c)) a), (weight_none_if (fun x => q_lt x (c_p c)) b), (weight_none_if (fun x => Qeq_bool x (c_p c)) a), (weight_none_if (fun x => Qeq_bool x (c_p c)) b).
      - assert (X : q_lt (c_p c) (c_p c) = false) by (destruct (q_lt (c_p c) (c_p c)) eqn:X; [apply q_lt_true in X; lra|reflexivity]). rewrite X.
        assert (Y : Qeq_bool (c_p c) (c_p c) = true) by (apply Qeq_bool_iff; apply Qeq_refl). rewrite Y. rewrite !Z.add_0_r, Z.add_0_l. apply Qeq_refl.
      - intros x Hx. specialize (A2 x Hx). destruct (Qeq_bool (c_p x) (c_p c)) eqn:X; [|reflexivity]. apply Qeq_bool_iff in X. lra.
      - intros x Hx. specialize (A1 x Hx). destruct (Qeq_bool (c_p x) (c_p c)) eqn:X; [|reflexivity]. apply Qeq_bool_iff in X. lra.
      - intros x Hx. specialize (A2 x Hx). destruct (q_lt (c_p x) (c_p c)) eqn:X; [|reflexivity]. apply q_lt_true in X. lra.
      - intros x Hx. apply q_lt_true. apply A1. assumption.
    Qed.
    Lemma t_quantile : forall p, vs <> [] -> (0 <= p <= 1)%Q -> let t := (p * inject_Z (added Q vs))%Q in
      exists q v k, q_quantile h p = Ok q /\ In (v, k) vs /\ (q == v)%Q /\
        ((t < mid_rank v vs)%Q /\ (forall w j, In (w, j) vs -> (w < v)%Q -> (mid_rank w vs <= t)%Q) \/
         (forall w j, In (w, j) vs -> (mid_rank w vs <= t)%Q /\ (w <= v)%Q)).
    Proof.
      intros p Hne Hp. cbv zeta. destruct (t_min Hne) as [c0 [r0 [E0 Emin]]]. destruct (t_max Hne) as [[cm [Hcm Emax]] [Hmax Vmax]]. destruct t_tallies as [A0 [_ [T3 T4]]]. pose proof t_asc as A. pose proof t_pos as TP. rewrite Forall_forall in TP.
      assert (AP : (0 < added Q vs)%Z).
      { rewrite <- (count_all (fun _ => true)) by reflexivity. rewrite <- t_weight_if by (intros ? ? _ _ _; reflexivity). rewrite weight_pos_if by reflexivity. rewrite E0, weight_cons.
        specialize (TP c0). rewrite E0 in TP. specialize (TP (or_introl eq_refl)). assert (WN : forall l, (0 <= weight Q l)%Z) by (intros l; induction l as [|c l IH]; [cbn; lia|rewrite weight_cons; lia]). pose proof (WN r0). lia. }
      unfold quantile. change (inject_Z 0) with 0%Q. change (inject_Z 1) with 1%Q.
      destruct (q_lt p 0) eqn:L1; [apply q_lt_true in L1; lra|]. destruct (q_lt 1 p) eqn:L2; [apply q_lt_true in L2; lra|]. cbn [orb]. rewrite t_count.
      destruct (Z.ltb_spec (added Q vs) 1); [lia|]. set (t := (p * inject_Z (added Q vs))%Q). destruct (q_loop Q q_lt Qplus Qdiv inject_Z t 0%Q 0%Q 0 (sk_cs h)) as [i s] eqn:EQ.
      destruct (loop_spec (sk_cs h) t 0%Q 0%Q 0 0%Z i s (Qplus_0_l 0) EQ) as [a [b [E1 [E2 [E3 E4]]]]]. cbn [plus] in E2. subst i.
      assert (VAL : forall c, In c (sk_cs h) -> exists v k, In (v, k) vs /\ (c_p c == v)%Q).
      { intros c Hc. destruct (T4 c Hc) as [v [k [Hv [S1 S2]]]]. apply Qle_bool_iff in S1. apply Qle_bool_iff in S2. exists v, k. split; [assumption|lra]. }
      assert (LOW : forall w j c, In (w, j) vs -> In c a -> (w == c_p c)%Q -> (mid_rank w vs <= t)%Q).
      { intros w j c Hw Hc Ew. rewrite (mid_ext w (c_p c) Ew). destruct (in_split c a Hc) as [a1 [a2 Ea]]. rewrite (t_mid a1 c (a2 ++ b)) by (rewrite E1, Ea, <- app_assoc; reflexivity). apply (E3 a1 c a2 Ea). }
      assert (MID : forall c b', b = c :: b' -> forall q, (q == c_p c)%Q -> exists v k, In (v, k) vs /\ (q == v)%Q /\ ((t < mid_rank v vs)%Q /\ (forall w j, In (w, j) vs -> (w < v)%Q -> (mid_rank w vs <= t)%Q))).
      { intros c b' Eb q Hq. destruct (VAL c) as [v [k [Hv Ev]]]; [rewrite E1, Eb; apply in_or_app; right; left; reflexivity|]. exists v, k. split; [assumption|]. split; [lra|]. split.
        - rewrite (mid_ext v (c_p c)) by lra. rewrite (t_mid a c b') by (rewrite E1, Eb; reflexivity). apply (E4 c b' Eb).
        - intros w j Hw Hlt. destruct (T3 w j Hw) as [d [Hd [S1 S2]]]. apply Qle_bool_iff in S1. apply Qle_bool_iff in S2. rewrite E1, Eb in Hd. apply in_app_or in Hd. destruct Hd as [Hd|Hd]; [apply (LOW w j d); try assumption; lra|].
          exfalso. rewrite E1, Eb in A. apply q_asc_mid in A. destruct A as [_ [_ [_ [A _]]]]. destruct Hd as [<-|Hd]; [lra|]. specialize (A d Hd). lra. }
      destruct b as [|cj b'].
      - destruct (exists_last (l := a)) as [l [ci Ea]]; [intros X; rewrite X, E0 in E1; discriminate|]. subst a. rewrite app_nil_r in E1. rewrite (get_last h l ci _ E1 eq_refl). cbn [c_m c_p]. rewrite andb_false_r.
        assert (Pm : (c_p ci == sk_max h)%Q).
        { assert (Hci : In ci (sk_cs h)) by (rewrite E1; apply in_or_app; right; left; reflexivity). pose proof (Hmax ci Hci). rewrite E1 in Hcm, A. apply in_app_or in Hcm. destruct Hcm as [Hc|[<-|[]]]; [|assumption].
          apply (q_asc_mid l ci []) in A. destruct A as [_ [_ [A _]]]. specialize (A cm Hc). lra. }
        assert (R : exists q, (if q_eq (inject_Z (Z.abs 0 - Z.abs (c_m ci))) 0 then Ok (c_p ci + (sk_max h - c_p ci) * ((t - s) / inject_Z (Z.abs (c_m ci))))%Q
           else Ok (c_p ci + (sk_max h - c_p ci) * ((0 - two Q inject_Z * inject_Z (Z.abs (c_m ci)) + q_sqrt (two Q inject_Z * inject_Z (Z.abs (c_m ci)) * (two Q inject_Z * inject_Z (Z.abs (c_m ci))) - inject_Z 4 * inject_Z (Z.abs 0 - Z.abs (c_m ci)) * (inject_Z (-2) * (t - s)))) / (two Q inject_Z * inject_Z (Z.abs 0 - Z.abs (c_m ci)))))%Q) = Ok q /\ (q == sk_max h)%Q).
        { assert (ZZ : forall y, (c_p ci + (sk_max h - c_p ci) * y == sk_max h)%Q) by (intros y; rewrite Pm; ring). destruct (q_eq _ 0); eexists; (split; [reflexivity|apply ZZ]). }
        destruct R as [q [R1 R2]]. destruct (VAL ci) as [v [k [Hv Ev]]]; [rewrite E1; apply in_or_app; right; left; reflexivity|]. exists q, v, k. split; [exact R1|]. split; [assumption|]. split; [lra|]. right.
        intros w j Hw. split; [|pose proof (Vmax w j Hw); lra]. destruct (T3 w j Hw) as [d [Hd [S1 S2]]]. apply Qle_bool_iff in S1. apply Qle_bool_iff in S2. rewrite E1 in Hd. apply (LOW w j d); try assumption; lra.
      - destruct a as [|x a0] eqn:Ea; [|destruct (exists_last (l := a)) as [l [ci Ea2]]; [rewrite Ea; discriminate|]; rewrite <- Ea in *; clear Ea; subst a].
        + cbn [length]. assert (G : get_centroids Q h 0 = Ok (mkC (sk_min h) 0%Z, cj)) by (unfold get_centroids; rewrite E1; reflexivity). rewrite G. clear G. cbn [app c_m c_p Z.ltb Z.compare andb]. cbn [app] in E1. rewrite E0 in E1. injection E1 as <- <-.
          assert (R : exists q, (if q_eq (inject_Z (Z.abs (c_m c0) - Z.abs 0)) 0 then Ok (sk_min h + (c_p c0 - sk_min h) * ((t - s) / inject_Z (Z.abs 0)))%Q
            else Ok (sk_min h + (c_p c0 - sk_min h) * ((0 - two Q inject_Z * inject_Z (Z.abs 0) + q_sqrt (two Q inject_Z * inject_Z (Z.abs 0) * (two Q inject_Z * inject_Z (Z.abs 0)) - inject_Z 4 * inject_Z (Z.abs (c_m c0) - Z.abs 0) * (inject_Z (-2) * (t - s)))) / (two Q inject_Z * inject_Z (Z.abs (c_m c0) - Z.abs 0))))%Q) = Ok q /\ (q == c_p c0)%Q).
          { assert (ZZ : forall y, (sk_min h + (c_p c0 - sk_min h) * y == c_p c0)%Q) by (intros y; rewrite Emin; ring). destruct (q_eq _ 0); eexists; (split; [reflexivity|apply ZZ]). }
          destruct R as [q [R1 R2]]. destruct (MID c0 r0 eq_refl q R2) as [v [k [Hv [Ev M]]]]. exists q, v, k. split; [exact R1|]. split; [assumption|]. split; [assumption|]. left. exact M.
        + rewrite (get_mid h l ci cj b' _ E1 eq_refl). assert (Pi : (0 < c_m ci)%Z) by (apply TP; rewrite E1; apply in_or_app; left; apply in_or_app; right; left; reflexivity).
          assert (Pj : (0 < c_m cj)%Z) by (apply TP; rewrite E1; apply in_or_app; right; left; reflexivity).
          destruct (Z.ltb_spec 0 (c_m ci)); [|lia]. destruct (Z.ltb_spec 0 (c_m cj)); [|lia]. cbn [andb]. destruct (MID cj b' eq_refl (c_p cj) (Qeq_refl _)) as [v [k [Hv [Ev M]]]]. exists (c_p cj), v, k. split; [reflexivity|]. split; [assumption|]. split; [assumption|]. left. exact M.
    Qed.
  End Tally.
  (** With at most n different values, Sum(p) counts the values up to p, *)
  Theorem sketch_sum_exact : forall n h0 vs p, q_new n = Ok h0 -> vs <> [] -> Forall (fun v => (0 < snd v)%Z) vs -> Forall (fun v => in_range (fst v)) vs -> at_most_distinct Q q_le n vs ->
    exists s, q_sum (q_adds vs h0) p = Ok s /\ (s == inject_Z (count_if Q (fun v => Qle_bool v p) vs))%Q.
  Proof. intros n h0 vs p H0 Hne Hp Hr Hd. apply (t_sum n h0 vs H0 Hp Hr Hd p Hne). Qed.
  (** and Quantile(p) is the first value whose middle rank is beyond p * count, or the greatest. *)
  Theorem sketch_quantile_exact : forall n h0 vs p, q_new n = Ok h0 -> vs <> [] -> Forall (fun v => (0 < snd v)%Z) vs -> Forall (fun v => in_range (fst v)) vs -> at_most_distinct Q q_le n vs -> (0 <= p <= 1)%Q ->
    let t := (p * inject_Z (added Q vs))%Q in
    exists q v k, q_quantile (q_adds vs h0) p = Ok q /\ In (v, k) vs /\ (q == v)%Q /\
      ((t < mid_rank v vs)%Q /\ (forall w j, In (w, j) vs -> (w < v)%Q -> (mid_rank w vs <= t)%Q) \/
       (forall w j, In (w, j) vs -> (mid_rank w vs <= t)%Q /\ (w <= v)%Q)).
  Proof. intros n h0 vs p H0 Hne Hp Hr Hd Hpr. apply (t_quantile n h0 vs H0 Hp Hr Hd p Hne Hpr). Qed.
End Rational.

(** ** Panics: with any rounding, Quantile panics exactly on a bad p or an empty sketch; Sum never on a sketch with values. *)
Section Panics.
  Variable F : Type.
  Variables flt fle feq : F -> F -> bool.
  Variables fadd fsub fmul fdiv : F -> F -> F.
  Variable fsqrt : F -> F.
  Variable of_Z : Z -> F.
  Variables fmax fmin : F.
  Notation adds := (adds F flt fle feq fadd fsub fmul fdiv of_Z fmax).
  Notation quantile := (quantile F flt feq fadd fsub fmul fdiv fsqrt of_Z).
  Notation sum := (sum F flt fle feq fadd fsub fmul fdiv of_Z).
  Lemma made : forall n h0 vs, sk_new F fmax fmin n = Ok h0 -> Forall (fun v => (0 < snd v)%Z) vs -> sk_count (adds vs h0) = added F vs /\ weight F (sk_cs (adds vs h0)) = added F vs /\ (vs <> [] -> (0 < added F vs)%Z /\ sk_cs (adds vs h0) <> []) /\ sk_cap (adds vs h0) = S n.
  Proof.
    intros n h0 vs H0 Hp. destruct (new_room _ _ _ _ _ H0) as [R [C1 [C2 [C3 _]]]]. unfold P_Histo.adds.
    destruct (adds_weight F flt fle feq fadd fsub fmul fdiv of_Z fmax vs h0 Hp R) as [_ [W3 [W1 W2]]]. cbv zeta in *. set (h := fold_left _ vs h0) in *. rewrite C2 in W1. cbn in W1.
    assert (NN : forall l : list (F * Z), Forall (fun v => (0 < snd v)%Z) l -> (0 <= added F l)%Z) by (intros l H; induction H as [|[w j] l P H IH]; [cbn; lia|cbn in *; unfold added in IH; lia]).
    split; [lia|]. split; [lia|]. split; [|lia]. intros Hne. assert (0 < added F vs)%Z. { destruct vs as [|[v k] r]; [contradiction|]. pose proof (NN r (Forall_inv_tail Hp)). pose proof (Forall_inv Hp) as P. cbn in P. cbn. unfold added in H. lia. }
    split; [assumption|]. intros E. rewrite E in W1. cbn in W1. lia.
  Qed.
  Lemma get_ok : forall (h : sketch F) i, i <= length (sk_cs h) -> sk_cs h <> [] -> exists c, get_centroids F h i = Ok c.
  Proof.
    intros h i Hi Hne. unfold get_centroids. destruct i as [|j].
    - destruct (sk_cs h); [contradiction|eauto].
    - destruct (nth_error (sk_cs h) j) as [x|] eqn:E1; [|apply nth_error_None in E1; lia]. destruct (Nat.eqb_spec (S j) (length (sk_cs h))); [eauto|].
      destruct (nth_error (sk_cs h) (S j)) as [y|] eqn:E2; [eauto|apply nth_error_None in E2; lia].
  Qed.
  Lemma loop_le : forall cs t s pv i, fst (q_loop F flt fadd fdiv of_Z t s pv i cs) <= i + length cs.
  Proof. induction cs as [|c cs IH]; intros t s pv i; cbn [q_loop]; [cbn; lia|]. destruct (flt t _); [cbn; lia|]. eapply Nat.le_trans; [apply IH|]. cbn [length]. lia. Qed.
  Theorem sketch_panics : forall n h0 vs p, sk_new F fmax fmin n = Ok h0 -> Forall (fun v => (0 < snd v)%Z) vs ->
    (quantile (adds vs h0) p = Panic <-> flt p (of_Z 0) = true \/ flt (of_Z 1) p = true \/ vs = []) /\
    ((exists q, quantile (adds vs h0) p = Ok q) <-> quantile (adds vs h0) p <> Panic) /\
    (vs <> [] -> exists s, sum (adds vs h0) p = Ok s).
  Proof.
    intros n h0 vs p H0 Hp. destruct (made n h0 vs H0 Hp) as [M1 [M2 [M3 _]]]. set (h := adds vs h0) in *. clearbody h. split; [|split].
    - unfold M_Histo.quantile. destruct (flt p (of_Z 0)); [cbn; tauto|]. destruct (flt (of_Z 1) p); [cbn; tauto|]. cbn [orb]. rewrite M1. destruct vs as [|v r]; [cbn; tauto|]. destruct M3 as [M3 M4]; [discriminate|].
      destruct (Z.ltb_spec (added F (v :: r)) 1); [lia|]. split; [|intros [X|[X|X]]; discriminate]. intros E. exfalso. revert E.
      destruct (q_loop F flt fadd fdiv of_Z _ _ _ 0 (sk_cs h)) as [i s] eqn:EQ. pose proof (loop_le (sk_cs h) (fmul p (of_Z (added F (v :: r)))) (of_Z 0) (of_Z 0) 0) as L. rewrite EQ in L. cbn in L.
      destruct (get_ok h i L M4) as [[ci cj] G]. rewrite G. destruct ((0 <? c_m ci)%Z && (0 <? c_m cj)%Z)%bool; [discriminate|]. destruct (feq _ _); discriminate.
    - unfold M_Histo.quantile. split; [intros [q ->]; discriminate|]. destruct (flt p (of_Z 0) || flt (of_Z 1) p); [intros X; contradiction|]. destruct (sk_count h <? 1)%Z; [intros X; contradiction|].
      destruct (q_loop F flt fadd fdiv of_Z _ _ _ 0 (sk_cs h)) as [i s]. destruct (get_centroids F h i) as [[ci cj]| | |]; [|intros X; contradiction..]. intros _. destruct ((0 <? c_m ci)%Z && (0 <? c_m cj)%Z)%bool; [eauto|]. destruct (feq _ _); eauto.
    - intros Hne. destruct (M3 Hne) as [_ M4]. unfold M_Histo.sum. destruct (fle _ p); [eauto|]. destruct (flt p _); [eauto|].
      set (k := sort_search _ _). assert (L : k <= length (sk_cs h)) by apply search_le. destruct (get_ok h k L M4) as [[ci cj] G]. rewrite G. destruct ((0 <? c_m ci)%Z && ((0 <? c_m cj)%Z || feq (c_p ci) p))%bool; eauto.
  Qed.
  (** Decoding what MarshalBinary wrote gives the same centroids, min and max, but a capacity for those centroids
      and no more, so that the next new value is always merged; and the signed weights as the count. *)
  Theorem sketch_restore_refuted : forall h, exists h', unmarshal_binary F (marshal_binary F h) = Some h' /\
    sk_cs h' = sk_cs h /\ sk_min h' = sk_min h /\ sk_max h' = sk_max h /\ sk_cap h' = S (length (sk_cs h)) /\
    sk_count h' = fold_right (fun c s => (c_m c + s)%Z) 0%Z (sk_cs h).
  Proof.
    intros h. unfold unmarshal_binary, marshal_binary. rewrite map_length, Nat.eqb_refl. cbn [Z.eqb Pos.eqb andb]. eexists. split; [reflexivity|]. cbn [sk_cs sk_min sk_max sk_cap sk_count].
    rewrite map_map. split; [|split; [reflexivity|split; [reflexivity|split; [reflexivity|]]]].
    - induction (sk_cs h) as [|[p m] l IH]; [reflexivity|]. cbn [map]. f_equal; exact IH.
    - induction (sk_cs h) as [|[p m] l IH]; [reflexivity|]. cbn [map fold_right snd c_m]. rewrite IH. reflexivity.
  Qed.
End Panics.

(** ** Claims that do not hold, with float64 *)
Definition sketch_of (n : nat) (vs : list (f64 * Z)) : sketch f64 := match f_new n with Ok h => f_adds vs h | _ => mkSk [] 0 0 f_max f_max end.
Definition tenths : list (f64 * Z) := map (fun m => (f_lit m (-56), 1%Z)) [7205759403792797; 7205759403792794; 7205759403792797; 7205759403792796; 7205759403792797; 7205759403792797; 7205759403792796]%Z.
(** A bin can be above every value added. *)
Theorem sketch_within_refuted : exists n vs, Forall (fun v => finite (fst v) /\ (0 < snd v)%Z) vs /\ exists c, In c (sk_cs (sketch_of n vs)) /\ f_ltb (sk_max (sketch_of n vs)) (c_p c) = true.
Proof. exists 1, tenths. split; [vm_compute; repeat constructor|]. exists (hd (mkC f_max 0) (sk_cs (sketch_of 1 tenths))). vm_compute. split; [left|]; reflexivity. Qed.
(** A bin can be infinite although every value is finite. *)
Theorem sketch_finite_refuted : exists n vs, Forall (fun v => finite (fst v) /\ (0 < snd v)%Z) vs /\ exists c, In c (sk_cs (sketch_of n vs)) /\ c_p c = S754_infinity false.
Proof. exists 1, [(f_lit 8015274240577985 971, 1%Z); (f_lit 8265751560596047 971, 1%Z)]. split; [vm_compute; repeat constructor|]. exists (hd (mkC f_max 0) (sk_cs (sketch_of 1 [(f_lit 8015274240577985 971, 1%Z); (f_lit 8265751560596047 971, 1%Z)]))). vm_compute. split; [left|]; reflexivity. Qed.
(** Read gives negative frequencies once values were merged. *)
Theorem sketch_freqs_refuted : snd (f_read (sketch_of 2 [(f_int 0, 1); (f_int 10, 1); (f_int 11, 1)]%Z)) = [1; -2]%Z.
Proof. vm_compute. reflexivity. Qed.
(** Sum can decrease. *)
Notation f_sum := (sum f64 f_ltb f_leb f_eqb f_add f_sub f_mul f_div f_int).
Notation f_quantile := (quantile f64 f_ltb f_eqb f_add f_sub f_mul f_div f_sqrt f_int).
Theorem sketch_sum_monotone_refuted : exists s0 s1, let h := sketch_of 2 [(f_int 0, 1); (f_int 10, 1); (f_int 11, 1)]%Z in
  f_sum h (f_int 0) = Ok s0 /\ f_sum h (f_int 1) = Ok s1 /\ f_ltb s1 s0 = true.
Proof. eexists. eexists. cbv zeta. split; [vm_compute; reflexivity|]. split; [vm_compute; reflexivity|]. vm_compute. reflexivity. Qed.
(** The median reported for 1 1 1 2 2 is 2. *)
Theorem sketch_median_refuted : f_quantile (sketch_of 32 [(f_int 1, 3); (f_int 2, 2)]%Z) (f_lit 9007197453301141 (-54)) = Ok (f_int 2).
Proof. vm_compute. reflexivity. Qed.
(** Min is not the least value when every value is +Inf. *)
Theorem sketch_min_inf_refuted : sk_min (sketch_of 2 [(S754_infinity false, 1%Z)]) = f_max.
Proof. vm_compute. reflexivity. Qed.
(** Merge keeps the weights but not the extremes of the other sketch: its least value is gone once merged. *)
Theorem sketch_merge_min_refuted : let h := sketch_of 2 [(f_int 5, 1)]%Z in let x := sketch_of 1 [(f_int 0, 1); (f_int 10, 1)]%Z in
  sk_min x = f_int 0 /\ sk_min (f_merge h x) = f_int 5 /\ sk_max x = f_int 10 /\ sk_max (f_merge h x) = f_int 5.
Proof. vm_compute. repeat split. Qed.

(** The hypotheses hold: three different values out of five, room for three. *)
Definition five : list (f64 * Z) := [(f_int 3, 1); (f_int 1, 2); (f_int 3, 4); (f_int 2, 1); (f_int 1, 1)]%Z.
Example sketch_ex : Forall (fun v => not_nan (fst v) /\ (0 < snd v)%Z) five /\ Forall (fun v => finite (fst v) /\ (0 < snd v)%Z) five /\ at_most_distinct f64 f_leb 3 five /\
  f_read (sketch_of 3 five) = ([f_int 1; f_int 2; f_int 3; f_int 4], [3; 1; 5]%Z) /\ sk_count (sketch_of 3 five) = 9%Z /\ sk_min (sketch_of 3 five) = f_int 1 /\ sk_max (sketch_of 3 five) = f_int 3.
Proof.
  split; [vm_compute; repeat constructor; discriminate|]. split; [vm_compute; repeat constructor|]. split.
  - exists [f_int 1; f_int 2; f_int 3]. split; [cbn; lia|]. split.
    + intros x Hx. cbn [five map fst In] in *. tauto.
    + intros v k Hv. cbn [five In] in Hv. destruct Hv as [E|[E|[E|[E|[E|[]]]]]]; injection E as <- _; [exists (f_int 3)|exists (f_int 1)|exists (f_int 3)|exists (f_int 2)|exists (f_int 1)]; (split; [cbn [In]; tauto|vm_compute; split; reflexivity]).
  - vm_compute. repeat split.
Qed.
Definition five_q : list (Q * Z) := [(3, 1%Z); (1, 2%Z); (3, 4%Z); (2, 1%Z); (1, 1%Z)]%Q.
Definition sketch_q (n : nat) : sketch Q := match sk_new Q 1000%Q (-1000)%Q n with Ok h => adds Q q_lt q_le q_eq Qplus Qminus Qmult Qdiv inject_Z 1000%Q five_q h | _ => mkSk [] 0 0 0%Q 0%Q end.
Example sketch_q_ex : Forall (fun v => (0 < snd v)%Z) five_q /\ Forall (fun v => in_range 1000 (fst v)) five_q /\
  map (fun c => (Qred (c_p c), c_m c)) (sk_cs (sketch_q 2)) = [((5 # 4)%Q, (-4)%Z); (3%Q, 5%Z)] /\
  sum Q q_lt q_le q_eq Qplus Qminus Qmult Qdiv inject_Z (sketch_q 3) (5 # 2)%Q = Ok 4%Q /\
  quantile Q q_lt q_eq Qplus Qminus Qmult Qdiv (fun x => x) inject_Z (sketch_q 3) (1 # 2)%Q = Ok 3%Q.
Proof. split; [repeat constructor|]. split; [repeat (constructor; [unfold in_range; cbn [fst]; lra|]); constructor|]. vm_compute. repeat split. Qed.
Print Assumptions sketch_weights.
Print Assumptions sketch_new_panics.
Print Assumptions sketch_merge_weights.
Print Assumptions sketch_min_max.
Print Assumptions sketch_exact.
Print Assumptions sketch_rational.
Print Assumptions sketch_merges_closest.
Print Assumptions sketch_sum_bounds.
Print Assumptions sketch_sum_exact.
Print Assumptions sketch_quantile_exact.
Print Assumptions sketch_panics.
Print Assumptions sketch_restore_refuted.
