(** Proofs about the histogram sketch. *)
From Coq Require Import ZArith QArith Lia Lqa Sorting.Sorted.
From Verif Require Import Base M_Histo S_Histo.
Local Open Scope nat_scope.

(** Binary search. *)
Lemma bsearch_le : forall f fuel i j, i <= j -> i <= bsearch f fuel i j <= j.
Proof.
  intros f. induction fuel as [|k IH]; intros i j H; [cbn; lia|]. cbn [bsearch]. destruct (Nat.ltb_spec i j); [|lia].
  assert (i <= Nat.div (i + j) 2 < j) by (split; [apply Nat.div_le_lower_bound; lia|apply Nat.div_lt_upper_bound; lia]).
  destruct (f _); [pose proof (IH i (Nat.div (i + j) 2)); lia|pose proof (IH (S (Nat.div (i + j) 2)) j); lia].
Qed.
Lemma search_le : forall n f, sort_search n f <= n.
Proof. intros n f. unfold sort_search. pose proof (bsearch_le f (S n) 0 n). lia. Qed.
Lemma bsearch_ok : forall f n, (forall i j, i <= j -> j < n -> f i = true -> f j = true) ->
  forall fuel i j, i <= j -> j <= n -> j - i < fuel -> (forall x, x < i -> f x = false) -> (forall x, j <= x -> x < n -> f x = true) ->
  let k := bsearch f fuel i j in k <= n /\ (forall x, x < k -> f x = false) /\ (forall x, k <= x -> x < n -> f x = true).
Proof.
  intros f n Hm. induction fuel as [|fu IH]; intros i j H1 H2 H3 H4 H5; [lia|]. cbn [bsearch]. destruct (Nat.ltb_spec i j).
  - assert (HH : i <= Nat.div (i + j) 2 < j) by (split; [apply Nat.div_le_lower_bound; lia|apply Nat.div_lt_upper_bound; lia]).
    set (h := Nat.div (i + j) 2) in *. destruct (f h) eqn:E.
    + apply IH; try lia; [assumption|]. intros x Hx Hn. apply (Hm h x); assumption.
    + apply IH; try lia; [|assumption]. intros x Hx. destruct (f x) eqn:Ex; [|reflexivity]. assert (f h = true) by (apply (Hm x h); [lia|lia|assumption]). congruence.
  - cbv zeta. split; [lia|]. split; [assumption|]. intros x Hx Hn. apply H5; lia.
Qed.
Lemma search_ok : forall f n, (forall i j, i <= j -> j < n -> f i = true -> f j = true) ->
  let k := sort_search n f in k <= n /\ (forall x, x < k -> f x = false) /\ (forall x, k <= x -> x < n -> f x = true).
Proof. intros f n H. unfold sort_search. apply bsearch_ok; try lia. assumption. Qed.

Section Any.
  Variable F : Type.
  Variables flt fle feq : F -> F -> bool.
  Variables fadd fsub fmul fdiv : F -> F -> F.
  Variable of_Z : Z -> F.
  Variables fmax fmin : F.
  Notation centroid := (centroid F).
  Notation sketch := (sketch F).
  Notation merge_at := (merge_at F fadd fmul fdiv of_Z).
  Notation c_merge := (c_merge F fadd fmul fdiv of_Z).
  Notation closest := (closest F flt fsub).
  Notation add_many := (add_many F flt fle feq fadd fsub fmul fdiv of_Z fmax).
  Notation weight := (weight F).

  Lemma weight_app : forall a b, weight (a ++ b) = (weight a + weight b)%Z.
  Proof. induction a as [|c a IH]; intros b; [reflexivity|]. unfold M_Histo.weight in *. cbn [app fold_right]. rewrite IH. lia. Qed.
  Lemma weight_cons : forall c l, weight (c :: l) = (Z.abs (c_m c) + weight l)%Z.
  Proof. reflexivity. Qed.
  Lemma closest_range : forall cs i mi md, closest i mi md cs = mi \/ i <= closest i mi md cs /\ S (closest i mi md cs) < i + length cs.
  Proof.
    induction cs as [|c cs IH]; intros i mi md; [left; reflexivity|]. destruct cs as [|d r]; [left; reflexivity|].
    change (closest i mi md (c :: d :: r)) with (if flt (fsub (c_p d) (c_p c)) md then closest (S i) i (fsub (c_p d) (c_p c)) (d :: r) else closest (S i) mi md (d :: r)).
    cbn [length] in *. destruct (flt _ md).
    - destruct (IH (S i) i (fsub (c_p d) (c_p c))) as [E|E]; right; [rewrite E; lia|lia].
    - destruct (IH (S i) mi md) as [E|E]; [left; assumption|right; lia].
  Qed.
  Lemma closest_split : forall cs, 2 <= length cs -> exists l c d r, cs = l ++ c :: d :: r /\ length l = closest 0 0 fmax cs.
  Proof.
    intros cs H. assert (E : S (closest 0 0 fmax cs) < length cs) by (destruct (closest_range cs 0 0 fmax) as [E|E]; lia).
    set (k := closest 0 0 fmax cs) in *. exists (firstn k cs).
    assert (HL : length (firstn k cs) = k) by (rewrite firstn_length; lia).
    assert (HS : length (skipn k cs) = length cs - k) by (rewrite skipn_length; reflexivity).
    destruct (skipn k cs) as [|c [|d r]] eqn:Es; cbn [length] in HS; try lia. exists c, d, r. split; [rewrite <- Es; symmetry; apply firstn_skipn|assumption].
  Qed.
  Lemma merge_at_split : forall l c d r, merge_at (length l) (l ++ c :: d :: r) = l ++ c_merge c d :: r.
  Proof.
    intros l c d r. unfold M_Histo.merge_at. rewrite skipn_app, skipn_all, Nat.sub_diag. cbn [skipn app].
    rewrite firstn_app, firstn_all, Nat.sub_diag, app_nil_r. reflexivity.
  Qed.
  (** The cases of AddMany. *)
  Lemma add_cases : forall v n h, 2 <= sk_cap h -> length (sk_cs h) < sk_cap h ->
    let h' := add_many v n h in
    let k := sort_search (length (sk_cs h)) (at_cs F (fun c => fle v (c_p c)) (sk_cs h)) in
    sk_cap h' = sk_cap h /\ sk_count h' = (sk_count h + n)%Z /\
    sk_min h' = (if flt v (sk_min h) then v else sk_min h) /\ sk_max h' = (if flt (sk_max h) v then v else sk_max h) /\
    ((exists l c r, sk_cs h = l ++ c :: r /\ length l = k /\ feq (c_p c) v = true /\
        sk_cs h' = l ++ mkC (c_p c) (c_m c + (if (c_m c <? 0)%Z then -1 else 1) * n)%Z :: r) \/
     (exists l r, sk_cs h = l ++ r /\ length l = k /\ (forall c r', r = c :: r' -> feq (c_p c) v = false) /\
        (sk_cs h' = l ++ mkC v n :: r /\ S (length (sk_cs h)) < sk_cap h \/
         exists a c d b, l ++ mkC v n :: r = a ++ c :: d :: b /\ length a = closest 0 0 fmax (l ++ mkC v n :: r) /\
           sk_cs h' = a ++ c_merge c d :: b /\ S (length (sk_cs h)) = sk_cap h))).
  Proof.
    intros v n h Hcap Hlen. cbv zeta. unfold M_Histo.add_many. set (k := sort_search _ _). pose proof (search_le (length (sk_cs h)) (at_cs F (fun c => fle v (c_p c)) (sk_cs h))) as Hk. fold k in Hk.
    assert (HL : length (firstn k (sk_cs h)) = k) by (rewrite firstn_length; lia).
    assert (FRESH : let cs' := firstn k (sk_cs h) ++ mkC v n :: skipn k (sk_cs h) in
      let cs2 := if (length cs' <? sk_cap h)%nat then cs' else merge_at (closest 0 0 fmax cs') cs' in
      cs2 = cs' /\ S (length (sk_cs h)) < sk_cap h \/
      exists a c d b, cs' = a ++ c :: d :: b /\ length a = closest 0 0 fmax cs' /\ cs2 = a ++ c_merge c d :: b /\ S (length (sk_cs h)) = sk_cap h).
    { cbv zeta. set (cs' := firstn k (sk_cs h) ++ mkC v n :: skipn k (sk_cs h)).
      assert (HL' : length cs' = S (length (sk_cs h))) by (unfold cs'; rewrite app_length; cbn [length]; rewrite skipn_length; lia).
      destruct (Nat.ltb_spec (length cs') (sk_cap h)); [left; split; [reflexivity|lia]|right].
      destruct (closest_split cs') as [a [c [d [b [E1 E2]]]]]; [lia|]. exists a, c, d, b. split; [assumption|]. split; [assumption|]. split; [|lia].
      rewrite <- E2. rewrite E1 at 1. apply merge_at_split. }
    destruct (nth_error (sk_cs h) k) as [c|] eqn:En.
    - assert (Es : skipn k (sk_cs h) = c :: skipn (S k) (sk_cs h)).
      { clear - En. revert En. generalize k. induction (sk_cs h) as [|x l IH]; intros [|i] E; cbn in *; try discriminate; [injection E as ->; reflexivity|apply IH; assumption]. }
      destruct (feq (c_p c) v) eqn:Eq; cbn [sk_cap sk_count sk_min sk_max sk_cs]; (split; [reflexivity|]); (split; [reflexivity|]); (split; [reflexivity|]); (split; [reflexivity|]).
      + left. exists (firstn k (sk_cs h)), c, (skipn (S k) (sk_cs h)). rewrite <- Es. rewrite firstn_skipn. auto.
      + right. exists (firstn k (sk_cs h)), (skipn k (sk_cs h)). rewrite firstn_skipn. split; [reflexivity|]. split; [assumption|].
        split; [intros c' r' E; rewrite Es in E; injection E as <- <-; assumption|]. exact FRESH.
    - cbn [sk_cap sk_count sk_min sk_max sk_cs]. (split; [reflexivity|]); (split; [reflexivity|]); (split; [reflexivity|]); (split; [reflexivity|]).
      right. exists (firstn k (sk_cs h)), (skipn k (sk_cs h)). rewrite firstn_skipn. split; [reflexivity|]. split; [assumption|].
      split; [|exact FRESH]. intros c' r' E. apply nth_error_None in En. rewrite skipn_all2 in E by lia. discriminate.
  Qed.
  (** Sizes and weights, whatever the arithmetic. *)
  Definition room (h : sketch) : Prop := 2 <= sk_cap h /\ length (sk_cs h) < sk_cap h /\ Forall (fun c => c_m c <> 0%Z) (sk_cs h).
  Lemma Forall_mid : forall (P : centroid -> Prop) l c r, Forall P (l ++ c :: r) <-> Forall P l /\ P c /\ Forall P r.
  Proof. intros P l c r. rewrite Forall_app. split; [intros [H1 H2]; inversion H2; auto|intros [H1 [H2 H3]]; auto]. Qed.
  Lemma add_weight : forall v n h, (0 < n)%Z -> room h ->
    room (add_many v n h) /\ sk_cap (add_many v n h) = sk_cap h /\ weight (sk_cs (add_many v n h)) = (weight (sk_cs h) + n)%Z /\ sk_count (add_many v n h) = (sk_count h + n)%Z.
  Proof.
    intros v n h Hn [R1 [R2 R3]]. destruct (add_cases v n h R1 R2) as [C1 [C2 [_ [_ C3]]]]. unfold room. rewrite C1, C2.
    destruct C3 as [[l [c [r [E1 [_ [_ E2]]]]]]|[l [r [E1 [_ [_ [[E2 E3]|[a [c [d [b [E2 [_ [E3 E4]]]]]]]]]]]]]].
    - rewrite E1 in R2, R3. apply Forall_mid in R3. destruct R3 as [R3 [R4 R5]]. rewrite app_length in R2. cbn [length] in R2.
      rewrite E1, E2. rewrite !weight_app, !weight_cons, app_length. cbn [length c_m].
      split; [split; [lia|]; split; [lia|]; apply Forall_mid; cbn [c_m]; split; [assumption|split; [destruct (Z.ltb_spec (c_m c) 0); lia|assumption]]|].
      split; [reflexivity|]. split; [|reflexivity]. destruct (Z.ltb_spec (c_m c) 0); lia.
    - rewrite E1 in R2, R3, E3. apply Forall_app in R3. destruct R3 as [R3 R4]. rewrite app_length in R2, E3.
      rewrite E1, E2, app_length. cbn [length]. rewrite !weight_app, weight_cons. cbn [c_m].
      split; [split; [lia|]; split; [lia|]; apply Forall_mid; cbn [c_m]; split; [assumption|split; [lia|assumption]]|]. split; [reflexivity|]. split; [lia|reflexivity].
    - assert (W : weight (l ++ mkC v n :: r) = (weight (sk_cs h) + n)%Z) by (rewrite E1, !weight_app, weight_cons; cbn [c_m]; lia).
      assert (L : length (l ++ mkC v n :: r) = S (length (sk_cs h))) by (rewrite E1, !app_length; cbn [length]; lia).
      assert (Z : Forall (fun c => c_m c <> 0%Z) (l ++ mkC v n :: r)) by (rewrite E1 in R3; apply Forall_app in R3; destruct R3; apply Forall_mid; cbn [c_m]; split; [assumption|split; [lia|assumption]]).
      rewrite E2 in W, L, Z. rewrite E3. rewrite app_length in *. cbn [length] in *. rewrite !weight_app, !weight_cons in *. cbn [c_m M_Histo.c_merge].
      apply Forall_mid in Z. destruct Z as [Z1 [Z2 Z3]]. inversion Z3; subst.
      split; [split; [lia|]; split; [lia|]; apply Forall_mid; split; [assumption|split; [unfold M_Histo.c_merge; cbn [c_m]; lia|assumption]]|]. split; [reflexivity|]. split; [|reflexivity]. lia.
  Qed.
  Lemma adds_weight : forall vs h, Forall (fun v => (0 < snd v)%Z) vs -> room h ->
    let h' := fold_left (fun h v => add_many (fst v) (snd v) h) vs h in
    room h' /\ sk_cap h' = sk_cap h /\ weight (sk_cs h') = (weight (sk_cs h) + added F vs)%Z /\ sk_count h' = (sk_count h + added F vs)%Z.
  Proof.
    induction vs as [|[v n] vs IH]; intros h Hp R; cbn [fold_left fst snd]; [cbn; repeat split; try apply R; lia|].
    inversion Hp; subst. cbn [snd] in *. destruct (add_weight v n h) as [W1 [W2 [W3 W4]]]; [assumption|assumption|].
    destruct (IH (add_many v n h)) as [I1 [I2 [I3 I4]]]; [assumption|assumption|]. split; [assumption|]. unfold S_Histo.added in *. cbn [fold_right snd]. split; [congruence|]. split; lia.
  Qed.

  (** Orders. *)
  Section Order.
    Variable num : F -> Prop.
    Hypothesis le_refl : forall a, num a -> fle a a = true.
    Hypothesis le_trans : forall a b c, num a -> num b -> num c -> fle a b = true -> fle b c = true -> fle a c = true.
    Hypothesis le_total : forall a b, num a -> num b -> fle a b = true \/ fle b a = true.
    Hypothesis lt_le : forall a b, num a -> num b -> flt a b = negb (fle b a).
    Hypothesis eq_le : forall a b, num a -> num b -> feq a b = fle a b && fle b a.

    Definition asc (cs : list centroid) : Prop := ascending F fle (map c_p cs) /\ Forall (fun c => num (c_p c)) cs.
    Lemma asc_mid : forall l c r, asc (l ++ c :: r) <-> asc l /\ asc r /\ num (c_p c) /\
      (forall x, In x l -> fle (c_p x) (c_p c) = true /\ fle (c_p c) (c_p x) = false) /\
      (forall x, In x r -> fle (c_p c) (c_p x) = true /\ fle (c_p x) (c_p c) = false) /\
      (forall x y, In x l -> In y r -> fle (c_p x) (c_p y) = true /\ fle (c_p y) (c_p x) = false).
    Proof.
      unfold asc. induction l as [|a l IH]; intros c r.
      - cbn [app map ascending]. split.
        + intros [[A1 A2] A3]. inversion A3; subst. split; [split; [exact I|constructor]|]. split; [auto|]. split; [assumption|]. split; [intros x []|].
          split; [intros x Hx; apply A1; apply in_map; assumption|intros x y []].
        + intros [_ [[B1 B2] [B3 [_ [B4 _]]]]]. split; [split; [|assumption]|constructor; assumption].
          intros b Hb. apply in_map_iff in Hb. destruct Hb as [x [<- Hx]]. apply B4. assumption.
      - cbn [app map ascending]. split.
        + intros [[A1 A2] A3]. inversion A3; subst. destruct (proj1 (IH c r)) as [I1 [I2 [I3 [I4 [I5 I6]]]]]; [auto|].
          assert (Q : forall x, In x (l ++ c :: r) -> fle (c_p a) (c_p x) = true /\ fle (c_p x) (c_p a) = false) by (intros x Hx; apply A1; apply in_map; assumption).
          split; [split; [split; [intros b Hb; apply in_map_iff in Hb; destruct Hb as [x [<- Hx]]; apply Q, in_or_app; auto|apply I1]|constructor; [assumption|apply I1]]|].
          split; [assumption|]. split; [assumption|]. split; [intros x [<-|Hx]; [apply Q, in_or_app; right; left; reflexivity|apply I4; assumption]|].
          split; [assumption|]. intros x y [<-|Hx] Hy; [apply Q, in_or_app; right; right; assumption|apply I6; assumption].
        + intros [[[A1 A2] A3] [B1 [B2 [B3 [B4 B5]]]]]. inversion A3; subst.
          destruct (proj2 (IH c r)) as [I1 I2]; [split; [auto|split; [assumption|split; [assumption|split; [intros x Hx; apply B3; right; assumption|split; [assumption|intros x y Hx Hy; apply B5; [right; assumption|assumption]]]]]]|].
          split; [split; [|assumption]|constructor; assumption]. intros b Hb. apply in_map_iff in Hb. destruct Hb as [x [<- Hx]]. apply in_app_or in Hx.
          destruct Hx as [Hx|[<-|Hx]]; [apply A1; apply in_map; assumption|apply B3; left; reflexivity|apply B5; [left; reflexivity|assumption]].
    Qed.
    Lemma asc_search : forall (f : F -> bool) l r, asc (l ++ r) -> (forall a b, num a -> num b -> fle a b = true -> f a = true -> f b = true) ->
      length l = sort_search (length (l ++ r)) (at_cs F (fun c => f (c_p c)) (l ++ r)) ->
      (forall x, In x l -> f (c_p x) = false) /\ (forall x, In x r -> f (c_p x) = true).
    Proof.
      intros f l r HA Hf HL.
      assert (NT : forall i c, nth_error (l ++ r) i = Some c -> at_cs F (fun c => f (c_p c)) (l ++ r) i = f (c_p c)) by (intros i c E; unfold at_cs; rewrite E; reflexivity).
      destruct (search_ok (at_cs F (fun c => f (c_p c)) (l ++ r)) (length (l ++ r))) as [S1 [S2 S3]].
      { intros i j Hij Hj. destruct (nth_error (l ++ r) j) as [y|] eqn:Ey; [|apply nth_error_None in Ey; lia].
        destruct (nth_error (l ++ r) i) as [x|] eqn:Ex; [|apply nth_error_None in Ex; lia]. rewrite (NT _ _ Ex), (NT _ _ Ey).
        destruct (Nat.eq_dec i j) as [->|Hne]; [assert (x = y) by congruence; subst; auto|].
        destruct (nth_error_split _ _ Ex) as [l1 [l2 [E1 E2]]]. rewrite E1 in HA. apply asc_mid in HA. destruct HA as [H1 [H2 [H3 [_ [H4 _]]]]].
        assert (Hy : In y l2).
        { rewrite E1, nth_error_app2 in Ey by lia. destruct (j - length l1) as [|q] eqn:Eq; [lia|]. cbn [nth_error] in Ey. apply nth_error_In in Ey. assumption. }
        apply Hf; [assumption| |apply H4; assumption]. destruct H2 as [_ H2]. rewrite Forall_forall in H2. apply H2. assumption. }
      rewrite <- HL in S2, S3. split.
      - intros x Hx. apply In_nth_error in Hx. destruct Hx as [i Hi]. assert (Hil : i < length l) by (apply nth_error_Some; congruence).
        rewrite <- (NT i x) by (rewrite nth_error_app1; assumption). apply S2. assumption.
      - intros x Hx. apply In_nth_error in Hx. destruct Hx as [i Hi]. assert (Hil : i < length r) by (apply nth_error_Some; congruence).
        rewrite <- (NT (length l + i) x) by (rewrite nth_error_app2 by lia; replace (length l + i - length l) with i by lia; assumption). apply S3; [lia|rewrite app_length; lia].
    Qed.
    (** Where a value belongs. *)
    Lemma asc_place : forall v l r, num v -> asc (l ++ r) -> length l = sort_search (length (l ++ r)) (at_cs F (fun c => fle v (c_p c)) (l ++ r)) ->
      (forall x, In x l -> fle (c_p x) v = true /\ fle v (c_p x) = false) /\ (forall x, In x r -> fle v (c_p x) = true).
    Proof.
      intros v l r Hv HA HL. destruct (asc_search (fun p => fle v p) l r HA) as [H1 H2].
      - intros a b Ha Hb Hab Hva. apply (le_trans v a b); assumption.
      - exact HL.
      - split; [|assumption]. intros x Hx. pose proof (H1 x Hx) as E. split; [|assumption].
        destruct HA as [_ HN]. rewrite Forall_forall in HN. assert (num (c_p x)) by (apply HN, in_or_app; auto).
        destruct (le_total v (c_p x)); congruence.
    Qed.
    (** Inserting keeps the order. *)
    Lemma asc_insert : forall v n l r, num v -> asc (l ++ r) -> length l = sort_search (length (l ++ r)) (at_cs F (fun c => fle v (c_p c)) (l ++ r)) ->
      (forall c r', r = c :: r' -> feq (c_p c) v = false) -> asc (l ++ mkC v n :: r).
    Proof.
      intros v n l r Hv HA HL HE. destruct (asc_place v l r Hv HA HL) as [P1 P2].
      assert (HN : forall x, In x (l ++ r) -> num (c_p x)) by (destruct HA as [_ HN]; rewrite Forall_forall in HN; assumption).
      assert (P3 : forall x, In x r -> fle (c_p x) v = false).
      { destruct r as [|c r]; [intros x []|]. intros x Hx. specialize (HE c r eq_refl). rewrite eq_le in HE by (try assumption; apply HN, in_or_app; right; left; reflexivity).
        rewrite (P2 c) in HE by (left; reflexivity). rewrite andb_true_r in HE. destruct Hx as [<-|Hx]; [assumption|].
        destruct (fle (c_p x) v) eqn:E; [|reflexivity]. enough (fle (c_p c) v = true) by congruence. apply (le_trans _ (c_p x)); try assumption; try (apply HN, in_or_app; right; (left; reflexivity) || (right; assumption)).
        apply asc_mid in HA. destruct HA as [_ [_ [_ [_ [HA _]]]]]. apply HA. assumption. }
      assert (SP : asc l /\ asc r /\ (forall x y, In x l -> In y r -> fle (c_p x) (c_p y) = true /\ fle (c_p y) (c_p x) = false)).
      { clear - HA. revert HA. destruct r as [|c r]; [rewrite app_nil_r; intros HA; split; [assumption|split; [split; [exact I|constructor]|intros x y _ []]]|].
        intros HA. pose proof HA as HB. apply asc_mid in HA. destruct HA as [H1 [H2 [H3 [H4 [H5 H6]]]]]. split; [assumption|]. split; [|intros x y Hx [<-|Hy]; [apply H4; assumption|apply H6; assumption]].
        apply (asc_mid [] c r). split; [split; [exact I|constructor]|]. split; [assumption|]. split; [assumption|]. split; [intros x []|]. split; [assumption|intros x y []]. }
      destruct SP as [SP1 [SP2 SP3]]. apply asc_mid. cbn [c_p]. split; [assumption|]. split; [assumption|]. split; [assumption|]. split; [exact P1|]. split; [|exact SP3].
      intros x Hx. split; [apply P2; assumption|apply P3; assumption].
    Qed.
    (** Least and greatest. *)
    Lemma adds_min : forall vs h, (forall v n, In (v, n) vs -> num v) -> num (sk_min h) ->
      let m := sk_min (fold_left (fun h v => add_many (fst v) (snd v) h) vs h) in num m /\ least F fle m ((sk_min h, 1%Z) :: vs).
    Proof.
      assert (MN : forall v n h, sk_min (add_many v n h) = if flt v (sk_min h) then v else sk_min h).
      { intros v n h. unfold M_Histo.add_many. destruct (nth_error _ _); [destruct (feq _ _)|]; reflexivity. }
      induction vs as [|[v n] vs IH]; intros h Hv Hn; cbn [fold_left fst snd]; cbv zeta.
      - split; [assumption|]. split; [exists (sk_min h), 1%Z; split; [left; reflexivity|split; apply le_refl; assumption]|]. intros w k [E|[]]. injection E as <- _. apply le_refl. assumption.
      - assert (Hnv : num v) by (apply (Hv v n); left; reflexivity).
        destruct (IH (add_many v n h)) as [I0 [[w [k [I1 I2]]] I3]]; [intros; eapply Hv; right; eassumption|rewrite MN; destruct (flt v (sk_min h)); assumption|]. split; [assumption|].
        set (m := sk_min (fold_left _ _ _)) in *. split.
        + destruct I1 as [E|I1]; [|exists w, k; split; [right; right; assumption|assumption]]. injection E as <- _. rewrite MN in I2.
          destruct (flt v (sk_min h)); [exists v, n; split; [right; left; reflexivity|assumption]|exists (sk_min h), 1%Z; split; [left; reflexivity|assumption]].
        + assert (LE : fle m (sk_min (add_many v n h)) = true) by (apply (I3 _ 1%Z); left; reflexivity). rewrite MN in LE.
          intros x j [E|[E|Hx]]; [injection E as <- _|injection E as <- _|apply (I3 x j); right; assumption].
          * rewrite lt_le in LE by assumption. destruct (fle (sk_min h) v) eqn:Ele; cbn [negb] in LE; [assumption|].
            destruct (le_total v (sk_min h)) as [T|T]; try assumption; [|congruence]. apply (le_trans m v); assumption.
          * rewrite lt_le in LE by assumption. destruct (fle (sk_min h) v) eqn:Ele; cbn [negb] in LE; [|assumption]. apply (le_trans m (sk_min h)); assumption.
    Qed.
    Lemma adds_max : forall vs h, (forall v n, In (v, n) vs -> num v) -> num (sk_max h) ->
      let m := sk_max (fold_left (fun h v => add_many (fst v) (snd v) h) vs h) in num m /\ greatest F fle m ((sk_max h, 1%Z) :: vs).
    Proof.
      assert (MN : forall v n h, sk_max (add_many v n h) = if flt (sk_max h) v then v else sk_max h).
      { intros v n h. unfold M_Histo.add_many. destruct (nth_error _ _); [destruct (feq _ _)|]; reflexivity. }
      induction vs as [|[v n] vs IH]; intros h Hv Hn; cbn [fold_left fst snd]; cbv zeta.
      - split; [assumption|]. split; [exists (sk_max h), 1%Z; split; [left; reflexivity|split; apply le_refl; assumption]|]. intros w k [E|[]]. injection E as <- _. apply le_refl. assumption.
      - assert (Hnv : num v) by (apply (Hv v n); left; reflexivity).
        destruct (IH (add_many v n h)) as [I0 [[w [k [I1 I2]]] I3]]; [intros; eapply Hv; right; eassumption|rewrite MN; destruct (flt (sk_max h) v); assumption|]. split; [assumption|].
        set (m := sk_max (fold_left _ _ _)) in *. split.
        + destruct I1 as [E|I1]; [|exists w, k; split; [right; right; assumption|assumption]]. injection E as <- _. rewrite MN in I2.
          destruct (flt (sk_max h) v); [exists v, n; split; [right; left; reflexivity|assumption]|exists (sk_max h), 1%Z; split; [left; reflexivity|assumption]].
        + assert (LE : fle (sk_max (add_many v n h)) m = true) by (apply (I3 _ 1%Z); left; reflexivity). rewrite MN in LE.
          intros x j [E|[E|Hx]]; [injection E as <- _|injection E as <- _|apply (I3 x j); right; assumption].
          * rewrite lt_le in LE by assumption. destruct (fle v (sk_max h)) eqn:Ele; cbn [negb] in LE; [assumption|].
            destruct (le_total (sk_max h) v) as [T|T]; try assumption; [|congruence]. apply (le_trans (sk_max h) v m); assumption.
          * rewrite lt_le in LE by assumption. destruct (fle v (sk_max h)) eqn:Ele; cbn [negb] in LE; [|assumption]. apply (le_trans v (sk_max h) m); assumption.
    Qed.
    (** Before anything is merged: every different value has its own centroid. *)
    Definition tallies (vs : list (F * Z)) (h : sketch) : Prop :=
      asc (sk_cs h) /\ Forall (fun c => (0 < c_m c)%Z /\ times F fle (c_p c) vs (c_m c)) (sk_cs h) /\
      (forall v n, In (v, n) vs -> exists c, In c (sk_cs h) /\ same F fle v (c_p c)) /\
      (forall c, In c (sk_cs h) -> exists v n, In (v, n) vs /\ same F fle v (c_p c)).
    Lemma same_trans : forall a b c, num a -> num b -> num c -> same F fle a b -> same F fle b c -> same F fle a c.
    Proof. intros a b c Ha Hb Hc [H1 H2] [H3 H4]. split; eapply le_trans; [| | |eassumption|eassumption| | | |eassumption|eassumption]; assumption. Qed.
    Lemma times_app : forall p a b i j, times F fle p a i -> times F fle p b j -> times F fle p (a ++ b) (i + j).
    Proof.
      intros p a b i j H1 H2. induction H1; cbn [app]; [exact H2| |constructor; assumption].
      rewrite <- Z.add_assoc. constructor; assumption.
    Qed.
    Lemma times_one : forall p v n, same F fle v p -> times F fle p [(v, n)] n.
    Proof. intros p v n H. rewrite <- (Z.add_0_r n) at 2. constructor; [assumption|constructor]. Qed.
    Lemma times_absent : forall p vs, (forall v n, In (v, n) vs -> ~ same F fle v p) -> times F fle p vs 0.
    Proof. intros p vs. induction vs as [|[v n] vs IH]; intros H; [constructor|]. constructor; [apply (H v n); left; reflexivity|]. apply IH. intros. eapply H. right. eassumption. Qed.
    Lemma pigeon : forall cs ds, asc cs -> Forall num ds -> (forall c, In c cs -> exists d, In d ds /\ same F fle d (c_p c)) -> length cs <= length ds.
    Proof.
      induction cs as [|c cs IH]; intros ds HA HN H; [cbn; lia|]. destruct (H c) as [d [Hd Hs]]; [left; reflexivity|].
      apply in_split in Hd. destruct Hd as [d1 [d2 ->]]. rewrite app_length. cbn [length]. apply (asc_mid [] c cs) in HA. destruct HA as [_ [HA [Hc [_ [Hlt _]]]]].
      rewrite Forall_app in HN. destruct HN as [HN1 HN2]. inversion HN2; subst.
      enough (length cs <= length (d1 ++ d2)) by (rewrite app_length in *; lia). apply IH; [assumption|apply Forall_app; auto|].
      intros x Hx. destruct (H x) as [y [Hy Hsy]]; [right; assumption|]. exists y. split; [|assumption]. apply in_or_app. apply in_app_or in Hy.
      destruct Hy as [Hy|[<-|Hy]]; [left; assumption| |right; assumption]. exfalso. destruct (Hlt x Hx) as [_ E].
      destruct HA as [_ HA]. rewrite Forall_forall in HA. destruct Hs as [S1 S2], Hsy as [S3 S4]. enough (fle (c_p x) (c_p c) = true) by congruence.
      apply (le_trans _ d); auto.
    Qed.
    Lemma add_tallies : forall ds v n h vs, (0 < n)%Z -> num v -> room h -> (forall w k, In (w, k) vs -> num w) -> tallies vs h ->
      length ds <= sk_cap h - 1 -> Forall num ds -> (forall w k, In (w, k) (vs ++ [(v, n)]) -> exists x, In x ds /\ same F fle x w) ->
      tallies (vs ++ [(v, n)]) (add_many v n h).
    Proof.
      intros ds v n h vs Hn Hv [R1 [R2 R3]] HV [T1 [T2 [T3 T4]]] HL HN HX. destruct (add_cases v n h R1 R2) as [C1 [C2 [_ [_ C3]]]].
      assert (NC : forall x, In x (sk_cs h) -> num (c_p x)) by (destruct T1 as [_ T1]; rewrite Forall_forall in T1; assumption).
      assert (NV : forall w k, In (w, k) (vs ++ [(v, n)]) -> num w) by (intros w k Hw; apply in_app_or in Hw; destruct Hw as [Hw|[E|[]]]; [eapply HV; eassumption|injection E as <- _; assumption]).
      assert (DT : forall (cs : list centroid), asc cs -> (forall c, In c cs -> exists w k, In (w, k) (vs ++ [(v, n)]) /\ same F fle w (c_p c)) -> length cs <= sk_cap h - 1).
      { intros cs HA HC. transitivity (length ds); [|assumption]. apply pigeon; [assumption|assumption|]. intros c Hc. destruct (HC c Hc) as [w [k [Hw Hs]]].
        destruct (HX w k Hw) as [x [Hx Hs2]]. exists x. split; [assumption|]. apply (same_trans x w (c_p c)); try assumption; [rewrite Forall_forall in HN; auto|eapply NV; eassumption|].
        destruct HA as [_ HA]. rewrite Forall_forall in HA. auto. }
      destruct C3 as [[l [c [r [E1 [E0 [Ev E2]]]]]]|[l [r [E1 [E0 [Ev C3]]]]]].
      - rewrite eq_le in Ev by (try assumption; apply NC; rewrite E1; apply in_or_app; right; left; reflexivity). apply andb_prop in Ev. destruct Ev as [Ev1 Ev2].
        assert (Nc : num (c_p c)) by (apply NC; rewrite E1; apply in_or_app; right; left; reflexivity).
        unfold tallies. rewrite E2. rewrite E1 in *. apply Forall_mid in T2. destruct T2 as [T2 [[T2a T2b] T2c]].
        assert (OT : forall x, In x (l ++ r) -> ~ same F fle v (c_p x)).
        { apply asc_mid in T1. destruct T1 as [_ [_ [_ [A1 [A2 _]]]]]. intros x Hx [S1 S2].
          assert (Nx : num (c_p x)) by (apply NC; apply in_or_app; apply in_app_or in Hx; destruct Hx; [left|right; right]; assumption).
          apply in_app_or in Hx. destruct Hx as [Hx|Hx]; [destruct (A1 x Hx) as [_ A]|destruct (A2 x Hx) as [_ A]].
          - enough (fle (c_p c) (c_p x) = true) by congruence. apply (le_trans _ v); assumption.
          - enough (fle (c_p x) (c_p c) = true) by congruence. apply (le_trans _ v); assumption. }
        assert (KEEP : forall m, Forall (fun c0 => (0 < c_m c0)%Z /\ times F fle (c_p c0) vs (c_m c0)) m -> incl m (l ++ r) ->
          Forall (fun c0 => (0 < c_m c0)%Z /\ times F fle (c_p c0) (vs ++ [(v, n)]) (c_m c0)) m).
        { intros m Hm Hi. rewrite Forall_forall in *. intros x Hx. destruct (Hm x Hx) as [M1 M2]. split; [assumption|].
          rewrite <- (Z.add_0_r (c_m x)). apply times_app; [assumption|]. apply tm_no; [apply OT, Hi; assumption|constructor]. }
        split; [|split; [|split]].
        + apply asc_mid in T1. apply asc_mid. exact T1.
        + apply Forall_mid. cbn [c_p c_m]. split; [apply KEEP; [assumption|intros x Hx; apply in_or_app; auto]|]. split; [|apply KEEP; [assumption|intros x Hx; apply in_or_app; auto]].
          destruct (Z.ltb_spec (c_m c) 0) as [Hneg|_]; [lia|]. split; [lia|]. rewrite Z.mul_1_l. apply times_app; [assumption|].
          apply times_one. split; assumption.
        + intros w k Hw. apply in_app_or in Hw. destruct Hw as [Hw|[E|[]]].
          * destruct (T3 w k Hw) as [x [Hx Hs]]. apply in_app_or in Hx. destruct Hx as [Hx|[<-|Hx]]; [exists x; split; [apply in_or_app; auto|assumption]| |exists x; split; [apply in_or_app; right; right; assumption|assumption]].
            eexists. split; [apply in_or_app; right; left; reflexivity|]. exact Hs.
          * injection E as <- _. eexists. split; [apply in_or_app; right; left; reflexivity|]. split; assumption.
        + intros x Hx. apply in_app_or in Hx. destruct Hx as [Hx|[<-|Hx]].
          * destruct (T4 x) as [w [k [Hw Hs]]]; [apply in_or_app; auto|]. exists w, k. split; [apply in_or_app; auto|assumption].
          * exists v, n. split; [apply in_or_app; right; left; reflexivity|]. split; assumption.
          * destruct (T4 x) as [w [k [Hw Hs]]]; [apply in_or_app; right; right; assumption|]. exists w, k. split; [apply in_or_app; auto|assumption].
      - rewrite E1 in E0. assert (HI : asc (l ++ mkC v n :: r)) by (apply asc_insert; [assumption|rewrite <- E1; assumption|assumption|assumption]).
        assert (SRC : forall x, In x (l ++ mkC v n :: r) -> exists w k, In (w, k) (vs ++ [(v, n)]) /\ same F fle w (c_p x)).
        { intros x Hx. assert (Hx2 : x = mkC v n \/ In x (sk_cs h)) by (rewrite E1; apply in_app_or in Hx; destruct Hx as [Hx|[<-|Hx]]; [right|left|right]; try reflexivity; apply in_or_app; auto).
          destruct Hx2 as [->|Hx2]; [exists v, n; split; [apply in_or_app; right; left; reflexivity|split; apply le_refl; assumption]|].
          destruct (T4 x Hx2) as [w [k [Hw Hs]]]. exists w, k. split; [apply in_or_app; auto|assumption]. }
        destruct C3 as [[E2 E3]|[a [c [d [b [_ [_ [_ E4]]]]]]]].
        2:{ exfalso. pose proof (DT _ HI SRC) as Hlen. rewrite app_length in Hlen. cbn [length] in Hlen. rewrite E1, app_length in E4. lia. }
        assert (OT : forall x, In x (sk_cs h) -> ~ same F fle v (c_p x)).
        { apply asc_mid in HI. destruct HI as [_ [_ [_ [A1 [A2 _]]]]]. cbn [c_p] in *. rewrite E1. intros x Hx [S1 S2]. apply in_app_or in Hx.
          destruct Hx as [Hx|Hx]; [destruct (A1 x Hx) as [_ A]|destruct (A2 x Hx) as [_ A]]; congruence. }
        assert (KEEP : forall m, Forall (fun c0 => (0 < c_m c0)%Z /\ times F fle (c_p c0) vs (c_m c0)) m -> incl m (sk_cs h) ->
          Forall (fun c0 => (0 < c_m c0)%Z /\ times F fle (c_p c0) (vs ++ [(v, n)]) (c_m c0)) m).
        { intros m Hm Hi. rewrite Forall_forall in *. intros x Hx. destruct (Hm x Hx) as [M1 M2]. split; [assumption|].
          rewrite <- (Z.add_0_r (c_m x)). apply times_app; [assumption|]. apply tm_no; [apply OT, Hi; assumption|constructor]. }
        unfold tallies. rewrite E2. split; [assumption|]. split; [|split].
        + rewrite E1 in T2. apply Forall_app in T2. destruct T2 as [T2 T2c]. apply Forall_mid. cbn [c_p c_m].
          split; [apply KEEP; [assumption|rewrite E1; intros x Hx; apply in_or_app; auto]|]. split; [|apply KEEP; [assumption|rewrite E1; intros x Hx; apply in_or_app; auto]].
          split; [lia|]. rewrite <- (Z.add_0_l n) at 2. apply times_app.
          * apply times_absent. intros w k Hw Hs. destruct (T3 w k Hw) as [x [Hx Hs2]]. apply (OT x Hx). destruct Hs as [S1 S2].
            apply (same_trans v w (c_p x)); [assumption|eapply HV; eassumption|apply NC; assumption|split; assumption|assumption].
          * apply times_one. split; apply le_refl; assumption.
        + intros w k Hw. apply in_app_or in Hw. destruct Hw as [Hw|[E|[]]].
          * destruct (T3 w k Hw) as [x [Hx Hs]]. exists x. split; [|assumption]. rewrite E1 in Hx. apply in_or_app. apply in_app_or in Hx. destruct Hx; [left|right; right]; assumption.
          * injection E as <- _. eexists. split; [apply in_or_app; right; left; reflexivity|]. split; apply le_refl; assumption.
        + exact SRC.
    Qed.
    (** Counting centroids counts values. *)
    Definition weight_if (f : F -> bool) (cs : list centroid) : Z := fold_right (fun c s => if f (c_p c) then (Z.abs (c_m c) + s)%Z else s) 0%Z cs.
    Definition respects (f : F -> bool) : Prop := forall a b, num a -> num b -> same F fle a b -> f a = f b.
    Lemma weight_if_app : forall f a b, weight_if f (a ++ b) = (weight_if f a + weight_if f b)%Z.
    Proof. intros f a b. induction a as [|c a IH]; [reflexivity|]. unfold weight_if in *. cbn [app fold_right]. rewrite IH. destruct (f (c_p c)); lia. Qed.
    Lemma weight_if_cons : forall f c l, weight_if f (c :: l) = if f (c_p c) then (Z.abs (c_m c) + weight_if f l)%Z else weight_if f l.
    Proof. reflexivity. Qed.
    Lemma add_weight_if : forall f v n h vs vs', respects f -> num v -> (0 < n)%Z -> room h -> tallies vs h -> tallies vs' (add_many v n h) ->
      weight_if f (sk_cs (add_many v n h)) = (weight_if f (sk_cs h) + (if f v then n else 0))%Z.
    Proof.
      intros f v n h vs vs' Hf Hv Hn [R1 [R2 R3]] [T1 [T2 _]] [_ [T' _]]. destruct (add_cases v n h R1 R2) as [_ [_ [_ [_ C3]]]].
      assert (NC : forall x, In x (sk_cs h) -> num (c_p x)) by (destruct T1 as [_ T1]; rewrite Forall_forall in T1; assumption).
      destruct C3 as [[l [c [r [E1 [E0 [Ev E2]]]]]]|[l [r [E1 [E0 [Ev [[E2 _]|[a [c [d [b [E2 [_ [E3 _]]]]]]]]]]]]]].
      - rewrite E2, E1, !weight_if_app, !weight_if_cons. cbn [c_p c_m]. assert (Nc : num (c_p c)) by (apply NC; rewrite E1; apply in_or_app; right; left; reflexivity).
        rewrite eq_le in Ev by assumption. apply andb_prop in Ev. rewrite (Hf (c_p c) v) by (assumption || split; apply Ev).
        rewrite E1 in T2. apply Forall_mid in T2. destruct T2 as [_ [[T2 _] _]]. destruct (Z.ltb_spec (c_m c) 0); [lia|]. destruct (f v); lia.
      - rewrite E2, E1, !weight_if_app, weight_if_cons. cbn [c_p c_m]. destruct (f v); lia.
      - exfalso. rewrite E3 in T'. apply Forall_mid in T'. destruct T' as [_ [[T' _] _]]. unfold M_Histo.c_merge in T'. cbn [c_m] in T'. lia.
    Qed.
    Lemma adds_tallies : forall ds vs2 vs1 h, Forall (fun v => (0 < snd v)%Z) vs2 -> room h -> (forall w k, In (w, k) (vs1 ++ vs2) -> num w) -> tallies vs1 h ->
      length ds <= sk_cap h - 1 -> Forall num ds -> (forall w k, In (w, k) (vs1 ++ vs2) -> exists x, In x ds /\ same F fle x w) ->
      tallies (vs1 ++ vs2) (fold_left (fun h v => add_many (fst v) (snd v) h) vs2 h).
    Proof.
      intros ds vs2. induction vs2 as [|[v n] vs2 IH]; intros vs1 h Hp R HV T HL HN HX; [rewrite app_nil_r; exact T|].
      cbn [fold_left fst snd]. inversion Hp; subst. cbn [snd] in *. destruct (add_weight v n h) as [W1 [W2 _]]; [assumption|assumption|].
      replace (vs1 ++ (v, n) :: vs2) with ((vs1 ++ [(v, n)]) ++ vs2) in * by (rewrite <- app_assoc; reflexivity).
      apply IH; try assumption; [|rewrite W2; assumption].
      apply (add_tallies ds); try assumption; [apply (HV v n), in_or_app; left; apply in_or_app; right; left; reflexivity|..].
      - intros w k Hw. apply (HV w k). apply in_or_app. left. apply in_or_app. auto.
      - intros w k Hw. apply (HX w k). apply in_or_app. auto.
    Qed.
    Lemma adds_weight_if : forall f ds vs2 vs1 h, respects f -> Forall (fun v => (0 < snd v)%Z) vs2 -> room h -> (forall w k, In (w, k) (vs1 ++ vs2) -> num w) -> tallies vs1 h ->
      length ds <= sk_cap h - 1 -> Forall num ds -> (forall w k, In (w, k) (vs1 ++ vs2) -> exists x, In x ds /\ same F fle x w) ->
      weight_if f (sk_cs (fold_left (fun h v => add_many (fst v) (snd v) h) vs2 h)) = (weight_if f (sk_cs h) + count_if F f vs2)%Z.
    Proof.
      intros f ds vs2. induction vs2 as [|[v n] vs2 IH]; intros vs1 h Hf Hp R HV T HL HN HX; [cbn; lia|].
      cbn [fold_left fst snd]. inversion Hp; subst. cbn [snd] in *. destruct (add_weight v n h) as [W1 [W2 _]]; [assumption|assumption|].
      replace (vs1 ++ (v, n) :: vs2) with ((vs1 ++ [(v, n)]) ++ vs2) in * by (rewrite <- app_assoc; reflexivity).
      assert (Hv : num v) by (apply (HV v n), in_or_app; left; apply in_or_app; right; left; reflexivity).
      assert (T' : tallies (vs1 ++ [(v, n)]) (add_many v n h)).
      { apply (add_tallies ds); try assumption.
        - intros w k Hw. apply (HV w k). apply in_or_app. left. apply in_or_app. auto.
        - intros w k Hw. apply (HX w k). apply in_or_app. auto. }
      rewrite (IH (vs1 ++ [(v, n)])); try assumption; [|rewrite W2; assumption]. rewrite (add_weight_if f v n h vs1 (vs1 ++ [(v, n)])) by assumption.
      unfold count_if. cbn [fold_right fst snd]. destruct (f v); lia.
    Qed.
  End Order.
End Any.
