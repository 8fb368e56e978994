(** Proofs about column statistics. *)
From Coq Require Import ZArith Lia Floats.SpecFloat.
From Verif Require Import Base M_Decimal L_Decimal M_Float M_Histo M_Stream M_Stats S_Histo S_Stream S_Stats L_Stream L_Histo L_HistoQ P_Histo.
Local Open Scope nat_scope.

Lemma two63_max : f_int max_int = two63. Proof. vm_compute. reflexivity. Qed.
Lemma two63_min : f_int min_int = f_neg two63. Proof. vm_compute. reflexivity. Qed.

Section Stats.
  Variable estimate : list bytes -> Z.
  Variable top_keys : list bytes -> list (bytes * Z).
  Notation close := (close estimate top_keys).

  (** Writing several values. *)
  Definition writes (vs : list val) (a : acc) : acc := fold_left (fun a v => write v a) vs a.
  Lemma writes_app : forall a b c, writes (a ++ b) c = writes b (writes a c). Proof. intros. unfold writes. apply fold_left_app. Qed.

  (** ** scalars *)
  Lemma writes_null : forall vs c, writes vs (ANull c) = ANull (c + Z.of_nat (length (nils vs))).
  Proof.
    induction vs as [|v vs IH]; intros c; [cbn; f_equal; lia|]. change (writes (v :: vs) (ANull c)) with (writes vs (write v (ANull c))). unfold nils in *. cbn [flat_map]. rewrite app_length.
    destruct v; cbn [write write_num write_str length plus]; rewrite IH; f_equal; lia.
  Qed.
  Lemma writes_bool : forall vs c t f, writes vs (ABool c t f) =
    ABool (c + Z.of_nat (length (bools vs))) (t + Z.of_nat (count_occ Bool.bool_dec (bools vs) true)) (f + Z.of_nat (count_occ Bool.bool_dec (bools vs) false)).
  Proof.
    induction vs as [|v vs IH]; intros c t f; [cbn; f_equal; lia|]. change (writes (v :: vs) (ABool c t f)) with (writes vs (write v (ABool c t f))). unfold bools in *. cbn [flat_map]. rewrite app_length, !count_occ_app.
    destruct v; cbn [write write_num write_str length plus]; rewrite IH; try (destruct b; cbn); f_equal; lia.
  Qed.
  Definition low (bound : f64) (xs : list f64) : f64 := fold_left (fun m v => if f_ltb v m then v else m) xs bound.
  Definition high (bound : f64) (xs : list f64) : f64 := fold_left (fun m v => if f_ltb m v then v else m) xs bound.
  Lemma writes_num : forall vs c mn mx mean med d h sk, writes vs (ANum c mn mx mean med d h sk) =
    ANum (c + Z.of_nat (length (numbers vs))) (low mn (numbers vs)) (high mx (numbers vs)) (fold_left f_add (numbers vs) mean) med d h (fold_left (fun h v => sk_add v h) (numbers vs) sk).
  Proof.
    induction vs as [|v vs IH]; intros c mn mx mean med d h sk; [cbn; f_equal; lia|]. change (writes (v :: vs) (ANum c mn mx mean med d h sk)) with (writes vs (write v (ANum c mn mx mean med d h sk))). unfold numbers in *. cbn [flat_map]. unfold low, high. rewrite app_length, !fold_left_app.
    destruct v; cbn [write write_num write_str length plus fold_left]; rewrite IH; f_equal; lia.
  Qed.
  Definition len (s : bytes) : Z := Z.of_nat (length s).
  Definition lowz (b : Z) (ss : list bytes) : Z := fold_left (fun m s => if (len s <? m)%Z then len s else m) ss b.
  Definition highz (b : Z) (ss : list bytes) : Z := fold_left (fun m s => if (m <? len s)%Z then len s else m) ss b.
  Lemma writes_str : forall vs c mn mx u f seen, writes vs (AStr c mn mx u f seen) =
    AStr (c + Z.of_nat (length (texts vs))) (lowz mn (texts vs)) (highz mx (texts vs)) u f (seen ++ texts vs).
  Proof.
    induction vs as [|v vs IH]; intros c mn mx u f seen; [cbn; rewrite app_nil_r; f_equal; lia|]. change (writes (v :: vs) (AStr c mn mx u f seen)) with (writes vs (write v (AStr c mn mx u f seen))). unfold texts in *. cbn [flat_map]. unfold lowz, highz. rewrite app_length, !fold_left_app.
    destruct v; cbn [write write_num write_str length plus fold_left]; rewrite IH; try rewrite <- app_assoc; f_equal; lia.
  Qed.

  (** ** containers *)
  Definition grow (o : option acc) (vs : list val) : option acc :=
    match vs with [] => o | v :: _ => Some (writes vs (match o with Some a => a | None => new_acc v end)) end.
  Lemma grow_app : forall o a b, grow o (a ++ b) = grow (grow o a) b.
  Proof. intros o [|x a] [|y b]; try reflexivity; cbn [app grow]; [rewrite app_nil_r; reflexivity|]. f_equal. change (x :: a ++ y :: b) with ((x :: a) ++ y :: b). apply writes_app. Qed.
  Fixpoint write_map (m : list (bytes * val)) (ch : list (bytes * acc)) {struct m} : list (bytes * acc) :=
    match m with
    | [] => ch
    | (k, x) :: m' => write_map m' (map_set k (write x (match map_get k ch with Some c => c | None => new_acc x end)) ch)
    end.
  Fixpoint write_list (l : list val) (ch : list acc) {struct l} : list acc :=
    match l with
    | [] => ch
    | x :: l' => match ch with c :: ch' => write x c :: write_list l' ch' | [] => write x (new_acc x) :: write_list l' [] end
    end.
  Lemma write_obj : forall m ch, write (VMap m) (AObj ch) = AObj (write_map m ch).
  Proof. intros m ch. cbn [write]. f_equal. Qed.
  Lemma write_arr : forall l ch, write (VArr l) (AArr ch) = AArr (write_list l ch).
  Proof. intros l ch. cbn [write]. f_equal. Qed.
  Lemma get_none : forall V (m : list (bytes * V)) k, map_get k m = None <-> ~ In k (map fst m).
  Proof.
    intros V m k. induction m as [|[k' v] m IH]; cbn; [tauto|]. destruct (beqb_spec k k') as [->|Hne]; [split; [discriminate|intros H; exfalso; apply H; auto]|].
    rewrite IH. split; [intros H [E|E]; [congruence|contradiction]|tauto].
  Qed.
  Lemma write_map_get : forall m ch, NoDup (map fst m) -> sorted ch -> sorted (write_map m ch) /\
    forall k, map_get k (write_map m ch) = grow (map_get k ch) (match map_get k m with Some x => [x] | None => [] end).
  Proof.
    induction m as [|[k x] m IH]; intros ch ND HS; cbn [write_map]; [auto|]. inversion ND as [|? ? N1 N2]; subst.
    destruct (IH (map_set k (write x (match map_get k ch with Some c => c | None => new_acc x end)) ch) N2 (sorted_set _ _ _ HS)) as [I1 I2]. split; [assumption|].
    intros k0. rewrite I2. cbn [map_get]. destruct (beqb_spec k0 k) as [->|Hne].
    - rewrite map_get_set_eq. apply get_none in N1. rewrite N1. cbn [grow]. unfold writes. cbn [fold_left]. destruct (map_get k ch); reflexivity.
    - rewrite map_get_set_neq by assumption. reflexivity.
  Qed.
  Lemma writes_obj : forall vs ch, Forall proper vs -> sorted ch -> exists ch', writes vs (AObj ch) = AObj ch' /\ sorted ch' /\ forall k, map_get k ch' = grow (map_get k ch) (at_key k vs).
  Proof.
    induction vs as [|v vs IH]; intros ch HP HS; [exists ch; auto|]. inversion HP as [|? ? P1 P2]; subst. change (writes (v :: vs) (AObj ch)) with (writes vs (write v (AObj ch))).
    assert (SK : (forall m, v <> VMap m) -> write v (AObj ch) = AObj ch /\ forall k, at_key k (v :: vs) = at_key k vs) by (intros H; destruct v; try (split; reflexivity); exfalso; eapply H; reflexivity).
    destruct v as [ | | | | | | |m]; try (destruct SK as [E1 E2]; [intros m' X; discriminate|]; rewrite E1; destruct (IH ch P2 HS) as [ch' [I1 [I2 I3]]]; exists ch'; split; [assumption|]; split; [assumption|]; intros k; rewrite E2; apply I3).
    inversion P1 as [| | | | | | |m' ND PF]; subst. rewrite write_obj. destruct (write_map_get m ch ND HS) as [W1 W2]. destruct (IH (write_map m ch) P2 W1) as [ch' [I1 [I2 I3]]].
    exists ch'. split; [assumption|]. split; [assumption|]. intros k. rewrite I3, W2. change (at_key k (VMap m :: vs)) with ((match map_get k m with Some x => [x] | None => [] end) ++ at_key k vs). symmetry. apply grow_app.
  Qed.
  Lemma write_list_nth : forall l ch i, nth_error (write_list l ch) i = grow (nth_error ch i) (match nth_error l i with Some x => [x] | None => [] end).
  Proof.
    induction l as [|x l IH]; intros ch i; cbn [write_list]; [rewrite nth_error_nil'; reflexivity|].
    destruct ch as [|c ch]; destruct i as [|i]; cbn [nth_error]; try reflexivity; rewrite IH; rewrite ?nth_error_nil'; reflexivity.
  Qed.
  Lemma writes_arr : forall vs ch, exists ch', writes vs (AArr ch) = AArr ch' /\ forall i, nth_error ch' i = grow (nth_error ch i) (at_index i vs).
  Proof.
    induction vs as [|v vs IH]; intros ch; [exists ch; auto|]. change (writes (v :: vs) (AArr ch)) with (writes vs (write v (AArr ch))).
    assert (SK : (forall m, v <> VArr m) -> write v (AArr ch) = AArr ch /\ forall k, at_index k (v :: vs) = at_index k vs) by (intros H; destruct v; try (split; reflexivity); exfalso; eapply H; reflexivity).
    destruct v as [ | | | | | |l| ]; try (destruct SK as [E1 E2]; [intros m' X; discriminate|]; rewrite E1; destruct (IH ch) as [ch' [I1 I3]]; exists ch'; split; [assumption|]; intros k; rewrite E2; apply I3).
    rewrite write_arr. destruct (IH (write_list l ch)) as [ch' [I1 I3]]. exists ch'. split; [assumption|]. intros i. rewrite I3, write_list_nth.
    change (at_index i (VArr l :: vs)) with ((match nth_error l i with Some x => [x] | None => [] end) ++ at_index i vs). symmetry. apply grow_app.
  Qed.

  (** ** extremes *)
  Lemma lt_true : forall a b, not_nan a -> not_nan b -> f_ltb a b = true -> f_leb a b = true.
  Proof. intros a b Ha Hb L. rewrite f_lt_le in L by assumption. destruct (f_total a b Ha Hb) as [T|T]; [assumption|]. rewrite T in L. discriminate. Qed.
  Lemma lt_false : forall a b, not_nan a -> not_nan b -> f_ltb a b = false -> f_leb b a = true.
  Proof. intros a b Ha Hb L. rewrite f_lt_le in L by assumption. destruct (f_leb b a); [reflexivity|discriminate]. Qed.
  Lemma lt_nan_l : forall a b, f_ltb a b = true -> not_nan a /\ not_nan b.
  Proof. intros a b H. split; intros ->; [destruct b; discriminate H|destruct a; discriminate H]. Qed.
  Lemma low_ok : forall xs b, not_nan b -> lowest b (low b xs) xs /\ not_nan (low b xs).
  Proof.
    intros xs. induction xs as [|x xs IH]; intros b Hb; [split; [split; [left; reflexivity|]|assumption]; intros y [<-|[]] _; apply f_refl; assumption|].
    change (low b (x :: xs)) with (low (if f_ltb x b then x else b) xs). destruct (f_ltb x b) eqn:L.
    - destruct (lt_nan_l _ _ L) as [Hx _]. destruct (IH x Hx) as [[I1 I2] I3]. split; [|assumption]. split; [right; assumption|]. intros y [<-|Hy] Ny; [|apply I2; assumption].
      apply (f_trans (low x xs) x b); try assumption; [apply I2; [left; reflexivity|assumption]|apply lt_true; assumption].
    - destruct (IH b Hb) as [[I1 I2] I3]. split; [|assumption]. split; [destruct I1; [left|right; right]; assumption|]. intros y [<-|[<-|Hy]] Ny; [apply I2; [left; reflexivity|assumption]| |apply I2; [right; assumption|assumption]].
      apply (f_trans (low b xs) b x); try assumption; [apply I2; [left; reflexivity|assumption]|apply lt_false; assumption].
  Qed.
  Lemma high_ok : forall xs b, not_nan b -> highest b (high b xs) xs /\ not_nan (high b xs).
  Proof.
    intros xs. induction xs as [|x xs IH]; intros b Hb; [split; [split; [left; reflexivity|]|assumption]; intros y [<-|[]] _; apply f_refl; assumption|].
    change (high b (x :: xs)) with (high (if f_ltb b x then x else b) xs). destruct (f_ltb b x) eqn:L.
    - destruct (lt_nan_l _ _ L) as [_ Hx]. destruct (IH x Hx) as [[I1 I2] I3]. split; [|assumption]. split; [right; assumption|]. intros y [<-|Hy] Ny; [|apply I2; assumption].
      apply (f_trans b x (high x xs)); try assumption; [apply lt_true; assumption|apply I2; [left; reflexivity|assumption]].
    - destruct (IH b Hb) as [[I1 I2] I3]. split; [|assumption]. split; [destruct I1; [left|right; right]; assumption|]. intros y [<-|[<-|Hy]] Ny; [apply I2; [left; reflexivity|assumption]| |apply I2; [right; assumption|assumption]].
      apply (f_trans x b (high b xs)); try assumption; [apply lt_false; assumption|apply I2; [left; reflexivity|assumption]].
  Qed.
  Lemma lowz_ok : forall ss b, (lowz b ss = b \/ exists s, In s ss /\ lowz b ss = len s) /\ (lowz b ss <= b)%Z /\ forall s, In s ss -> (lowz b ss <= len s)%Z.
  Proof.
    induction ss as [|x ss IH]; intros b; [split; [left; reflexivity|split; [cbn; lia|intros s []]]|].
    change (lowz b (x :: ss)) with (lowz (if (len x <? b)%Z then len x else b) ss). destruct (Z.ltb_spec (len x) b) as [L|L].
    - destruct (IH (len x)) as [I1 [I2 I3]]. split; [|split; [lia|]].
      + right. destruct I1 as [I1|[s [I1 I4]]]; [exists x; split; [left; reflexivity|assumption]|exists s; split; [right; assumption|assumption]].
      + intros s [<-|Hs]; [assumption|auto].
    - destruct (IH b) as [I1 [I2 I3]]. split; [|split; [assumption|]].
      + destruct I1 as [I1|[s [I1 I4]]]; [left; assumption|right; exists s; split; [right; assumption|assumption]].
      + intros s [<-|Hs]; [lia|auto].
  Qed.
  Lemma highz_ok : forall ss b, (highz b ss = b \/ exists s, In s ss /\ highz b ss = len s) /\ (b <= highz b ss)%Z /\ forall s, In s ss -> (len s <= highz b ss)%Z.
  Proof.
    induction ss as [|x ss IH]; intros b; [split; [left; reflexivity|split; [cbn; lia|intros s []]]|].
    change (highz b (x :: ss)) with (highz (if (b <? len x)%Z then len x else b) ss). destruct (Z.ltb_spec b (len x)) as [L|L].
    - destruct (IH (len x)) as [I1 [I2 I3]]. split; [|split; [lia|]].
      + right. destruct I1 as [I1|[s [I1 I4]]]; [exists x; split; [left; reflexivity|assumption]|exists s; split; [right; assumption|assumption]].
      + intros s [<-|Hs]; [assumption|auto].
    - destruct (IH b) as [I1 [I2 I3]]. split; [|split; [assumption|]].
      + destruct I1 as [I1|[s [I1 I4]]]; [left; assumption|right; exists s; split; [right; assumption|assumption]].
      + intros s [<-|Hs]; [lia|auto].
  Qed.

  (** ** frequencies *)
  Lemma short_label : forall i k, label i k (short_key i k).
  Proof. intros i k. unfold short_key, label. destruct (Nat.ltb_spec 40 (length k)); [right|left]; auto. Qed.
  Lemma cut_digits : forall a b c d x y, (forall n, In n a -> (48 <= n <= 57)%N) -> (forall n, In n c -> (48 <= n <= 57)%N) -> (x < 48)%N -> (y < 48)%N -> a ++ x :: b = c ++ y :: d -> a = c /\ b = d.
  Proof.
    induction a as [|n a IH]; intros b [|n' c] d x y Ha Hc Hx Hy E; cbn in E; injection E as E1 E2.
    - auto.
    - subst. specialize (Hc n' (or_introl eq_refl)). lia.
    - subst. specialize (Ha y (or_introl eq_refl)). lia.
    - subst. destruct (IH b c d x y) as [-> ->]; auto; intros; [apply Ha|apply Hc]; right; assumption.
  Qed.
  Lemma itoa_nat_in : forall n c, In c (itoa (Z.of_nat n)) -> (48 <= c <= 57)%N.
  Proof. intros n c H. unfold itoa in H. destruct (Z.ltb_spec (Z.of_nat n) 0); [lia|]. eapply L_Decimal.dec_in. eassumption. Qed.
  Lemma app_len : forall (a b c d : bytes), a ++ b = c ++ d -> length a = length c -> b = d.
  Proof. induction a as [|x a IH]; intros b [|y c] d E L; try discriminate; [assumption|]. cbn in E, L. injection E as _ E. apply (IH b c d E). lia. Qed.
  Lemma short_inj : forall i j k k', short_key i k = short_key j k' -> k = k' \/ i = j.
  Proof.
    intros i j k k'. unfold short_key. destruct (Nat.ltb_spec 40 (length k)) as [L1|L1], (Nat.ltb_spec 40 (length k')) as [L2|L2]; intros E.
    - right. apply app_len in E; [|rewrite !firstn_length; lia]. apply app_inv_head in E.
      change (bs " chars (") with (32%N :: bs "chars (") in E. cbn [app] in E. apply cut_digits in E; try lia; try (intros n Hn; eapply itoa_nat_in; eassumption). destruct E as [_ E].
      apply app_inv_head in E. change (bs ")") with [41%N] in E. apply cut_digits in E; try lia; try (intros n Hn; eapply itoa_nat_in; eassumption). destruct E as [E _]. apply L_Decimal.itoa_inj in E. lia.
    - exfalso. apply (f_equal (@length N)) in E. rewrite !app_length, firstn_length in E. change (length (bs "... ")) with 4 in E. lia.
    - exfalso. apply (f_equal (@length N)) in E. rewrite !app_length, firstn_length in E. change (length (bs "... ")) with 4 in E. lia.
    - left. assumption.
  Qed.
  Lemma set_length : forall V (m : list (bytes * V)) k v, map_get k m = None -> length (map_set k v m) = S (length m).
  Proof.
    induction m as [|[k' v'] m IH]; intros k v H; [reflexivity|]. cbn in *. destruct (beqb_spec k k') as [->|Hne]; [discriminate|]. destruct (bcmp k k') eqn:E; cbn [length]; [apply bcmp_eq in E; contradiction|reflexivity|]. rewrite IH by assumption. reflexivity.
  Qed.
  Lemma freqs_ok : forall top i m, NoDup (map fst top) -> (forall j k n, nth_error top j = Some (k, n) -> map_get (short_key (i + j) k) m = None) ->
    (forall j k n, nth_error top j = Some (k, n) -> map_get (short_key (i + j) k) (frequencies i top m) = Some n) /\
    (forall name n, map_get name (frequencies i top m) = Some n -> map_get name m = Some n \/ exists j k, nth_error top j = Some (k, n) /\ name = short_key (i + j) k) /\
    (forall name n, map_get name m = Some n -> map_get name (frequencies i top m) = Some n) /\
    length (frequencies i top m) = length m + length top.
  Proof.
    induction top as [|[k0 n0] top IH]; intros i m ND HF; cbn [frequencies].
    - split; [intros [|j] k n X; discriminate|]. split; [auto|]. split; [auto|cbn; lia].
    - inversion ND as [|? ? N1 N2]; subst. pose proof (HF 0 k0 n0 eq_refl) as H0. rewrite Nat.add_0_r in H0.
      assert (NIN : forall j k n, nth_error top j = Some (k, n) -> short_key (S i + j) k <> short_key i k0).
      { intros j k n Hj E. apply short_inj in E. destruct E as [->|E]; [|lia]. apply N1. apply nth_error_In in Hj. apply (in_map fst) in Hj. exact Hj. }
      destruct (IH (S i) (map_set (short_key i k0) n0 m) N2) as [I1 [I2 [I3 I4]]].
      { intros j k n Hj. rewrite map_get_set_neq by (apply (NIN j k n); assumption). replace (S i + j) with (i + S j) by lia. apply (HF (S j) k n). exact Hj. }
      split; [|split; [|split]].
      + intros [|j] k n Hj; cbn in Hj; [injection Hj as <- <-; rewrite Nat.add_0_r; apply I3; apply map_get_set_eq|]. replace (i + S j) with (S i + j) by lia. apply I1. assumption.
      + intros name n Hn. destruct (I2 name n Hn) as [G|[j [k [G1 G2]]]].
        * destruct (beqb_spec name (short_key i k0)) as [->|Hne]; [rewrite map_get_set_eq in G; injection G as <-; right; exists 0, k0; rewrite Nat.add_0_r; auto|]. rewrite map_get_set_neq in G by assumption. left. assumption.
        * right. exists (S j), k. replace (i + S j) with (S i + j) by lia. auto.
      + intros name n Hn. apply I3. rewrite map_get_set_neq; [assumption|]. intros ->. congruence.
      + rewrite I4, set_length by assumption. cbn [length]. lia.
  Qed.
  Lemma get_map_vint : forall (m : list (bytes * Z)) k, map_get k (map (fun kn => (fst kn, @VInt f64 (snd kn))) m) = option_map VInt (map_get k m).
  Proof. induction m as [|[k' n] m IH]; intros k; [reflexivity|]. cbn. destruct (beqb k k'); [reflexivity|apply IH]. Qed.
  Lemma labels_ok : forall top, NoDup (map fst top) -> labelled top (map (fun kn => (fst kn, VInt (snd kn))) (frequencies 0 top [])).
  Proof.
    intros top ND. destruct (freqs_ok top 0 [] ND) as [I1 [I2 [_ I4]]]; [reflexivity|]. cbn [plus] in I1, I2. split; [|split].
    - intros i k n Hi. exists (short_key i k). split; [apply short_label|]. rewrite get_map_vint, (I1 i k n Hi). reflexivity.
    - intros name x Hx. rewrite get_map_vint in Hx. destruct (map_get name (frequencies 0 top [])) as [n|] eqn:G; [|discriminate]. injection Hx as <-. destruct (I2 name n G) as [X|[j [k [G1 G2]]]]; [discriminate|].
      exists j, k, n. split; [assumption|]. split; [rewrite G2; apply short_label|reflexivity].
    - rewrite map_length, I4. reflexivity.
  Qed.

  (** ** the sketch *)
  Definition sk_of (xs : list f64) : f_sketch := f_adds (map (fun x => (x, 1%Z)) xs) sk32.
  Definition median_at : f64 := f_lit 9007197453301141 (-54).      (* 0.4999999 *)
  Definition sketched (xs bins freqs : list f64) (med : f64) : Prop :=
    exists fs, f_read (sk_of xs) = (bins, fs) /\ freqs = map f_int fs /\ f_quantile (sk_of xs) median_at = Ok med.
  Lemma sk_fold : forall xs h, fold_left (fun h v => sk_add v h) xs h = f_adds (map (fun x => (x, 1%Z)) xs) h.
  Proof. induction xs as [|x xs IH]; intros h; [reflexivity|]. cbn [fold_left map]. rewrite IH. reflexivity. Qed.
  Lemma sk_new32 : f_new 32 = Ok sk32. Proof. reflexivity. Qed.
  Lemma sketch_some : forall xs, xs <> [] -> exists bins freqs med, sk_read (sk_of xs) = (bins, freqs) /\ sk_median (sk_of xs) = Ok med /\ sketched xs bins freqs med.
  Proof.
    intros xs Hne. assert (HP : Forall (fun v : f64 * Z => (0 < snd v)%Z) (map (fun x => (x, 1%Z)) xs)) by (clear; induction xs; cbn [map]; constructor; [reflexivity|assumption]).
    destruct (sketch_panics f64 f_ltb f_leb f_eqb f_add f_sub f_mul f_div f_sqrt f_int f_max (f_neg f_max) 32 sk32 (map (fun x => (x, 1%Z)) xs) median_at sk_new32 HP) as [S1 [S2 _]].
    destruct S2 as [_ S2]. destruct S2 as [med Hm].
    { intros E. apply S1 in E. destruct E as [E|[E|E]]; [vm_compute in E; discriminate|vm_compute in E; discriminate|]. destruct xs; [contradiction|discriminate]. }
    unfold sk_read. destruct (f_read (sk_of xs)) as [b fs] eqn:ER. exists b, (map f_int fs), med. split; [reflexivity|]. split; [exact Hm|]. exists fs. split; [assumption|]. split; [reflexivity|exact Hm].
  Qed.

  (** ** everything *)
  Fixpoint close_map (ch : list (bytes * acc)) : res (list (bytes * acc)) :=
    match ch with
    | [] => Ok []
    | (k, c) :: r => match close c with Ok c' => match close_map r with Ok r' => Ok ((k, c') :: r') | _ => Panic end | _ => Panic end
    end.
  Fixpoint close_list (ch : list acc) : res (list acc) :=
    match ch with
    | [] => Ok []
    | c :: r => match close c with Ok c' => match close_list r with Ok r' => Ok (c' :: r') | _ => Panic end | _ => Panic end
    end.
  Lemma close_obj : forall ch, close (AObj ch) = match close_map ch with Ok ch' => Ok (AObj ch') | _ => Panic end.
  Proof. intros ch. reflexivity. Qed.
  Lemma close_arr : forall ch, close (AArr ch) = match close_list ch with Ok ch' => Ok (AArr ch') | _ => Panic end.
  Proof. intros ch. reflexivity. Qed.
  Lemma close_map_ok : forall (P : bytes -> acc -> Prop) ch, (forall k c, In (k, c) ch -> exists c' c'', close c = Ok c' /\ close c' = Ok c'' /\ P k c') ->
    exists ch' ch'', close_map ch = Ok ch' /\ close_map ch' = Ok ch'' /\ Forall2 (fun kc kc' => fst kc' = fst kc /\ P (fst kc) (snd kc')) ch ch'.
  Proof.
    intros P ch. induction ch as [|[k c] ch IH]; intros H; [exists [], []; auto|]. destruct IH as [ch' [ch'' [I1 [I2 I3]]]]; [intros; apply H; right; assumption|].
    destruct (H k c (or_introl eq_refl)) as [c' [c'' [C1 [C2 C3]]]]. exists ((k, c') :: ch'), ((k, c'') :: ch''). cbn [close_map]. rewrite C1, C2, I1, I2. auto.
  Qed.
  Lemma close_list_ok : forall (P : nat -> acc -> Prop) ch, (forall i c, nth_error ch i = Some c -> exists c' c'', close c = Ok c' /\ close c' = Ok c'' /\ P i c') ->
    exists ch' ch'', close_list ch = Ok ch' /\ close_list ch' = Ok ch'' /\ length ch' = length ch /\ forall i c, nth_error ch' i = Some c -> P i c.
  Proof.
    intros P ch. revert P. induction ch as [|c ch IH]; intros P H; [exists [], []; repeat split; intros [|i] c X; discriminate|].
    destruct (IH (fun i => P (S i))) as [ch' [ch'' [I1 [I2 [I3 I4]]]]]; [intros i c0 E; apply (H (S i) c0 E)|].
    destruct (H 0 c eq_refl) as [c' [c'' [C1 [C2 C3]]]]. exists (c' :: ch'), (c'' :: ch''). cbn [close_list]. rewrite C1, C2, I1, I2. split; [reflexivity|]. split; [reflexivity|]. split; [cbn; lia|].
    intros [|i] x E; cbn in E; [injection E as <-; assumption|apply I4; assumption].
  Qed.
  Lemma in_get : forall V (m : list (bytes * V)) k v, sorted m -> In (k, v) m -> map_get k m = Some v.
  Proof.
    induction m as [|[k' v'] m IH]; intros k v HS HI; [contradiction|]; destruct HS as [A HS], HI as [E|E]; cbn; [injection E as <- <-; rewrite beqb_refl; reflexivity|]. destruct (beqb_spec k k') as [->|Hne]; [|auto].
    exfalso. apply (in_map fst) in E. revert E. apply get_none. apply map_get_above. assumption.
  Qed.
  Lemma forall2_get : forall A B (P : bytes -> B -> Prop) (l : list (bytes * A)) (l' : list (bytes * B)), Forall2 (fun x y => fst y = fst x /\ P (fst x) (snd y)) l l' ->
    (forall k, map_get k l' = None <-> map_get k l = None) /\ (forall k y, map_get k l' = Some y -> P k y) /\ (sorted l -> sorted l') /\ map fst l' = map fst l.
  Proof.
    intros A B P l l' H. assert (KA : forall (l : list (bytes * A)) (l' : list (bytes * B)) k, map fst l' = map fst l -> key_above k l -> key_above k l').
    { clear. induction l as [|[a x] l IH]; intros [|[b y] l'] k E K; try discriminate; [exact I|]. cbn in E, K |- *. injection E as -> E. destruct K as [K1 K2]. split; [assumption|apply (IH l'); assumption]. }
    induction H as [|[k x] [k' y] l l' [E Hp] H [I1 [I2 [I3 I4]]]]; cbn [fst snd] in *; [repeat split; auto; intros; discriminate|]. subst k'. split; [|split; [|split]].
    - intros k0. cbn. destruct (beqb k0 k); [split; discriminate|apply I1].
    - intros k0 y0. cbn. destruct (beqb_spec k0 k) as [->|Hne]; [intros E; injection E as <-; assumption|apply I2].
    - cbn. intros [S1 S2]. split; [apply (KA l l' k); [assumption|assumption]|auto].
    - cbn [map fst]. rewrite I4. reflexivity.
  Qed.

  Fixpoint depth (v : val) : nat :=
    match v with
    | VArr l => S (fold_right (fun x n => Nat.max (depth x) n) 0 l)
    | VMap m => S (fold_right (fun kx n => Nat.max (depth (snd kx)) n) 0 m)
    | _ => 0
    end.
  Lemma depth_arr : forall l x, In x l -> depth x < depth (VArr l).
  Proof. intros l x H. cbn [depth]. apply Nat.lt_succ_r. induction l as [|y l IH]; [contradiction|]. destruct H as [<-|H]; cbn [fold_right]; [lia|]. specialize (IH H). lia. Qed.
  Lemma depth_map : forall m k x, In (k, x) m -> depth x < depth (VMap m).
  Proof. intros m k x H. cbn [depth]. apply Nat.lt_succ_r. induction m as [|y m IH]; [contradiction|]. destruct H as [->|H]; cbn [fold_right snd]; [lia|]. specialize (IH H). lia. Qed.
  Lemma get_in : forall V (m : list (bytes * V)) k v, map_get k m = Some v -> In (k, v) m.
  Proof. induction m as [|[k' v'] m IH]; intros k v E; [discriminate|]. cbn in E. destruct (beqb_spec k k') as [->|Hne]; [injection E as ->; left; reflexivity|right; auto]. Qed.
  Lemma at_key_in : forall k vs x, In x (at_key k vs) -> exists m, In (VMap m) vs /\ In (k, x) m.
  Proof.
    intros k vs x H. unfold at_key in H. apply in_flat_map in H. destruct H as [v [Hv Hx]]. destruct v as [ | | | | | | |m]; try contradiction. destruct (map_get k m) as [y|] eqn:G; [|contradiction]. destruct Hx as [<-|[]].
    exists m. split; [assumption|apply get_in; assumption].
  Qed.
  Lemma at_index_in : forall i vs x, In x (at_index i vs) -> exists l, In (VArr l) vs /\ In x l.
  Proof.
    intros i vs x H. unfold at_index in H. apply in_flat_map in H. destruct H as [v [Hv Hx]]. destruct v as [ | | | | | |l| ]; try contradiction. destruct (nth_error l i) as [y|] eqn:G; [|contradiction]. destruct Hx as [<-|[]].
    exists l. split; [assumption|apply nth_error_In in G; assumption].
  Qed.
  Lemma at_key_ok : forall k vs n, Forall proper vs -> Forall (fun v => depth v < S n) vs -> Forall proper (at_key k vs) /\ Forall (fun v => depth v < n) (at_key k vs).
  Proof.
    intros k vs n HP HD. rewrite !Forall_forall in *. split; intros x Hx; destruct (at_key_in k vs x Hx) as [m [Hm Hk]].
    - specialize (HP _ Hm). inversion HP as [| | | | | | |m' _ PF]; subst. rewrite Forall_forall in PF. apply (PF (k, x) Hk).
    - specialize (HD _ Hm). pose proof (depth_map m k x Hk). lia.
  Qed.
  Lemma at_index_ok : forall i vs n, Forall proper vs -> Forall (fun v => depth v < S n) vs -> Forall proper (at_index i vs) /\ Forall (fun v => depth v < n) (at_index i vs).
  Proof.
    intros k vs n HP HD. rewrite !Forall_forall in *. split; intros x Hx; destruct (at_index_in k vs x Hx) as [m [Hm Hk]].
    - specialize (HP _ Hm). inversion HP as [| | | | | |m' PF| ]; subst. rewrite Forall_forall in PF. apply (PF x Hk).
    - specialize (HD _ Hm). pose proof (depth_arr m x Hk). lia.
  Qed.

  Notation column := (column estimate top_keys sketched).
  Definition acc_kind (a : acc) : kind :=
    match a with ANull _ => KNull | ABool _ _ _ => KBool | ANum _ _ _ _ _ _ _ _ => KNum | AStr _ _ _ _ _ _ => KStr | AObj _ => KObj | AArr _ => KArr end.
  Lemma acc_type_kind : forall a, acc_type a = kind_name (acc_kind a). Proof. intros []; reflexivity. Qed.
  (** The accumulators of a container, once closed, describe its parts. *)
  Definition part (vs : list val) (c : acc) : Prop := exists v r, vs = v :: r /\ acc_kind c = kind_of v /\ column (kind_of v) vs (to_map c).
  Definition parts (a : acc) (vs : list val) : Prop :=
    match a with
    | AObj ch => sorted ch /\ (forall k, map_get k ch = None <-> at_key k vs = []) /\ (forall k c, map_get k ch = Some c -> part (at_key k vs) c)
    | AArr ch => (forall i, nth_error ch i = None <-> at_index i vs = []) /\ (forall i c, nth_error ch i = Some c -> part (at_index i vs) c)
    | _ => True
    end.
  Lemma get_to_map : forall ch k, map_get k (to_map (AObj ch)) = option_map (fun c => VMap (to_map c)) (map_get k ch).
  Proof. intros ch k. cbn [to_map]. induction ch as [|[k' c] ch IH]; [reflexivity|]. cbn [map map_get fst snd]. destruct (beqb k k'); [reflexivity|apply IH]. Qed.
  Lemma sorted_to_map : forall ch, sorted ch -> sorted (to_map (AObj ch)).
  Proof.
    intros ch HS. cbn [to_map]. apply (forall2_get acc (gval f64) (fun _ _ => True) ch); [|assumption]. clear. induction ch as [|[k c] ch IH]; cbn [map]; constructor; auto.
  Qed.
  Lemma built : forall n v r, let vs := v :: r in Forall proper vs -> Forall (fun v => depth v < n) vs ->
    exists a a', close (writes vs (new_acc v)) = Ok a /\ close a = Ok a' /\ acc_kind a = kind_of v /\ column (kind_of v) vs (to_map a) /\ parts a vs.
  Proof.
    induction n as [|n IH]; intros v r vs HP HD; [inversion HD; lia|].
    assert (NUM : kind_of v = KNum -> exists a a', close (writes vs (new_acc v)) = Ok a /\ close a = Ok a' /\ acc_kind a = kind_of v /\ column (kind_of v) vs (to_map a) /\ parts a vs).
    { intros K. assert (E : new_acc v = ANum 0 (f_int max_int) (f_int min_int) (f_int 0) max_float [] [] sk32) by (destruct v; try discriminate K; reflexivity). rewrite E, writes_num, sk_fold.
      assert (Hne : numbers vs <> []) by (destruct v; try discriminate K; discriminate). destruct (sketch_some (numbers vs) Hne) as [b [f [med [S1 [S2 S3]]]]].
      change (f_adds (map (fun x => (x, 1%Z)) (numbers vs)) sk32) with (sk_of (numbers vs)). cbn [M_Stats.close]. rewrite S1, S2. eexists. eexists. split; [reflexivity|]. cbn [M_Stats.close]. rewrite S1, S2. split; [reflexivity|].
      split; [rewrite K; reflexivity|]. split; [|exact I]. rewrite K. cbn [to_map]. rewrite Z.add_0_l. destruct (Z.eqb_spec (Z.of_nat (length (numbers vs))) 0) as [Z0|Z0]; [destruct (numbers vs); [contradiction|discriminate]|].
      unfold max_float. rewrite two63_max, two63_min. apply (col_num estimate top_keys sketched vs).
      - apply low_ok. intros X. vm_compute in X. discriminate.
      - apply high_ok. intros X. vm_compute in X. discriminate.
      - assumption. }
    destruct v as [|b|z|f|s|s|l|m]; try (apply NUM; reflexivity); clear NUM; cbn [new_acc kind_of].
    - rewrite writes_null. eexists. eexists. split; [reflexivity|]. split; [reflexivity|]. split; [reflexivity|]. split; [|exact I]. cbn [to_map]. apply col_null.
    - rewrite writes_bool. eexists. eexists. split; [reflexivity|]. split; [reflexivity|]. split; [reflexivity|]. split; [|exact I]. cbn [to_map]. rewrite !Z.add_0_l. apply col_bool.
    - rewrite writes_str. eexists. eexists. split; [reflexivity|]. split; [reflexivity|]. split; [reflexivity|]. split; [|exact I]. cbn [to_map app]. rewrite Z.add_0_l.
      destruct (Z.eqb_spec (Z.of_nat (length (texts vs))) 0) as [Z0|Z0]; [discriminate|].
      assert (SH : forall s, In s (texts vs) -> (len s <= max_int)%Z).
      { intros x Hx. unfold texts in Hx. apply in_flat_map in Hx. destruct Hx as [y [Hy Hx]]. rewrite Forall_forall in HP. specialize (HP y Hy). destruct y; try contradiction. destruct Hx as [<-|[]]. inversion HP; subst; assumption. }
      destruct (lowz_ok (texts vs) max_int) as [L1 [L2 L3]], (highz_ok (texts vs) min_int) as [H1 [H2 H3]].
      apply (col_str estimate top_keys sketched vs).
      + split; [|assumption]. destruct L1 as [L1|L1]; [|assumption]. exists s. split; [left; reflexivity|]. specialize (L3 s (or_introl eq_refl)). specialize (SH s (or_introl eq_refl)). unfold len in *. lia.
      + split; [|assumption]. destruct H1 as [H1|H1]; [|assumption]. specialize (H3 s (or_introl eq_refl)). unfold len, min_int in *. lia.
      + apply labels_ok.
    - rewrite writes_null. eexists. eexists. split; [reflexivity|]. split; [reflexivity|]. split; [reflexivity|]. split; [|exact I]. cbn [to_map]. apply col_null.
    - destruct (writes_arr vs []) as [ch [E C]]. rewrite E.
      destruct (close_list_ok (fun i c => part (at_index i vs) c) ch) as [ch' [ch'' [C1 [C2 [C3 C4]]]]].
      { intros i c Hc. rewrite C, nth_error_nil' in Hc. destruct (at_index i vs) as [|x xs] eqn:EA; [discriminate|]. cbn [grow] in Hc. injection Hc as <-. destruct (at_index_ok i vs n HP HD) as [P1 P2]. rewrite EA in P1, P2.
        destruct (IH x xs P1 P2) as [a [a' [A1 [A2 [A3 [A4 A5]]]]]]. exists a, a'. split; [assumption|]. split; [assumption|]. exists x, xs. auto. }
      exists (AArr ch'), (AArr ch''). rewrite !close_arr, C1, C2. split; [reflexivity|]. split; [reflexivity|]. split; [reflexivity|].
      assert (PA : parts (AArr ch') vs).
      { split; [|assumption]. intros i. transitivity (nth_error ch i = None); [rewrite !nth_error_None, C3; tauto|]. rewrite C, nth_error_nil'. destruct (at_index i vs); cbn [grow]; split; auto; discriminate. }
      split; [|exact PA]. destruct PA as [PA1 PA2]. cbn [to_map]. apply col_arr.
      + intros i. rewrite <- PA1. rewrite nth_error_map. destruct (nth_error ch' i); cbn; split; auto; discriminate.
      + intros i x Hx. rewrite nth_error_map in Hx. destruct (nth_error ch' i) as [c|] eqn:Hc; [|discriminate]. injection Hx as <-. destruct (PA2 i c Hc) as [v [r' [Q1 [Q2 Q3]]]]. exists v, r', (to_map c). rewrite <- Q1. auto.
    - destruct (writes_obj vs [] HP I) as [ch [E [CS C]]]. rewrite E.
      destruct (close_map_ok (fun k c => part (at_key k vs) c) ch) as [ch' [ch'' [C1 [C2 C3]]]].
      { intros k c Hc. apply in_get in Hc; [|assumption]. rewrite C in Hc. cbn [map_get] in Hc. destruct (at_key k vs) as [|x xs] eqn:EA; [discriminate|]. cbn [grow] in Hc. injection Hc as <-. destruct (at_key_ok k vs n HP HD) as [P1 P2]. rewrite EA in P1, P2.
        destruct (IH x xs P1 P2) as [a [a' [A1 [A2 [A3 [A4 A5]]]]]]. exists a, a'. split; [assumption|]. split; [assumption|]. exists x, xs. auto. }
      exists (AObj ch'), (AObj ch''). rewrite !close_obj, C1, C2. split; [reflexivity|]. split; [reflexivity|]. split; [reflexivity|].
      destruct (forall2_get acc acc (fun k c => part (at_key k vs) c) ch ch' C3) as [F1 [F2 [F3 _]]].
      assert (PA : parts (AObj ch') vs).
      { split; [auto|]. split; [|assumption]. intros k. rewrite F1, C. cbn [map_get]. destruct (at_key k vs); cbn [grow]; split; auto; discriminate. }
      split; [|exact PA]. destruct PA as [PA0 [PA1 PA2]]. apply col_obj.
      + apply sorted_to_map. assumption.
      + intros k. rewrite <- PA1, get_to_map. destruct (map_get k ch'); cbn; split; auto; discriminate.
      + intros k x Hx. rewrite get_to_map in Hx. destruct (map_get k ch') as [c|] eqn:Hc; [|discriminate]. injection Hx as <-. destruct (PA2 k c Hc) as [v [r' [Q1 [Q2 Q3]]]]. exists v, r', (to_map c). rewrite <- Q1. auto.
  Qed.
End Stats.
