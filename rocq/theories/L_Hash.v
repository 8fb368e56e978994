(** Facts about base58 and SHA-256. *)
From Coq Require Import ZArith Lia.
From Verif Require Import Base M_Hash S_Hash.
Notation length := List.length.
Open Scope N_scope.

(** ** Numbers *)
Lemma number_snoc : forall base l d, number base (l ++ [d]) = number base l * base + d.
Proof. intros base l d. unfold number. rewrite fold_left_app. reflexivity. Qed.
Lemma number_app : forall base l r, number base (l ++ r) = number base l * base ^ N.of_nat (length r) + number base r.
Proof.
  intros base l r. induction r as [|d r IH] using rev_ind; [rewrite app_nil_r; cbn; lia|].
  rewrite app_assoc, !number_snoc, IH, app_length. cbn [length]. rewrite Nat.add_1_r, Nat2N.inj_succ, N.pow_succ_r'. lia.
Qed.
Lemma number_bound : forall base l, Forall (fun d => d < base) l -> number base l < base ^ N.of_nat (length l).
Proof.
  intros base l H. induction l as [|d l IH] using rev_ind; [cbn; lia|].
  apply Forall_app in H. destruct H as [H1 H2]. inversion H2; subst. specialize (IH H1).
  rewrite number_snoc, app_length. cbn [length]. rewrite Nat.add_1_r, Nat2N.inj_succ, N.pow_succ_r'. nia.
Qed.
Lemma number_pos : forall base l, 0 < base -> no_leading_zero l -> l <> [] -> 0 < number base l.
Proof.
  intros base l Hb Hz Hn. destruct l as [|d l]; [congruence|]. change (d :: l) with ([d] ++ l). rewrite number_app.
  cbn [number fold_left]. assert (d <> 0) by (intros ->; apply (Hz l); reflexivity).
  assert (0 < base ^ N.of_nat (length l)) by (apply N.neq_0_lt_0, N.pow_nonzero; lia). nia.
Qed.
Lemma nlz_snoc : forall l d, no_leading_zero (l ++ [d]) -> no_leading_zero l.
Proof. intros l d H r ->. apply (H (r ++ [d])). reflexivity. Qed.
Lemma number_unique : forall base l m, 0 < base -> Forall (fun d => d < base) l -> Forall (fun d => d < base) m ->
  no_leading_zero l -> no_leading_zero m -> number base l = number base m -> l = m.
Proof.
  intros base l. induction l as [|d l IH] using rev_ind; intros m Hb Hl Hm Zl Zm E.
  - destruct m as [|x m]; [reflexivity|]. exfalso. assert (0 < number base (x :: m)) by (apply number_pos; [assumption|assumption|discriminate]). change (number base []) with 0 in E. lia.
  - destruct m as [|x m _] using rev_ind.
    + exfalso. assert (0 < number base (l ++ [d])) by (apply number_pos; [assumption|assumption|destruct l; discriminate]). change (number base []) with 0 in E. lia.
    + apply Forall_app in Hl. destruct Hl as [Hl Hd]. apply Forall_app in Hm. destruct Hm as [Hm Hx].
      inversion Hd; subst. inversion Hx; subst. rewrite !number_snoc in E.
      assert (d = x /\ number base l = number base m) as [-> E2].
      { assert (number base l = number base m) by nia. split; [nia|assumption]. }
      f_equal. apply IH; try assumption; eapply nlz_snoc; eassumption.
Qed.
Lemma digits_length : forall base l n, 1 < base -> Forall (fun d => d < base) l -> no_leading_zero l ->
  base ^ n <= number base l < base ^ (n + 1) -> N.of_nat (length l) = n + 1.
Proof.
  intros base l n Hb Hl Hz [H1 H2].
  assert (U := number_bound base l Hl).
  destruct l as [|d l].
  { cbn in H1. assert (0 < base ^ n) by (apply N.neq_0_lt_0, N.pow_nonzero; lia). lia. }
  assert (L : base ^ N.of_nat (length l) <= number base (d :: l)).
  { change (d :: l) with ([d] ++ l). rewrite number_app. cbn [number fold_left].
    assert (d <> 0) by (intros ->; apply (Hz l); reflexivity). nia. }
  cbn [length] in *. rewrite Nat2N.inj_succ in *.
  assert (A : N.of_nat (length l) < n + 1).
  { apply (N.pow_lt_mono_r_iff base); [assumption|]. lia. }
  assert (B : n < N.succ (N.of_nat (length l))).
  { apply (N.pow_lt_mono_r_iff base); [assumption|]. lia. }
  lia.
Qed.

(** ** Base58 *)
Lemma push_carry_ok : forall c, c < 256 -> Forall (fun d => d < 58) (push_carry c) /\ number 58 (rev (push_carry c)) = c /\ no_leading_zero (rev (push_carry c)).
Proof.
  intros c H. unfold push_carry. destruct (N.eqb_spec c 0) as [->|Hn]; [repeat split; [constructor|intros r; discriminate]|].
  destruct (N.ltb_spec c 58).
  - split; [constructor; [assumption|constructor]|]. split; [cbn; lia|]. intros r X. inversion X. lia.
  - assert (c / 58 < 5) by (apply N.div_lt_upper_bound; lia). assert (1 <= c / 58) by (apply N.div_le_lower_bound; lia).
    split; [constructor; [apply N.mod_lt; lia|constructor; [lia|constructor]]|].
    split; [cbn [rev app number fold_left]; rewrite (N.div_mod' c 58) at 3; lia|]. intros r X. cbn [rev app] in X. inversion X. lia.
Qed.
Lemma shift_in_ok : forall ds c, c < 256 -> Forall (fun d => d < 58) ds -> no_leading_zero (rev ds) ->
  Forall (fun d => d < 58) (shift_in c ds) /\ number 58 (rev (shift_in c ds)) = 256 * number 58 (rev ds) + c /\
  no_leading_zero (rev (shift_in c ds)) /\ (ds <> [] -> shift_in c ds <> []).
Proof.
  induction ds as [|d ds IH]; intros c Hc Hd Hz.
  - change (shift_in c []) with (push_carry c). change (number 58 (rev [])) with 0. destruct (push_carry_ok c Hc) as [A [B C]]. repeat split; [assumption|lia|assumption|congruence].
  - inversion Hd; subst. cbn [rev] in Hz. pose proof (nlz_snoc _ _ Hz) as Hz'. cbn [shift_in]. cbv zeta.
    assert (Hx : (c + 256 * d) / 58 < 256) by (apply N.div_lt_upper_bound; lia).
    destruct (IH _ Hx H2 Hz') as [A [B [C D]]].
    split; [constructor; [apply N.mod_lt; lia|assumption]|]. cbn [rev]. split; [|split].
    + rewrite !number_snoc, B. pose proof (N.div_mod' (c + 256 * d) 58). lia.
    + destruct (rev (shift_in ((c + 256 * d) / 58) ds)) as [|y r] eqn:E.
      * intros r X. cbn [app] in X. inversion X as [[X1 X2]].
        assert (E0 : shift_in ((c + 256 * d) / 58) ds = []) by (rewrite <- (rev_involutive (shift_in _ _)), E; reflexivity).
        destruct ds as [|d1 ds]; [|apply D in E0; [destruct E0|discriminate]].
        assert (Hd0 : d <> 0) by (intros ->; apply (Hz []); reflexivity).
        change (number 58 (rev [])) with 0 in B. change (number 58 []) with 0 in B.
        assert (X3 : (c + 256 * d) / 58 = 0) by lia. apply N.div_small_iff in X3; [|lia]. lia.
      * intros r0 X. cbn [app] in X. inversion X; subst. apply (C r). reflexivity.
    + intros _. discriminate.
Qed.
Lemma encode_digits : forall b ds, bytes_ok b -> Forall (fun d => d < 58) ds -> no_leading_zero (rev ds) ->
  let r := fold_left (fun ds c => shift_in c ds) b ds in
  Forall (fun d => d < 58) r /\ no_leading_zero (rev r) /\ number 58 (rev r) = fold_left (fun a c => a * 256 + c) b (number 58 (rev ds)).
Proof.
  induction b as [|c b IH]; intros ds Hb Hd Hz; [cbn; auto|]. inversion Hb; subst. cbn [fold_left].
  destruct (shift_in_ok ds c H1 Hd Hz) as [A [B [C _]]]. destruct (IH (shift_in c ds) H2 A C) as [P [Q R]]. cbv zeta. repeat split; try assumption.
  rewrite R, B. f_equal. lia.
Qed.
Lemma leading_zeros_spec : forall b, b = repeat 0 (leading_zeros b) ++ skipn (leading_zeros b) b /\ no_leading_zero (skipn (leading_zeros b) b).
Proof.
  induction b as [|c b [IH1 IH2]]; [split; [reflexivity|intros r; discriminate]|]. cbn [leading_zeros].
  destruct (N.eqb_spec c 0) as [->|Hn].
  - cbn [repeat skipn app]. split; [f_equal; exact IH1|exact IH2].
  - cbn [repeat skipn app]. split; [reflexivity|]. intros r X. inversion X. congruence.
Qed.
Lemma alphabet_all : forall d, d < 58 -> digit_char d (nth (N.to_nat d) base58_alphabet 0).
Proof.
  intros d H. unfold digit_char. change chars58 with base58_alphabet.
  destruct (nth_error base58_alphabet (N.to_nat d)) as [c|] eqn:E; [f_equal; symmetry; apply nth_error_nth; exact E|].
  apply nth_error_None in E. change (length base58_alphabet) with 58%nat in E. lia.
Qed.
Lemma base58_meets : forall b, bytes_ok b -> base58_text b (base58 b).
Proof.
  intros b H. destruct (leading_zeros_spec b) as [E Z]. unfold base58. cbv zeta. set (z := leading_zeros b) in *.
  assert (Hs : bytes_ok (skipn z b)) by (unfold bytes_ok in *; rewrite E in H; apply Forall_app in H; apply H).
  destruct (encode_digits (skipn z b) [] Hs ltac:(constructor) ltac:(intros r; discriminate)) as [A [B C]]. cbv zeta in *.
  set (ds := fold_left (fun ds c => shift_in c ds) (skipn z b) []) in *.
  exists z, (skipn z b), (rev ds), (map (fun d => nth (N.to_nat d) base58_alphabet 0) (rev ds)). repeat split; try assumption.
  apply Forall_rev in A. clear B C. induction A; cbn [map]; constructor; [apply alphabet_all; assumption|assumption].
Qed.
Lemma digit_char_lt : forall d c, digit_char d c -> d < 58.
Proof.
  intros d c H. unfold digit_char in H. assert (X : nth_error chars58 (N.to_nat d) <> None) by congruence.
  apply nth_error_Some in X. change (length chars58) with 58%nat in X. lia.
Qed.
Lemma chars58_nodup : NoDup chars58.
Proof.
  assert (X : forall l, (fix nd (l : list N) := match l with [] => true | x :: r => negb (existsb (N.eqb x) r) && nd r end) l = true -> NoDup l).
  { induction l as [|x l IH]; intros H; constructor.
    - apply andb_prop in H. destruct H as [H _]. intros I. apply negb_true_iff in H.
      assert (Y : existsb (N.eqb x) l = true) by (apply existsb_exists; exists x; split; [assumption|apply N.eqb_refl]). congruence.
    - apply IH. apply andb_prop in H. apply H. }
  apply X. vm_compute. reflexivity.
Qed.
Lemma digit_char_inj : forall d e c, digit_char d c -> digit_char e c -> d = e.
Proof.
  intros d e c H1 H2. unfold digit_char in *. apply N2Nat.inj.
  eapply NoDup_nth_error; [apply chars58_nodup| |congruence]. apply nth_error_Some. congruence.
Qed.
Lemma digit_char_fun : forall d c e, digit_char d c -> digit_char d e -> c = e.
Proof. unfold digit_char. congruence. Qed.
Lemma zero_char : forall d, digit_char d 49 <-> d = 0.
Proof.
  intros d. split; [intros H; apply (digit_char_inj d 0 49 H); reflexivity|intros ->; reflexivity].
Qed.
Lemma lead_split : forall (x : N) z1 z2 (a b : list N), repeat x z1 ++ a = repeat x z2 ++ b ->
  (forall r, a <> x :: r) -> (forall r, b <> x :: r) -> z1 = z2 /\ a = b.
Proof.
  intros x. induction z1 as [|z1 IH]; destruct z2 as [|z2]; cbn [repeat app]; intros a b E Ha Hb.
  - auto.
  - destruct (Ha _ E).
  - symmetry in E. destruct (Hb _ E).
  - inversion E. destruct (IH z2 a b H0 Ha Hb). auto.
Qed.
Lemma digits_lead : forall ds t, Forall2 digit_char ds t -> no_leading_zero ds -> forall r, t <> 49 :: r.
Proof. intros ds t H Hz r ->. inversion H as [|d c l r' H1 H2]; subst. apply zero_char in H1. subst. apply (Hz l). reflexivity. Qed.
Lemma digits_lt : forall ds t, Forall2 digit_char ds t -> Forall (fun d => d < 58) ds.
Proof. intros ds t H. induction H; constructor; eauto using digit_char_lt. Qed.
Lemma digits_fun : forall ds t u, Forall2 digit_char ds t -> Forall2 digit_char ds u -> t = u.
Proof.
  intros ds t u H. revert u. induction H; intros u X; inversion X; subst; [reflexivity|]. f_equal; [eapply digit_char_fun; eassumption|auto].
Qed.
Lemma digits_inj : forall ds es t, Forall2 digit_char ds t -> Forall2 digit_char es t -> ds = es.
Proof.
  intros ds es t H. revert es. induction H; intros u X; inversion X; subst; [reflexivity|]. f_equal; [eapply digit_char_inj; eassumption|auto].
Qed.
Lemma base58_text_fun : forall b t u, base58_text b t -> base58_text b u -> t = u.
Proof.
  intros b t u (z1 & b1 & ds1 & t1 & E1 & N1 & -> & D1 & M1 & V1) (z2 & b2 & ds2 & t2 & E2 & N2 & -> & D2 & M2 & V2).
  rewrite E1 in E2. destruct (lead_split _ _ _ _ _ E2 N1 N2) as [-> ->].
  assert (ds1 = ds2).
  { apply (number_unique 58); [lia|eapply digits_lt; eassumption|eapply digits_lt; eassumption|assumption|assumption|congruence]. }
  subst. f_equal. eapply digits_fun; eassumption.
Qed.
Lemma base58_text_inj : forall a b t, bytes_ok a -> bytes_ok b -> base58_text a t -> base58_text b t -> a = b.
Proof.
  intros a b t Ha Hb (z1 & b1 & ds1 & t1 & -> & N1 & E1 & D1 & M1 & V1) (z2 & b2 & ds2 & t2 & -> & N2 & E2 & D2 & M2 & V2).
  rewrite E1 in E2. destruct (lead_split _ _ _ _ _ E2 (digits_lead _ _ D1 M1) (digits_lead _ _ D2 M2)) as [-> ->].
  rewrite (digits_inj _ _ _ D2 D1) in *. f_equal. unfold bytes_ok in *. apply Forall_app in Ha. apply Forall_app in Hb.
  apply (number_unique 256); [lia|apply Ha|apply Hb|assumption|assumption|congruence].
Qed.

(** ** SHA-256 *)
Lemma word_bytes_ok : forall x, bytes_ok (word_bytes x) /\ length (word_bytes x) = 4%nat.
Proof. intros x. split; [|reflexivity]. unfold word_bytes. repeat constructor; apply N.mod_lt; lia. Qed.
Lemma sha256_ok : forall m, bytes_ok (sha256 m) /\ length (sha256 m) = 32%nat.
Proof.
  intros m. unfold sha256. cbv zeta. set (s := sha_blocks _ _ _). split.
  - unfold bytes_ok. repeat (apply Forall_app; split); apply word_bytes_ok.
  - reflexivity.
Qed.
Lemma word_bytes_number : forall x, x < 4294967296 -> number 256 (word_bytes x) = x.
Proof.
  intros x H. unfold word_bytes. cbn [number fold_left].
  replace (x / 16777216) with (x / 256 / 256 / 256) by (rewrite !N.div_div by lia; f_equal).
  replace (x / 65536) with (x / 256 / 256) by (rewrite !N.div_div by lia; f_equal).
  pose proof (N.div_mod' x 256). pose proof (N.div_mod' (x / 256) 256). pose proof (N.div_mod' (x / 256 / 256) 256).
  rewrite (N.mod_small (x / 256 / 256 / 256)); [lia|]. repeat (apply N.div_lt_upper_bound; [lia|]). lia.
Qed.
Lemma sha_pad_padded : forall m, N.of_nat (length m) < 2 ^ 61 -> padded m (sha_pad m).
Proof.
  intros m H. unfold sha_pad. cbv zeta. set (n := N.of_nat (length m)) in *. set (z := (119 - n mod 64) mod 64).
  assert (Hz : z < 64) by (apply N.mod_lt; lia).
  exists (N.to_nat z), (word_bytes (n * 8 / 4294967296) ++ word_bytes (n * 8 mod 4294967296)).
  split; [reflexivity|]. split; [reflexivity|]. split; [|split; [|lia]].
  - rewrite number_app, !word_bytes_number.
    + change (256 ^ N.of_nat (length (word_bytes (n * 8 mod 4294967296)))) with 4294967296. rewrite (N.mul_comm 8).
      fold n. rewrite (N.mul_comm (n * 8 / 4294967296)). symmetry. apply N.div_mod'.
    + apply N.mod_lt. lia.
    + apply N.div_lt_upper_bound; [lia|]. change (2 ^ 61) with 2305843009213693952 in H. lia.
  - repeat rewrite app_length. rewrite repeat_length. cbn [length word_bytes]. apply Nat2N.inj. rewrite Nat2N.inj_mod. cbn [N.of_nat].
    rewrite !Nat2N.inj_add, N2Nat.id. fold n. cbn [N.of_nat Pos.of_succ_nat Pos.succ].
    subst z. pose proof (N.div_mod' n 64). assert (n mod 64 < 64) by (apply N.mod_lt; lia). set (q := n / 64) in *. set (r := n mod 64) in *.
    destruct (N.le_gt_cases r 55).
    + replace ((119 - r) mod 64) with (55 - r); [replace (n + (1 + (55 - r + (4 + 4)))) with ((q + 1) * 64) by lia; apply N.mod_mul; lia|].
      replace (119 - r) with (55 - r + 1 * 64) by lia. rewrite N.mod_add by lia. symmetry. apply N.mod_small. lia.
    + rewrite (N.mod_small (119 - r)) by lia. replace (n + (1 + (119 - r + (4 + 4)))) with ((q + 2) * 64) by lia. apply N.mod_mul. lia.
Qed.
Lemma word_mod : forall x, word x = x mod 2 ^ 32.
Proof. intros x. unfold word. change 4294967295 with (N.ones 32). apply N.land_ones. Qed.

Definition eight_of (s : sha_state) : eight := (h0 s, h1 s, h2 s, h3 s, h4 s, h5 s, h6 s, h7 s).
Notation fround := (fips_round bsig0 bsig1 choose majority).
Lemma add32_mod : forall a b, add32 a b = (a + b) mod 2 ^ 32.
Proof. intros a b. unfold add32. apply word_mod. Qed.
Lemma add32_more : forall a b, add32 (a mod 2 ^ 32) b = (a + b) mod 2 ^ 32.
Proof. intros a b. rewrite add32_mod. apply N.add_mod_idemp_l. discriminate. Qed.
Lemma round_window : forall s w k, length w = 16%nat -> exists s', eight_of s' = fround (eight_of s) (k, nth 0 w 0) /\ sha_round (s, w) k =
  (s', tl w ++ [(ssig1 (nth 14 w 0) + nth 9 w 0 + ssig0 (nth 1 w 0) + nth 0 w 0) mod 2 ^ 32]).
Proof.
  intros s w k H. destruct w as [|w0 r]; [discriminate|]. unfold sha_round. eexists. split; [|f_equal; cbn [tl]; f_equal; f_equal].
  - assert (T1 : forall a b c d e, add32 (add32 (add32 (add32 a b) c) d) e = (a + b + c + d + e) mod 2 ^ 32)
      by (intros; rewrite (add32_mod a b), !add32_more; reflexivity).
    rewrite (T1 (h7 s) (bsig1 (h4 s)) (choose (h4 s) (h5 s) (h6 s)) k w0). unfold eight_of, fips_round, add32. rewrite !word_mod. cbn [h0 h1 h2 h3 h4 h5 h6 h7 nth fst snd].
    rewrite N.add_mod_idemp_l by lia. rewrite N.add_mod_idemp_r by lia. rewrite N.add_mod_idemp_r by lia. reflexivity.
  - rewrite (add32_mod (ssig1 _)), !add32_more. cbn [nth]. reflexivity.
Qed.
(** A window of a schedule. *)
Definition window (w : list N) (l : list N) : Prop := firstn 16 l = w /\
  forall t, (16 <= t < length l)%nat ->
    nth t l 0 = (ssig1 (nth (t - 2) l 0) + nth (t - 7) l 0 + ssig0 (nth (t - 15) l 0) + nth (t - 16) l 0) mod 2 ^ 32.
Lemma window_step : forall s ks w, length w = 16%nat -> exists l, length l = (16 + length ks)%nat /\ window w l /\
  exists s', eight_of s' = fold_left fround (combine ks l) (eight_of s) /\ fold_left sha_round ks (s, w) = (s', skipn (length ks) l).
Proof.
  intros s ks. revert s. induction ks as [|k ks IH]; intros s w H.
  - exists w. cbn [length firstn fold_left skipn combine]. repeat split; [lia|rewrite <- H; apply firstn_all|intros; lia|eauto].
  - destruct (round_window s w k H) as [s' [V E]].
    assert (H' : length (tl w ++ [(ssig1 (nth 14 w 0) + nth 9 w 0 + ssig0 (nth 1 w 0) + nth 0 w 0) mod 2 ^ 32]) = 16%nat).
    { rewrite app_length. destruct w; [discriminate|]. cbn [tl length] in *. lia. }
    destruct (IH s' _ H') as [l [L1 [[W1 W2] [s2 [U R]]]]].
    destruct w as [|w0 w]; [discriminate|]. cbn [tl] in *. exists (w0 :: l). cbn [length]. split; [lia|]. split.
    + split.
      * change (firstn 16 (w0 :: l)) with (w0 :: firstn 15 l). f_equal.
        replace (firstn 15 l) with (firstn 15 (firstn 16 l)) by (rewrite firstn_firstn; reflexivity).
        rewrite W1. cbn [length] in H. replace 15%nat with (length w) by lia. rewrite firstn_app, Nat.sub_diag, firstn_all. apply app_nil_r.
      * intros t [T1 T2]. cbn [length] in T2. destruct (Nat.eq_dec t 16) as [->|Hne].
        -- assert (G : forall i, (i < 15)%nat -> nth i l 0 = nth i w 0).
           { intros i Hi. rewrite <- (firstn_skipn 16 l), W1, app_nth1, app_nth1; [reflexivity|cbn [length] in H; lia|rewrite H'; lia]. }
           cbn [Nat.sub nth]. rewrite (G 13%nat), (G 8%nat), (G 0%nat) by lia.
           rewrite <- (firstn_skipn 16 l), W1, app_nth1 by (rewrite H'; lia). cbn [length] in H.
           rewrite app_nth2 by lia. replace (15 - length w)%nat with 0%nat by lia. reflexivity.
        -- destruct t as [|t]; [lia|]. specialize (W2 t ltac:(lia)). cbn [nth].
           replace (S t - 2)%nat with (S (t - 2)) by lia. replace (S t - 7)%nat with (S (t - 7)) by lia.
           replace (S t - 15)%nat with (S (t - 15)) by lia. replace (S t - 16)%nat with (S (t - 16)) by lia. cbn [nth]. exact W2.
    + exists s2. cbn [fold_left skipn combine]. rewrite E. split; [|exact R]. rewrite U, V. reflexivity.
Qed.
Lemma combine_firstn : forall (A B : Type) (l : list A) (m : list B), combine l m = combine l (firstn (length l) m).
Proof. intros A B. induction l as [|x l IH]; intros m; [reflexivity|]. destruct m; [reflexivity|]. cbn [combine length firstn]. rewrite <- IH. reflexivity. Qed.
Lemma sha_block_fips : forall s block, length block = 16%nat -> exists ws, schedule ssig0 ssig1 block ws /\
  eight_of (sha_block s block) = fips_block bsig0 bsig1 choose majority sha_k ws (eight_of s).
Proof.
  intros s w H. destruct (window_step s sha_k w H) as [l [L1 [[W1 W2] [s' [U R]]]]]. change (length sha_k) with 64%nat in *.
  exists (firstn 64 l). assert (FL : length (firstn 64 l) = 64%nat) by (rewrite firstn_length; lia).
  assert (G : forall i, (i < 64)%nat -> nth i (firstn 64 l) 0 = nth i l 0).
  { intros i Hi. rewrite <- (firstn_skipn 64 l) at 2. rewrite app_nth1; [reflexivity|lia]. }
  split; [split; [assumption|]; split; [rewrite firstn_firstn; exact W1|]; intros t Ht; rewrite !G by lia; apply W2; lia|].
  unfold sha_block. rewrite R. unfold fips_block. rewrite (combine_firstn _ _ sha_k l) in U. change (length sha_k) with 64%nat in U.
  rewrite <- U. unfold eight_of, add32. rewrite !word_mod. reflexivity.
Qed.
(** The blocks are the padded message cut into pieces of sixteen words. *)
Lemma words_length : forall n l, length l = (4 * n)%nat -> length (words l) = n.
Proof.
  induction n as [|n IH]; intros l H; [destruct l; [reflexivity|discriminate]|].
  destruct l as [|a [|b [|c [|d l]]]]; cbn [length] in H; try lia. cbn [words length]. rewrite IH by lia. reflexivity.
Qed.
Lemma words_big_endian : forall n l, bytes_ok l -> length l = (4 * n)%nat -> big_endian (words l) l.
Proof.
  induction n as [|n IH]; intros l Hb H.
  - destruct l; [|discriminate]. exists []. split; [reflexivity|constructor].
  - destruct l as [|a [|b [|c [|d l]]]]; cbn [length] in H; try lia. apply (Forall_app _ [a; b; c; d] l) in Hb. destruct Hb as [H1 H2].
    destruct (IH l H2 ltac:(lia)) as [gs [E F]]. exists ([a; b; c; d] :: gs). cbn [concat app words]. split; [congruence|].
    constructor; [|exact F]. split; [reflexivity|]. split; [exact H1|]. reflexivity.
Qed.
Lemma sha_blocks_fips : forall fuel n s w, length w = (16 * n)%nat -> (n <= fuel)%nat ->
  fips_blocks bsig0 bsig1 choose majority ssig0 ssig1 sha_k w (eight_of s) (eight_of (sha_blocks fuel s w)).
Proof.
  induction fuel as [|fuel IH]; intros n s w H Hf.
  - replace n with 0%nat in H by lia. destruct w; [constructor|discriminate].
  - destruct w as [|x w]; [constructor|]. destruct n as [|n]; [discriminate|]. cbn [sha_blocks]. set (l := x :: w) in *.
    rewrite <- (firstn_skipn 16 l) at 1. assert (L : length (firstn 16 l) = 16%nat) by (rewrite firstn_length; lia).
    destruct (sha_block_fips s (firstn 16 l) L) as [ws [Hs E]]. apply (fb_block _ _ _ _ _ _ _ _ ws); [assumption|assumption|].
    rewrite <- E. apply (IH n); [rewrite skipn_length; lia|lia].
Qed.
Lemma rotr_lt : forall x, word x < 2 ^ 32.
Proof. intros x. rewrite word_mod. apply N.mod_lt. discriminate. Qed.
Definition small (v : eight) : Prop := Forall (fun x => x < 2 ^ 32) (eight_list v).
Lemma sha_blocks_small : forall fuel s w, small (eight_of s) -> small (eight_of (sha_blocks fuel s w)).
Proof.
  induction fuel as [|fuel IH]; intros s w H; [exact H|]. destruct w as [|x w]; [exact H|]. cbn [sha_blocks]. apply IH.
  unfold sha_block. destruct (fold_left _ _ _) as [t u]. unfold small, eight_of, eight_list, add32. repeat constructor; apply rotr_lt.
Qed.
Lemma pad_ok : forall m, bytes_ok m -> bytes_ok (sha_pad m).
Proof.
  intros m H. unfold sha_pad, bytes_ok in *. cbv zeta. repeat (apply Forall_app; split); try apply word_bytes_ok; [exact H|repeat constructor|].
  apply Forall_forall. intros c I. apply repeat_spec in I. subst. reflexivity.
Qed.
Lemma sha256_meets : forall m, bytes_ok m -> N.of_nat (length m) < 2 ^ 61 ->
  exists p ws v, padded m p /\ big_endian ws p /\ fips_blocks bsig0 bsig1 choose majority ssig0 ssig1 sha_k ws (eight_of sha_init) v /\
  big_endian (eight_list v) (sha256 m).
Proof.
  intros m Hb H. pose proof (sha_pad_padded m H) as P. assert (P' := P). destruct P' as [z [len [E [L8 [_ [M Z]]]]]].
  assert (LE : length (sha_pad m) = (64 * (length (sha_pad m) / 64))%nat) by (pose proof (Nat.div_mod_eq (length (sha_pad m)) 64); lia).
  set (n := (length (sha_pad m) / 64)%nat) in *.
  exists (sha_pad m), (words (sha_pad m)), (eight_of (sha_blocks (S (length m)) sha_init (words (sha_pad m)))).
  split; [assumption|]. split; [apply (words_big_endian (16 * n)); [apply pad_ok; assumption|lia]|].
  split.
  - apply (sha_blocks_fips _ n); [apply words_length; lia|].
    assert (length (sha_pad m) = (length m + (1 + (z + 8)))%nat) by (rewrite E; rewrite app_length; cbn [length]; rewrite app_length, repeat_length; lia).
    destruct m as [|c m].
    + cbn [length] in *. lia.
    + cbn [length] in *. lia.
  - assert (S8 : small (eight_of (sha_blocks (S (length m)) sha_init (words (sha_pad m))))).
    { apply sha_blocks_small. repeat constructor. }
    unfold sha256. cbv zeta. set (s := sha_blocks (S (length m)) sha_init (words (sha_pad m))) in *. clearbody s.
    exists (map word_bytes (eight_list (eight_of s))). split; [cbn [eight_list eight_of map concat]; rewrite app_nil_r; reflexivity|].
    unfold small in S8. induction S8; cbn [map]; constructor; [|assumption].
    destruct (word_bytes_ok x). split; [assumption|]. split; [assumption|]. apply word_bytes_number. exact H0.
Qed.
