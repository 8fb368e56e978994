(** The decoder of [M_Utf8] inverts the encoder. *)
From Coq Require Import ZArith Lia ZifyN ZifyBool.
From Verif Require Import Base M_Utf8 S_Utf8.
Ltac Zify.zify_post_hook ::= Z.div_mod_to_equations.

Lemma in_range_spec : forall lo hi c, in_range lo hi c = true <-> (lo <= c <= hi)%N.
Proof. intros. unfold in_range. rewrite andb_true_iff, !N.leb_le. tauto. Qed.
Lemma in_range_true : forall lo hi c, (lo <= c <= hi)%N -> in_range lo hi c = true.
Proof. intros. apply in_range_spec. assumption. Qed.
Lemma in_range_false : forall lo hi c, (c < lo \/ hi < c)%N -> in_range lo hi c = false.
Proof. intros. destruct (in_range lo hi c) eqn:E; [|reflexivity]. apply in_range_spec in E. lia. Qed.

Lemma encode_length : forall r, (1 <= length (encode_rune r) <= 4)%nat.
Proof.
  intros r. unfold encode_rune. destruct (r <? 128)%N; [cbn; lia|]. destruct (r <? 2048)%N; [cbn; lia|].
  destruct (r <? 65536)%N; cbn; lia.
Qed.

Lemma decode_encode : forall r t, scalar r -> decode_rune (encode_rune r ++ t) = Some (r, length (encode_rune r)).
Proof.
  intros r t [H1 H2]. unfold encode_rune.
  destruct (N.ltb_spec r 128) as [A|A].
  { cbn [app decode_rune length]. rewrite (proj2 (N.ltb_lt r 128)) by assumption. reflexivity. }
  destruct (N.ltb_spec r 2048) as [B|B].
  { cbn [app decode_rune length]. rewrite (proj2 (N.ltb_ge (192 + r / 64) 128)) by lia.
    rewrite in_range_true by lia. rewrite in_range_true by lia. f_equal. f_equal. lia. }
  destruct (N.ltb_spec r 65536) as [C|C].
  { cbn [app decode_rune length]. rewrite (proj2 (N.ltb_ge (224 + r / 4096) 128)) by lia.
    rewrite in_range_false by lia. rewrite in_range_true by lia.
    destruct (N.eqb_spec (224 + r / 4096) 224) as [E|E]; destruct (N.eqb_spec (224 + r / 4096) 237) as [G|G]; try lia;
      (rewrite !in_range_true by lia; cbn [andb]; f_equal; f_equal; lia). }
  cbn [app decode_rune length]. rewrite (proj2 (N.ltb_ge (240 + r / 262144) 128)) by lia.
  rewrite in_range_false by lia. rewrite in_range_false by lia. rewrite in_range_true by lia.
  destruct (N.eqb_spec (240 + r / 262144) 240) as [E|E]; destruct (N.eqb_spec (240 + r / 262144) 244) as [G|G]; try lia;
    (rewrite !in_range_true by lia; cbn [andb]; f_equal; f_equal; lia).
Qed.

Lemma decode_some : forall s r k, decode_rune s = Some (r, k) ->
  scalar r /\ k = length (encode_rune r) /\ s = encode_rune r ++ skipn k s.
Proof.
  intros s r k H. destruct s as [|a t]; [discriminate|]. cbn [decode_rune] in H.
  destruct (N.ltb_spec a 128) as [A|A].
  { inversion H; subst. unfold scalar, encode_rune. rewrite (proj2 (N.ltb_lt r 128)) by assumption. cbn. split; [lia|auto]. }
  destruct (in_range 194 223 a) eqn:R1.
  { apply in_range_spec in R1. destruct t as [|b t]; [discriminate|]. destruct (in_range 128 191 b) eqn:R2; [|discriminate].
    apply in_range_spec in R2. inversion H; subst. clear H.
    set (r := ((a - 192) * 64 + (b - 128))%N).
    assert (Hr : (128 <= r < 2048)%N) by (unfold r; lia).
    unfold scalar, encode_rune. rewrite (proj2 (N.ltb_ge r 128)) by lia. rewrite (proj2 (N.ltb_lt r 2048)) by lia.
    cbn [length app skipn]. split; [lia|]. split; [reflexivity|]. f_equal; [unfold r; lia|]. f_equal; unfold r; lia. }
  destruct (in_range 224 239 a) eqn:R2.
  { apply in_range_spec in R2. clear R1. destruct t as [|b [|c t]]; try discriminate.
    match type of H with (if ?x then _ else _) = _ => destruct x eqn:R3; [|discriminate] end.
    apply andb_true_iff in R3. destruct R3 as [R3 R4]. apply in_range_spec in R3, R4.
    assert (R5 : (128 <= b <= 191 /\ (a = 224 -> 160 <= b) /\ (a = 237 -> b <= 159))%N).
    { destruct (N.eqb_spec a 224); destruct (N.eqb_spec a 237); lia. }
    clear R3. inversion H; subst. clear H.
    set (r := ((a - 224) * 4096 + (b - 128) * 64 + (c - 128))%N).
    assert (Hr : (2048 <= r < 65536)%N).
    { destruct (N.eq_dec a 224); unfold r; lia. }
    assert (Hs : ~ (55296 <= r <= 57343)%N).
    { destruct (N.lt_trichotomy a 237) as [X|[X|X]]; unfold r; lia. }
    unfold scalar, encode_rune. rewrite (proj2 (N.ltb_ge r 128)) by lia. rewrite (proj2 (N.ltb_ge r 2048)) by lia.
    rewrite (proj2 (N.ltb_lt r 65536)) by lia.
    cbn [length app skipn]. split; [lia|]. split; [reflexivity|]. f_equal; [unfold r; lia|]. f_equal; [unfold r; lia|]. f_equal; unfold r; lia. }
  destruct (in_range 240 244 a) eqn:R3; [|discriminate].
  apply in_range_spec in R3. clear R1 R2. destruct t as [|b [|c [|d t]]]; try discriminate.
  match type of H with (if ?x then _ else _) = _ => destruct x eqn:R4; [|discriminate] end.
  apply andb_true_iff in R4. destruct R4 as [R4 R6]. apply andb_true_iff in R4. destruct R4 as [R4 R5].
  apply in_range_spec in R4, R5, R6.
  assert (R7 : (128 <= b <= 191 /\ (a = 240 -> 144 <= b) /\ (a = 244 -> b <= 143))%N).
  { destruct (N.eqb_spec a 240); destruct (N.eqb_spec a 244); lia. }
  clear R4. inversion H; subst. clear H.
  set (r := ((a - 240) * 262144 + (b - 128) * 4096 + (c - 128) * 64 + (d - 128))%N).
  assert (Hr : (65536 <= r < 1114112)%N).
  { destruct (N.eq_dec a 240); [unfold r; lia|]. destruct (N.eq_dec a 244); unfold r; lia. }
  unfold scalar, encode_rune. rewrite (proj2 (N.ltb_ge r 128)) by lia. rewrite (proj2 (N.ltb_ge r 2048)) by lia.
  rewrite (proj2 (N.ltb_ge r 65536)) by lia.
  cbn [length app skipn]. split; [lia|]. split; [reflexivity|]. f_equal; [unfold r; lia|]. f_equal; [unfold r; lia|].
  f_equal; [unfold r; lia|]. f_equal; unfold r; lia.
Qed.

Lemma decode_none : forall s r t, decode_rune s = None -> scalar r -> s <> encode_rune r ++ t.
Proof. intros s r t H Hr ->. rewrite decode_encode in H by assumption. discriminate. Qed.

Lemma cleaned_fun : forall s a, cleaned s a -> forall b, cleaned s b -> a = b.
Proof.
  induction 1 as [|r s s' Hr H IH|c s s' Hc H IH]; intros b Hb.
  - inversion Hb as [|r s0 s0' Hr H E|]; subst; [reflexivity|].
    pose proof (encode_length r). destruct (encode_rune r); [cbn in *; lia|discriminate].
  - inversion Hb as [E|r2 s2 s2' Hr2 H2 E|c s2 s2' Hc H2 E]; subst.
    + pose proof (encode_length r). destruct (encode_rune r); [cbn in *; lia|discriminate].
    + assert (X : decode_rune (encode_rune r2 ++ s2) = decode_rune (encode_rune r ++ s)) by (rewrite E; reflexivity).
      rewrite !decode_encode in X by assumption. inversion X; subst. apply app_inv_head in E. subst. f_equal. apply IH. assumption.
    + exfalso. apply (Hc r s Hr). assumption.
  - inversion Hb as [|r2 s2 s2' Hr2 H2 E|c2 s2 s2' Hc2 H2 E]; subst.
    + exfalso. apply (Hc r2 s2 Hr2). symmetry. assumption.
    + f_equal. apply IH. assumption.
Qed.

Lemma cleaned_well_formed : forall s, well_formed s -> cleaned s s.
Proof.
  intros s [rs [H ->]]. induction H as [|r rs Hr H IH]; cbn; [constructor|]. constructor; assumption.
Qed.
Lemma well_formed_app : forall a b, well_formed a -> well_formed b -> well_formed (a ++ b).
Proof.
  intros a b [x [H1 ->]] [y [H2 ->]]. exists (x ++ y). split; [apply Forall_app; auto|]. rewrite flat_map_app. reflexivity.
Qed.
Lemma cleaned_is_well_formed : forall s s', cleaned s s' -> well_formed s'.
Proof.
  induction 1 as [|r s s' Hr H IH|c s s' Hc H IH].
  - exists []. auto.
  - apply well_formed_app; [|assumption]. exists [r]. cbn. rewrite app_nil_r. auto.
  - apply well_formed_app; [|assumption]. exists [65533%N]. split; [|reflexivity]. constructor; [|constructor]. unfold scalar. lia.
Qed.
