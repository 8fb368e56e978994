(** json.Unmarshal accepts nothing but JSON texts. *)
From Coq Require Import ZArith Lia ZifyN ZifyBool.
From Verif Require Import Base M_Decimal L_Decimal M_Utf8 S_Utf8 L_Utf8 M_Json S_JsonText S_JsonBack M_Unmarshal S_NDJson L_JsonRead L_JsonMarshal L_Unmarshal.

Lemma drop_blank_split : forall s, exists w, blank w /\ s = w ++ drop_blank s.
Proof.
  induction s as [|c s [w [Hw E]]]; [exists []; split; [constructor|reflexivity]|]. cbn [drop_blank].
  destruct (is_ws c) eqn:Ec.
  - exists (c :: w). split; [|cbn; congruence]. constructor; [|assumption]. unfold is_ws in Ec. lia.
  - exists []. split; [constructor|reflexivity].
Qed.
Lemma drop_blank_nil : forall s, drop_blank s = [] -> blank s.
Proof. intros s H. destruct (drop_blank_split s) as [w [Hw E]]. rewrite H, app_nil_r in E. congruence. Qed.
Lemma is_digit_inv : forall c, is_digit c = true -> (48 <= c <= 57)%N.
Proof. intros c H. unfold is_digit in H. lia. Qed.
Lemma span_digits_inv : forall s a b, span_digits s = (a, b) -> digits a /\ s = a ++ b.
Proof.
  induction s as [|c s IH]; intros a b H; cbn in H; [injection H as <- <-; split; [constructor|reflexivity]|].
  destruct (is_digit c) eqn:Ec; [|injection H as <- <-; split; [constructor|reflexivity]].
  destruct (span_digits s) as [a' b'] eqn:E. injection H as <- <-. destruct (IH _ _ eq_refl) as [H1 ->].
  split; [constructor; [apply is_digit_inv; assumption|assumption]|reflexivity].
Qed.
Lemma scan_int_inv : forall s i r, scan_int s = Some (i, r) -> int_part i /\ s = i ++ r.
Proof.
  intros [|c s] i r H; cbn in H; [discriminate|]. destruct (N.eqb_spec c 48) as [->|Hne].
  - injection H as <- <-. split; [left|]; reflexivity.
  - destruct (is_digit c) eqn:Ec; [|discriminate]. destruct (span_digits s) as [a b] eqn:E. injection H as <- <-.
    destruct (span_digits_inv _ _ _ E) as [H1 ->]. split; [|reflexivity]. right. exists c, a. apply is_digit_inv in Ec.
    repeat split; try lia. assumption.
Qed.
Lemma scan_frac_inv : forall s f r, scan_frac s = Some (f, r) -> frac_part f /\ s = f ++ r.
Proof.
  intros [|c s] f r H; cbn in H; [injection H as <- <-; split; [left|]; reflexivity|].
  destruct (N.eqb_spec c 46) as [->|Hne]; [|injection H as <- <-; split; [left|]; reflexivity].
  destruct (span_digits s) as [a b] eqn:E. destruct a as [|x a]; [discriminate|]. injection H as <- <-.
  destruct (span_digits_inv _ _ _ E) as [H1 ->]. split; [|reflexivity]. right. exists (x :: a). repeat split; [discriminate|assumption].
Qed.
Lemma scan_exp_inv : forall s e r, scan_exp s = Some (e, r) -> exp_part e /\ s = e ++ r.
Proof.
  intros [|c s] e r H; cbn in H; [injection H as <- <-; split; [left|]; reflexivity|].
  destruct (N.eqb c 101 || N.eqb c 69) eqn:Ec; [|injection H as <- <-; split; [left|]; reflexivity].
  assert (X : exists g t, match s with
                             | x :: r => if N.eqb x 43 || N.eqb x 45 then ([x], r) else ([], s)
                             | [] => ([], s)
                             end = (g, t) /\ (g = [] \/ g = [43%N] \/ g = [45%N]) /\ s = g ++ t).
  { destruct s as [|x s]; [exists [], []; auto|]. destruct (N.eqb_spec x 43) as [->|]; [exists [43%N], s; auto|].
    destruct (N.eqb_spec x 45) as [->|]; [exists [45%N], s; auto|]. exists [], (x :: s). auto. }
  destruct X as [g [t [E1 [E2 ->]]]]. rewrite E1 in H. destruct (span_digits t) as [a b] eqn:E.
  destruct a as [|x a]; [discriminate|]. injection H as <- <-. destruct (span_digits_inv _ _ _ E) as [H1 ->].
  split; [|cbn [app]; rewrite <- app_assoc; reflexivity]. right. exists c, g, (x :: a). repeat split; auto; [lia|discriminate].
Qed.
Lemma scan_number_inv : forall s t r, scan_number s = Some (t, r) -> strict_number t /\ s = t ++ r.
Proof.
  intros s t r H. unfold scan_number in H.
  assert (X : exists g u, match s with
                 | c :: t => if N.eqb c 45 then ([c], t) else ([], s)
                 | [] => ([], s)
                 end = (g, u) /\ (g = [] \/ g = [45%N]) /\ s = g ++ u).
  { destruct s as [|x s]; [exists [], []; auto|]. destruct (N.eqb_spec x 45) as [->|]; [exists [45%N], s; auto|]. exists [], (x :: s). auto. }
  destruct X as [g [u [E1 [E2 ->]]]]. rewrite E1 in H.
  destruct (scan_int u) as [[i s1]|] eqn:EI; [|discriminate]. apply scan_int_inv in EI. destruct EI as [Hi ->].
  destruct (scan_frac s1) as [[f s2]|] eqn:EF; [|discriminate]. apply scan_frac_inv in EF. destruct EF as [Hf ->].
  destruct (scan_exp s2) as [[e s3]|] eqn:EE; [|discriminate]. apply scan_exp_inv in EE. destruct EE as [He ->].
  injection H as <- <-. split; [|rewrite <- !app_assoc; reflexivity]. exists g, i, f, e. auto.
Qed.

Lemma std_string_inv : forall n s x r, std_string n s = Some (x, r) -> exists t, schars x t /\ s = t ++ 34%N :: r.
Proof.
  induction n as [|n IH]; intros s x r H; [discriminate|]. cbn [std_string] in H. destruct s as [|c t]; [discriminate|].
  assert (M : forall a u, match std_string n u with Some (b, r) => Some (a ++ b, r) | None => None end = Some (x, r) ->
    exists b t, x = a ++ b /\ schars b t /\ u = t ++ 34%N :: r).
  { intros a u E. destruct (std_string n u) as [[b r']|] eqn:E1; [|discriminate]. apply IH in E1. injection E as <- <-.
    destruct E1 as [t0 [H1 ->]]. eauto 10. }
  destruct (N.eqb_spec c 34) as [->|Hc34]; [injection H as <- <-; exists []; split; [constructor|reflexivity]|].
  destruct (N.eqb_spec c 92) as [->|Hc92].
  { destruct (next_u (92%N :: t)) as [[u t1]|] eqn:E1.
    - destruct (next_u_inv _ _ _ E1) as [tu [Hu Eu]]. unfold is_surrogate in H.
      destruct (in_range 55296 57343 u) eqn:Es.
      + apply in_range_spec in Es.
        assert (L : ~ (high_half u /\ exists r2 u2 t2, u_escape r2 u2 /\ low_half r2 /\ t1 = u2 ++ t2) ->
          match std_string n t1 with Some (b, r) => Some (fffd ++ b, r) | None => None end = Some (x, r) ->
          exists t0, schars x t0 /\ 92%N :: t = t0 ++ 34%N :: r).
        { intros Hno E. apply M in E. destruct E as [b [t0 [-> [H1 ->]]]]. exists (tu ++ t0). rewrite Eu, <- app_assoc. split; [|reflexivity].
          apply (sc_lone u); auto; [unfold high_half, low_half; lia|]. intros [Hh [r2 [u2 [t2 [Hu2 [Hl ->]]]]]]. apply Hno. split; [assumption|].
          exists r2, u2, (t2 ++ 34%N :: r). rewrite <- app_assoc. auto. }
        destruct (next_u t1) as [[u2 t2]|] eqn:E2.
        * destruct (next_u_inv _ _ _ E2) as [tu2 [Hu2 Eu2]].
          destruct (in_range 55296 56319 u) eqn:Er1; cbn [andb] in H.
          -- destruct (in_range 56320 57343 u2) eqn:Er2; cbn [andb] in H.
             ++ apply in_range_spec in Er1, Er2. apply M in H. destruct H as [b [t0 [-> [H1 ->]]]].
                exists (tu ++ tu2 ++ t0). rewrite Eu, Eu2, <- !app_assoc. split; [|reflexivity]. apply sc_pair; auto.
             ++ apply L; [|exact H]. intros [_ [r2 [v2 [t3 [Hv2 [Hl E3]]]]]]. pose proof (next_u_escape r2 v2 t3 Hv2) as J.
                rewrite <- E3, E2 in J. injection J as <- _. unfold low_half in Hl. rewrite in_range_true in Er2 by lia. discriminate.
          -- apply L; [|exact H]. intros [Hh _]. unfold high_half in Hh. rewrite in_range_true in Er1 by lia. discriminate.
        * apply L; [|exact H]. intros [_ [r2 [v2 [t3 [Hv2 [Hl E3]]]]]]. pose proof (next_u_escape r2 v2 t3 Hv2) as J.
          rewrite <- E3, E2 in J. discriminate.
      + apply M in H. destruct H as [b [t0 [-> [H1 ->]]]]. exists (tu ++ t0). rewrite Eu, <- app_assoc. split; [|reflexivity].
        assert (~ (55296 <= u <= 57343)%N) by (intro X; rewrite in_range_true in Es by assumption; discriminate).
        apply sc_u; auto; unfold high_half, low_half; lia.
    - destruct t as [|e t]; [discriminate|]. destruct (std_short e) as [y|] eqn:Ee; [|discriminate].
      apply M in H. destruct H as [b [t0 [-> [H1 ->]]]]. exists (92%N :: e :: t0). split; [|reflexivity].
      apply sc_short; [|assumption]. unfold std_short in Ee. unfold short_escape.
      repeat match type of Ee with context [N.eqb e ?k] => destruct (N.eqb_spec e k); cbn [orb] in Ee end; try discriminate; injection Ee as <-; lia. }
  destruct (N.ltb_spec c 32) as [|H32]; [discriminate|].
  destruct (decode_rune (c :: t)) as [[u k]|] eqn:E1.
  - destruct (decode_some _ _ _ E1) as [Hu [Hk Es]]. apply M in H. destruct H as [b [t0 [-> [H1 E2]]]].
    exists (encode_rune u ++ t0). rewrite Es, E2, <- app_assoc. split; [|reflexivity].
    assert (Hu2 : (u = c \/ 128 <= u)%N).
    { destruct (N.ltb_spec u 128) as [X|X]; [|lia]. left. unfold encode_rune in Es. rewrite (proj2 (N.ltb_lt u 128)) in Es by assumption.
      injection Es as Es _. congruence. }
    apply sc_rune; auto; lia.
  - apply M in H. destruct H as [b [t0 [-> [H1 ->]]]]. exists (c :: t0). split; [|reflexivity].
    apply sc_bad; [|assumption]. intros r0 u0 Hr0 E0.
    apply (decode_none _ r0 (u0 ++ 34%N :: r) E1 Hr0). change (c :: t0 ++ 34%N :: r) with ((c :: t0) ++ 34%N :: r). rewrite E0, <- app_assoc. reflexivity.
Qed.
Lemma prefixb_inv : forall p s, prefixb p s = true -> s = p ++ skipn (length p) s.
Proof.
  induction p as [|a p IH]; intros [|b s] H; cbn in H; try discriminate; try reflexivity.
  apply andb_true_iff in H. destruct H as [H1 H2]. apply N.eqb_eq in H1. subst. cbn [length skipn app]. f_equal. auto.
Qed.

Section Inv.
  Variable F : Type.
  Variable parse_float : bytes -> option F.
  Notation std_value := (std_value F parse_float).
  Notation std_rest := (std_rest F parse_float).
  Notation std_pair := (std_pair F parse_float).
  Notation std_prest := (std_prest F parse_float).
  Notation stext := (stext F parse_float).
  Notation stail := (stail F parse_float).
  Notation spair := (spair F parse_float).
  Notation sptail := (sptail F parse_float).

  Lemma std_inv : forall f,
    (forall d s v r, std_value f d s = Ok (v, r) -> exists t, stext d v t /\ s = t ++ r) /\
    (forall d acc s v r, std_rest f d acc s = Ok (v, r) -> exists vs t, v = VArr (acc ++ vs) /\ stail d vs t /\ s = t ++ 93%N :: r) /\
    (forall d s k v r, std_pair f d s = Ok (k, v, r) -> exists t, spair d (k, v) t /\ s = t ++ r) /\
    (forall d acc s v r, std_prest f d acc s = Ok (v, r) -> exists kvs t,
       v = VMap (fold_left (fun m kv => map_set (fst kv) (snd kv) m) kvs acc) /\ sptail d kvs t /\ s = t ++ 125%N :: r).
  Proof.
    induction f as [|f [IHv [IHr [IHp IHq]]]]; [repeat split; intros; discriminate|]. repeat split.
    - intros d s v r H. rewrite std_value_S in H. destruct s as [|c t]; [discriminate|].
      destruct (N.eqb_spec c 34) as [->|_].
      { destruct (std_string (length t) t) as [[x r0]|] eqn:E; [|discriminate]. injection H as <- <-.
        destruct (std_string_inv _ _ _ _ E) as [t0 [H1 ->]]. exists (34%N :: t0 ++ [34%N]). split; [constructor; assumption|].
        cbn [app]. rewrite <- app_assoc. reflexivity. }
      destruct (N.eqb_spec c 91) as [->|_].
      { destruct d as [|d]; [discriminate|]. destruct (drop_blank_split t) as [w [Hw Ew]].
        destruct (drop_blank t) as [|x r0] eqn:E; [discriminate|].
        destruct (N.eqb_spec x 93) as [->|_].
        { injection H as <- <-. exists (91%N :: w ++ [93%N]). split; [constructor; assumption|]. rewrite Ew. cbn [app]. rewrite <- app_assoc. reflexivity. }
        destruct (std_value f d (x :: r0)) as [[v1 r1]|e| |] eqn:E1; try discriminate.
        destruct (IHv _ _ _ _ E1) as [t1 [Ht1 Et1]]. destruct (IHr _ _ _ _ _ H) as [vs [t2 [-> [Ht2 Et2]]]].
        exists (91%N :: w ++ t1 ++ t2 ++ [93%N]). split; [apply st_arr; assumption|]. rewrite Ew, Et1, Et2. cbn [app]. rewrite <- !app_assoc. reflexivity. }
      destruct (N.eqb_spec c 123) as [->|_].
      { destruct d as [|d]; [discriminate|]. destruct (drop_blank_split t) as [w [Hw Ew]].
        destruct (drop_blank t) as [|x r0] eqn:E; [discriminate|].
        destruct (N.eqb_spec x 125) as [->|_].
        { injection H as <- <-. exists (123%N :: w ++ [125%N]). split; [constructor; assumption|]. rewrite Ew. cbn [app]. rewrite <- app_assoc. reflexivity. }
        destruct (std_pair f d (x :: r0)) as [[[k v1] r1]|e| |] eqn:E1; try discriminate.
        destruct (IHp _ _ _ _ _ E1) as [t1 [Ht1 Et1]]. destruct (IHq _ _ _ _ _ H) as [vs [t2 [-> [Ht2 Et2]]]].
        exists (123%N :: w ++ t1 ++ t2 ++ [125%N]). split; [apply (st_obj _ _ d (k, v1)); assumption|]. rewrite Ew, Et1, Et2. cbn [app]. rewrite <- !app_assoc. reflexivity. }
      destruct (prefixb (bs "null") (c :: t)) eqn:P1.
      { apply prefixb_inv in P1. injection H as <- <-. exists (bs "null"). split; [constructor|exact P1]. }
      destruct (prefixb (bs "true") (c :: t)) eqn:P2.
      { apply prefixb_inv in P2. injection H as <- <-. exists (bs "true"). split; [constructor|exact P2]. }
      destruct (prefixb (bs "false") (c :: t)) eqn:P3.
      { apply prefixb_inv in P3. injection H as <- <-. exists (bs "false"). split; [constructor|exact P3]. }
      destruct (scan_number (c :: t)) as [[n r0]|] eqn:E; [|discriminate]. destruct (parse_float n) as [x|] eqn:Ep; [|discriminate].
      injection H as <- <-. destruct (scan_number_inv _ _ _ E) as [H1 ->]. exists n. split; [constructor; assumption|reflexivity].
    - intros d acc s v r H. rewrite std_rest_S in H. destruct (drop_blank_split s) as [w [Hw Ew]].
      destruct (drop_blank s) as [|c t]; [discriminate|]. destruct (N.eqb_spec c 93) as [->|_].
      { injection H as <- <-. exists [], w. rewrite app_nil_r. split; [reflexivity|]. split; [constructor; assumption|assumption]. }
      destruct (N.eqb_spec c 44) as [->|_]; [|discriminate]. destruct (drop_blank_split t) as [w2 [Hw2 Ew2]].
      destruct (std_value f d (drop_blank t)) as [[v1 r1]|e| |] eqn:E1; try discriminate.
      destruct (IHv _ _ _ _ E1) as [t1 [Ht1 Et1]]. destruct (IHr _ _ _ _ _ H) as [vs [t2 [-> [Ht2 Et2]]]].
      exists (v1 :: vs), (w ++ 44%N :: w2 ++ t1 ++ t2). rewrite <- app_assoc. split; [reflexivity|]. split; [constructor; assumption|].
      rewrite Ew, Ew2, Et1, Et2. rewrite <- !app_assoc. cbn [app]. rewrite <- !app_assoc. reflexivity.
    - intros d s k v r H. rewrite std_pair_S in H. destruct s as [|c t]; [discriminate|].
      destruct (N.eqb_spec c 34) as [->|_]; [|discriminate]. cbn [negb] in H.
      destruct (std_string (length t) t) as [[k0 r0]|] eqn:E; [|discriminate]. destruct (std_string_inv _ _ _ _ E) as [kt [Hkt ->]].
      destruct (drop_blank_split r0) as [w [Hw Ew]]. destruct (drop_blank r0) as [|x r1]; [discriminate|].
      destruct (N.eqb_spec x 58) as [->|_]; [|discriminate]. cbn [negb] in H. destruct (drop_blank_split r1) as [w2 [Hw2 Ew2]].
      destruct (std_value f d (drop_blank r1)) as [[v1 r2]|e| |] eqn:E1; try discriminate.
      destruct (IHv _ _ _ _ E1) as [t1 [Ht1 Et1]]. injection H as <- <- <-.
      exists (34%N :: kt ++ 34%N :: w ++ 58%N :: w2 ++ t1). split; [constructor; assumption|].
      rewrite Ew, Ew2, Et1. cbn [app]. rewrite <- !app_assoc. cbn [app]. rewrite <- !app_assoc. cbn [app]. rewrite <- !app_assoc. reflexivity.
    - intros d acc s v r H. rewrite std_prest_S in H. destruct (drop_blank_split s) as [w [Hw Ew]].
      destruct (drop_blank s) as [|c t]; [discriminate|]. destruct (N.eqb_spec c 125) as [->|_].
      { injection H as <- <-. exists [], w. split; [reflexivity|]. split; [constructor; assumption|assumption]. }
      destruct (N.eqb_spec c 44) as [->|_]; [|discriminate]. destruct (drop_blank_split t) as [w2 [Hw2 Ew2]].
      destruct (std_pair f d (drop_blank t)) as [[[k v1] r1]|e| |] eqn:E1; try discriminate.
      destruct (IHp _ _ _ _ _ E1) as [t1 [Ht1 Et1]]. destruct (IHq _ _ _ _ _ H) as [vs [t2 [-> [Ht2 Et2]]]].
      exists ((k, v1) :: vs), (w ++ 44%N :: w2 ++ t1 ++ t2). split; [reflexivity|]. split; [constructor; assumption|].
      rewrite Ew, Ew2, Et1, Et2. rewrite <- !app_assoc. cbn [app]. rewrite <- !app_assoc. reflexivity.
  Qed.

  Theorem unmarshal_exact : forall d v l, unmarshal F parse_float d l = Ok v <-> sline F parse_float d v l.
  Proof.
    intros d v l. split; [|apply unmarshal_line]. unfold unmarshal. intros H.
    destruct (drop_blank_split l) as [w1 [Hw1 E1]].
    destruct (std_value _ d (drop_blank l)) as [[v1 r]|e| |] eqn:E; try discriminate.
    destruct (drop_blank r) as [|x y] eqn:Er; [|discriminate]. injection H as <-.
    destruct (std_inv (S (length l))) as [IV _]. destruct (IV _ _ _ _ E) as [t [Ht Et]].
    exists w1, t, r. split; [assumption|]. split; [apply drop_blank_nil; assumption|]. split; [assumption|]. rewrite E1, Et. reflexivity.
  Qed.
  (** So a line has at most one meaning, and a line without one is an error. *)
  Lemma sline_fun : forall d v w l, sline F parse_float d v l -> sline F parse_float d w l -> v = w.
  Proof. intros d v w l H1 H2. apply unmarshal_exact in H1, H2. congruence. Qed.
  Lemma unmarshal_bad : forall d l, (forall v, ~ sline F parse_float d v l) -> exists e, unmarshal F parse_float d l = Err e.
  Proof.
    intros d l H. destruct (unmarshal_total F parse_float d l) as [H1 H2]. destruct (unmarshal F parse_float d l) as [v|e| |] eqn:E; try contradiction.
    - exfalso. apply (H v). apply unmarshal_exact. assumption.
    - eauto.
  Qed.
End Inv.
