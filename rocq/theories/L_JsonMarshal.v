(** The bytes of json.Marshal and json.MarshalIndent are JSON texts of the values that come back. *)
From Coq Require Import ZArith Lia ZifyN ZifyBool.
From Verif Require Import Base M_Decimal L_Decimal M_Utf8 S_Utf8 L_Utf8 M_Sink M_Json M_JsonWrite S_JsonText S_JsonBack L_JsonRead.
Ltac Zify.zify_post_hook ::= Z.div_mod_to_equations.

Lemma plain_app : forall a s t, Forall (fun c => c <> 34%N /\ c <> 92%N) a -> jchars s t -> jchars (a ++ s) (a ++ t).
Proof. induction 1 as [|c a [H1 H2] H IH]; intros Hs; [assumption|]. cbn. apply jc_plain; auto. Qed.

Lemma encode_high : forall r, (128 <= r)%N -> Forall (fun c => (128 <= c)%N) (encode_rune r).
Proof.
  intros r H. unfold encode_rune. rewrite (proj2 (N.ltb_ge r 128)) by assumption.
  destruct (N.ltb_spec r 2048); [|destruct (N.ltb_spec r 65536)]; repeat constructor; lia.
Qed.

Lemma hex_char_val : forall n, (n < 16)%N -> hexval (hex_char n) n.
Proof. intros n H. unfold hexval, hex_char. destruct (N.ltb_spec n 10); lia. Qed.

Lemma quote_ascii_chars : forall c s t, (c < 128)%N -> jchars s t -> jchars (c :: s) (quote_ascii c ++ t).
Proof.
  intros c s t Hc H. unfold quote_ascii. destruct (html_safe c) eqn:E.
  { unfold html_safe in E. repeat rewrite andb_true_iff in E. rewrite !negb_true_iff, !N.eqb_neq in E. apply jc_plain; tauto. }
  destruct (N.eqb_spec c 34); [subst; apply (jc_short 34%N); [unfold short_escape; lia|assumption]|].
  destruct (N.eqb_spec c 92); [subst; apply (jc_short 92%N); [unfold short_escape; lia|assumption]|].
  cbn [orb].
  destruct (N.eqb_spec c 10); [subst; apply (jc_short 110%N); [unfold short_escape; lia|assumption]|].
  destruct (N.eqb_spec c 13); [subst; apply (jc_short 114%N); [unfold short_escape; lia|assumption]|].
  destruct (N.eqb_spec c 9); [subst; apply (jc_short 116%N); [unfold short_escape; lia|assumption]|].
  assert (Ec : encode_rune c = [c]) by (unfold encode_rune; rewrite (proj2 (N.ltb_lt c 128)) by assumption; reflexivity).
  pose proof (jc_u 48 48 (hex_char (c / 16)) (hex_char (c mod 16)) 0 0 (c / 16) (c mod 16) s t) as J.
  cbv zeta in J. replace (0 * 4096 + 0 * 256 + c / 16 * 16 + c mod 16)%N with c in J by lia.
  rewrite Ec in J. apply J; [unfold hexval; lia|unfold hexval; lia|apply hex_char_val; lia|apply hex_char_val; lia|lia|assumption].
Qed.

Lemma quote_loop_chars : forall n s, (length s <= n)%nat -> exists s', cleaned s s' /\ jchars s' (quote_loop n s).
Proof.
  induction n as [|n IH]; intros s Hn.
  { destruct s; [|cbn in Hn; lia]. exists []. split; constructor. }
  destruct s as [|c t]; [exists []; split; constructor|]. cbn [quote_loop length] in *.
  destruct (N.ltb_spec c 128) as [Hc|Hc].
  { destruct (IH t ltac:(lia)) as [s' [H1 H2]]. exists (c :: s'). split; [|apply quote_ascii_chars; assumption].
    assert (Ec : encode_rune c = [c]) by (unfold encode_rune; rewrite (proj2 (N.ltb_lt c 128)) by assumption; reflexivity).
    pose proof (cl_rune c t s') as J. rewrite Ec in J. apply J; [unfold scalar; lia|assumption]. }
  destruct (decode_rune (c :: t)) as [[r k]|] eqn:E.
  - destruct (decode_some _ _ _ E) as [Hr [Hk Es]]. pose proof (encode_length r) as Hl.
    assert (Hlen : (length (skipn k (c :: t)) <= n)%nat) by (rewrite skipn_length; cbn [length]; lia).
    destruct (IH _ Hlen) as [s' [H1 H2]].
    assert (Hcl : cleaned (c :: t) (encode_rune r ++ s')).
    { rewrite Es. constructor; assumption. }
    assert (Hr128 : (128 <= r)%N).
    { destruct (N.ltb_spec r 128) as [X|X]; [|assumption]. unfold encode_rune in Es.
      rewrite (proj2 (N.ltb_lt r 128)) in Es by assumption. injection Es as Es _. lia. }
    exists (encode_rune r ++ s'). split; [assumption|].
    destruct (N.eqb_spec r 8232) as [->|_].
    { pose proof (jc_u 50 48 50 56 2 0 2 8 s' (quote_loop n (skipn k (c :: t)))) as J. cbv zeta in J.
      apply J; [unfold hexval; lia|unfold hexval; lia|unfold hexval; lia|unfold hexval; lia|lia|assumption]. }
    destruct (N.eqb_spec r 8233) as [->|_].
    { pose proof (jc_u 50 48 50 57 2 0 2 9 s' (quote_loop n (skipn k (c :: t)))) as J. cbv zeta in J.
      apply J; [unfold hexval; lia|unfold hexval; lia|unfold hexval; lia|unfold hexval; lia|lia|assumption]. }
    assert (Ef : firstn k (c :: t) = encode_rune r).
    { rewrite Es, Hk, firstn_app, firstn_all, Nat.sub_diag. cbn [firstn]. apply app_nil_r. }
    rewrite Ef. apply plain_app; [|assumption]. eapply Forall_impl; [|apply encode_high; assumption]. cbn. intros; lia.
  - destruct (IH t ltac:(lia)) as [s' [H1 H2]]. exists (encode_rune 65533 ++ s'). split.
    + apply cl_bad; [|assumption]. intros r t' Hr. apply decode_none; assumption.
    + pose proof (jc_u 102 102 102 100 15 15 15 13 s' (quote_loop n t)) as J. cbv zeta in J.
      apply J; [unfold hexval; lia|unfold hexval; lia|unfold hexval; lia|unfold hexval; lia|lia|assumption].
Qed.

Lemma quote_chars : forall s s', cleaned s s' -> exists t, quote s = 34%N :: t ++ [34%N] /\ jchars s' t.
Proof.
  intros s s' H. destruct (quote_loop_chars (length s) s (le_n _)) as [s2 [H1 H2]].
  rewrite (cleaned_fun _ _ H _ H1). exists (quote_loop (length s) s). split; [reflexivity|assumption].
Qed.
Lemma cleaned_total : forall s, exists s', cleaned s s'.
Proof. intros s. destruct (quote_loop_chars (length s) s (le_n _)) as [s' [H _]]. eauto. Qed.

(** Base 64. *)
Lemma sextet_char : forall n, (n < 64)%N -> sextet n (b64_char n).
Proof.
  assert (X : forallb (fun k => match nth_error alphabet k with Some c => N.eqb c (b64_char (N.of_nat k)) | None => false end) (seq 0 64) = true) by (vm_compute; reflexivity).
  intros n H. rewrite forallb_forall in X. specialize (X (N.to_nat n)). rewrite in_seq in X. specialize (X ltac:(lia)).
  unfold sextet. rewrite N2Nat.id in X. destruct (nth_error alphabet (N.to_nat n)) as [c|]; [|discriminate].
  apply N.eqb_eq in X. subst. reflexivity.
Qed.
Lemma sextet_inj : forall n c d, sextet n c -> sextet n d -> c = d.
Proof. unfold sextet. intros. congruence. Qed.
Lemma sextet_lt : forall n c, sextet n c -> (n < 64)%N.
Proof.
  intros n c H. unfold sextet in H. assert (nth_error alphabet (N.to_nat n) <> None) by congruence.
  apply nth_error_Some in H0. change (length alphabet) with 64%nat in H0. lia.
Qed.
Lemma b64_char_plain : forall n, b64_char n <> 34%N /\ b64_char n <> 92%N \/ (64 <= n)%N.
Proof.
  intros n. unfold b64_char. destruct (N.ltb_spec n 26); [lia|]. destruct (N.ltb_spec n 52).
  - destruct (N.eq_dec n 52); lia.
  - destruct (N.ltb_spec n 62); [lia|]. destruct (N.eqb_spec n 62); lia.
Qed.
(** The function computes the relation. *)
Lemma b64_base64 : forall s t, base64 s t -> b64 s = t.
Proof.
  intros s t H.
  induction H as [|a w x cw cx H1 H2 B E|a b w x y cw cx cy H1 H2 H3 B E|a b c w x y z cw cx cy cz s t H1 H2 H3 H4 B E H IH]; [reflexivity|..].
  - apply sextet_lt in H1 as L1. apply sextet_lt in H2 as L2.
    assert (w = a / 4 /\ x = a mod 4 * 16)%N as [-> ->] by lia.
    cbn [b64]. rewrite (sextet_inj _ _ _ H1 (sextet_char _ L1)), (sextet_inj _ _ _ H2 (sextet_char _ L2)). reflexivity.
  - apply sextet_lt in H1 as L1. apply sextet_lt in H2 as L2. apply sextet_lt in H3 as L3.
    assert (w = a / 4 /\ x = a mod 4 * 16 + b / 16 /\ y = b mod 16 * 4)%N as [-> [-> ->]] by lia.
    cbn [b64]. rewrite (sextet_inj _ _ _ H1 (sextet_char _ L1)), (sextet_inj _ _ _ H2 (sextet_char _ L2)), (sextet_inj _ _ _ H3 (sextet_char _ L3)). reflexivity.
  - apply sextet_lt in H1 as L1. apply sextet_lt in H2 as L2. apply sextet_lt in H3 as L3. apply sextet_lt in H4 as L4.
    assert (w = a / 4 /\ x = a mod 4 * 16 + b / 16 /\ y = b mod 16 * 4 + c / 64 /\ z = c mod 64)%N as [-> [-> [-> ->]]] by lia.
    cbn [b64 app]. rewrite (sextet_inj _ _ _ H1 (sextet_char _ L1)), (sextet_inj _ _ _ H2 (sextet_char _ L2)),
      (sextet_inj _ _ _ H3 (sextet_char _ L3)), (sextet_inj _ _ _ H4 (sextet_char _ L4)), IH by assumption. reflexivity.
Qed.
Lemma sextet_plain : forall n c, sextet n c -> c <> 34%N /\ c <> 92%N.
Proof.
  intros n c H. apply sextet_lt in H as L. rewrite (sextet_inj _ _ _ H (sextet_char _ L)).
  destruct (b64_char_plain n) as [X|X]; [assumption|lia].
Qed.
Lemma base64_plain : forall s t, base64 s t -> Forall (fun c => c <> 34%N /\ c <> 92%N) t.
Proof.
  induction 1; repeat constructor; try (eapply sextet_plain; eassumption); try discriminate; try assumption.
Qed.
Lemma base64_total : forall s, Forall (fun c => (c < 256)%N) s -> base64 s (b64 s).
Proof.
  intros s. remember (length s) as n eqn:En. assert (Hn : (length s <= n)%nat) by lia. clear En.
  revert s Hn. induction n as [|n IH]; intros s Hn Hs.
  { destruct s; [constructor|cbn in Hn; lia]. }
  destruct s as [|a [|b [|c s]]].
  - constructor.
  - inversion Hs; subst. cbn [b64]. eapply b6_one; [apply sextet_char|apply sextet_char| |]; lia.
  - inversion Hs as [|? ? A1 Hs2]; subst. inversion Hs2; subst. cbn [b64].
    eapply b6_two; [apply sextet_char|apply sextet_char|apply sextet_char| |]; lia.
  - inversion Hs as [|? ? A1 Hs2]; subst. inversion Hs2 as [|? ? A2 Hs3]; subst. inversion Hs3; subst. cbn [b64 app].
    eapply b6_three; [apply sextet_char|apply sextet_char|apply sextet_char|apply sextet_char| | |]; try lia.
    apply IH; [cbn [length] in Hn; lia|assumption].
Qed.

Lemma itoa_int_text : forall z, int_text z (itoa z).
Proof.
  intros z. unfold itoa. destruct (Z.ltb_spec z 0).
  - exists (dec (Z.abs_N z)). split; [apply dec_nonempty|]. split.
    + apply Forall_forall. intros c Hc. apply dec_in in Hc. assumption.
    + right. split; [reflexivity|]. rewrite dec_val_dec. lia.
  - exists (dec (Z.to_N z)). split; [apply dec_nonempty|]. split.
    + apply Forall_forall. intros c Hc. apply dec_in in Hc. assumption.
    + left. split; [reflexivity|]. rewrite dec_val_dec. lia.
Qed.

Local Opaque quote.
Section Marshal.
  Variable F : Type.
  Variable fmt_float : F -> option bytes.
  Variable parse_float : bytes -> option F.
  Hypothesis Hfmt : float_format F fmt_float parse_float.
  Notation gval := (gval F).
  Notation marshal := (marshal F fmt_float).
  Notation comes_back := (comes_back F fmt_float).
  Notation float_reads := (float_reads F parse_float).
  Notation jtext := (jtext F float_reads).
  Notation jtail := (jtail F float_reads).
  Notation jpair := (jpair F float_reads).
  Notation jptail := (jptail F float_reads).

  Fixpoint marshal_tail (sp ind nl : bytes) (l : list gval) : option bytes :=
    match l with
    | [] => Some []
    | v :: t => match marshal sp ind (nl ++ ind) v, marshal_tail sp ind nl t with
                | Some a, Some b => Some (44%N :: nl ++ ind ++ a ++ b)
                | _, _ => None
                end
    end.
  Fixpoint marshal_ptail (sp ind nl : bytes) (l : list (bytes * gval)) : option bytes :=
    match l with
    | [] => Some []
    | (k, v) :: t => match marshal sp ind (nl ++ ind) v, marshal_ptail sp ind nl t with
                | Some a, Some b => Some (44%N :: nl ++ ind ++ quote k ++ 58%N :: sp ++ a ++ b)
                | _, _ => None
                end
    end.
  Lemma marshal_arr : forall sp ind nl v t, marshal sp ind nl (VArr (v :: t)) =
    match marshal sp ind (nl ++ ind) v with
    | None => None
    | Some a => match marshal_tail sp ind nl t with
                | Some b => Some (91%N :: nl ++ ind ++ a ++ b ++ nl ++ [93%N])
                | None => None
                end
    end.
  Proof.
    intros. cbn [M_JsonWrite.marshal]. destruct (marshal sp ind (nl ++ ind) v) as [a|]; [|reflexivity].
    match goal with |- match ?g t with _ => _ end = _ => assert (E : g t = marshal_tail sp ind nl t) end; [|rewrite E; reflexivity].
    induction t as [|x t IH]; [reflexivity|]. cbn [marshal_tail]. rewrite <- IH. reflexivity.
  Qed.
  Lemma marshal_map : forall sp ind nl k v t, marshal sp ind nl (VMap ((k, v) :: t)) =
    match marshal sp ind (nl ++ ind) v with
    | None => None
    | Some a => match marshal_ptail sp ind nl t with
                | Some b => Some (123%N :: nl ++ ind ++ quote k ++ 58%N :: sp ++ a ++ b ++ nl ++ [125%N])
                | None => None
                end
    end.
  Proof.
    intros. cbn [M_JsonWrite.marshal]. destruct (marshal sp ind (nl ++ ind) v) as [a|]; [|reflexivity].
    match goal with |- match ?g t with _ => _ end = _ => assert (E : g t = marshal_ptail sp ind nl t) end; [|rewrite E; reflexivity].
    induction t as [|[kx x] t IH]; [reflexivity|]. cbn [marshal_ptail]. rewrite <- IH. reflexivity.
  Qed.

  Lemma has_point_float : forall t, has_point t -> number_text t ->
    exists c t', t = c :: t' /\ num_start c = true /\ forallb is_num_char t = true /\ existsb is_float_char t = true.
  Proof.
    intros t [c0 [Hin Hc0]] [[c [t' [-> Hc]]] Hall]. exists c, t'. split; [reflexivity|]. split; [|split].
    - unfold num_start, is_digit. destruct Hc as [->|Hc]; [reflexivity|].
      rewrite (proj2 (N.leb_le 48 c)), (proj2 (N.leb_le c 57)) by lia. apply orb_true_r.
    - apply forallb_forall. intros x Hx. rewrite Forall_forall in Hall. specialize (Hall x Hx).
      unfold is_num_char, is_float_char, is_digit. cbn in Hall.
      destruct Hall as [Hd|[<-|[<-|[<-|[<-|[<-|[]]]]]]]; try reflexivity.
      rewrite (proj2 (N.leb_le 48 x)), (proj2 (N.leb_le x 57)) by lia. reflexivity.
    - apply existsb_exists. exists c0. split; [assumption|]. cbn in Hc0.
      destruct Hc0 as [<-|[<-|[<-|[<-|[]]]]]; reflexivity.
  Qed.
  Lemma int_no_point : forall z t, int_text z t -> has_point t -> False.
  Proof.
    intros z t H [c [Hin Hc]]. destruct (int_text_facts z t H) as [c0 [t' [-> [_ [_ [E _]]]]]].
    assert (X : existsb is_float_char (c0 :: t') = true); [|congruence].
    apply existsb_exists. exists c. split; [assumption|]. cbn in Hc.
    destruct Hc as [<-|[<-|[<-|[<-|[]]]]]; reflexivity.
  Qed.

  Lemma blank_app2 : forall a b, blank a -> blank b -> blank (a ++ b).
  Proof. intros. apply Forall_app. auto. Qed.

  Theorem marshal_text : forall v v' sp ind nl t, blank sp -> blank ind -> blank nl ->
    comes_back v v' -> marshal sp ind nl v = Some t -> jtext v' t.
  Proof.
    induction v as [|b|z|f|s|s|l IH|m IH] using gval_ind2; intros v' sp ind nl t Hsp Hind Hnl Hb Hm.
    - inversion Hb; subst. cbn in Hm. inversion Hm; subst. constructor.
    - inversion Hb; subst. destruct b; cbn in Hm; inversion Hm; subst; constructor.
    - inversion Hb; subst. cbn in Hm. inversion Hm; subst. constructor; [assumption|apply itoa_int_text].
    - cbn in Hm. inversion Hb as [| | |f0 t0 E0 Hp|f0 t0 z E0 Hz Hf| | | |]; subst.
      + rewrite Hm in E0. inversion E0; subst. destruct (Hfmt f t0 Hm) as [[_ [Hn Hpf]]|[z Hz]].
        * apply jt_float. destruct (has_point_float t0 Hp Hn) as [c [t' [E1 [E2 [E3 E4]]]]]. unfold L_JsonRead.float_reads.
          subst. eauto 10.
        * exfalso. eapply int_no_point; eassumption.
      + rewrite Hm in E0. inversion E0; subst. constructor; assumption.
    - inversion Hb; subst. cbn in Hm. inversion Hm; subst. destruct (quote_chars s s') as [t [-> Ht]]; [assumption|].
      constructor. assumption.
    - inversion Hb; subst. cbn in Hm. inversion Hm; subst. rewrite (b64_base64 _ _ H0). constructor.
      rewrite <- (app_nil_r t0). apply plain_app; [eapply base64_plain; eassumption|constructor].
    - inversion Hb as [| | | | | | |l0 l' Hl|]; subst.
      destruct l as [|v l].
      { inversion Hl; subst. cbn in Hm. inversion Hm; subst. apply (jt_arr0 _ _ []). constructor. }
      rewrite marshal_arr in Hm. inversion Hl as [|v0 v1 l0 l1 Hv Hl1]; subst. inversion IH as [|v0 l0 IHv IHl]; subst.
      destruct (marshal sp ind (nl ++ ind) v) as [a|] eqn:Ea; [|discriminate].
      destruct (marshal_tail sp ind nl l) as [b|] eqn:Eb; [|discriminate]. inversion Hm; subst. clear Hm.
      replace (nl ++ ind ++ a ++ b ++ nl ++ [93%N]) with ((nl ++ ind) ++ a ++ (b ++ nl) ++ [93%N]) by (rewrite <- !app_assoc; reflexivity).
      apply jt_arr; [apply blank_app2; assumption| |].
      + eapply IHv; [| | | |exact Ea]; try assumption. apply blank_app2; assumption.
      + clear Hl Hb Hv Ea IHv IH. revert b Eb. induction Hl1 as [|x x' l l' Hx Hl IH2]; intros b Eb.
        * cbn in Eb. inversion Eb; subst. constructor. assumption.
        * cbn in Eb. inversion IHl as [|v0 l0 IHx IHl2]; subst.
          destruct (marshal sp ind (nl ++ ind) x) as [a1|] eqn:Ea; [|discriminate].
          destruct (marshal_tail sp ind nl l) as [b1|] eqn:Eb1; [|discriminate]. inversion Eb; subst.
          replace ((44%N :: nl ++ ind ++ a1 ++ b1) ++ nl) with ([] ++ 44%N :: (nl ++ ind) ++ a1 ++ (b1 ++ nl))
            by (cbn [app]; rewrite <- !app_assoc; reflexivity).
          constructor; [constructor|apply blank_app2; assumption| |apply IH2; auto].
          eapply IHx; [| | | |exact Ea]; try assumption. apply blank_app2; assumption.
    - inversion Hb as [| | | | | | | |m0 m' Hl]; subst.
      destruct m as [|[k v] l].
      { inversion Hl; subst. cbn in Hm. inversion Hm; subst. apply (jt_obj0 _ _ []). constructor. }
      rewrite marshal_map in Hm. inversion Hl as [|v0 [k1 v1] l0 l1 [Hk Hv] Hl1]; subst. inversion IH as [|v0 l0 IHv IHl]; subst.
      cbn [fst snd] in *.
      destruct (marshal sp ind (nl ++ ind) v) as [a|] eqn:Ea; [|discriminate].
      destruct (marshal_ptail sp ind nl l) as [b|] eqn:Eb; [|discriminate]. inversion Hm; subst. clear Hm.
      assert (HP : forall k k1 v1 a, cleaned k k1 -> jtext v1 a -> jpair (k1, v1) (quote k ++ 58%N :: sp ++ a)).
      { intros k0 k2 v2 a0 Hc0 Hj0. destruct (quote_chars k0 k2 Hc0) as [kt [-> Hkt]].
        cbn [app]. rewrite <- app_assoc. cbn [app]. apply (jp_intro _ _ k2 kt v2 a0 [] sp); auto. constructor. }
      replace (nl ++ ind ++ quote k ++ 58%N :: sp ++ a ++ b ++ nl ++ [125%N]) with ((nl ++ ind) ++ (quote k ++ 58%N :: sp ++ a) ++ (b ++ nl) ++ [125%N])
        by (rewrite <- !app_assoc; cbn [app]; rewrite <- !app_assoc; reflexivity).
      apply jt_obj; [apply blank_app2; assumption| |].
      + apply HP; [assumption|]. eapply IHv; [| | | |exact Ea]; try assumption. apply blank_app2; assumption.
      + clear Hl Hb Hv Ea IHv IH Hk. revert b Eb. induction Hl1 as [|[kx x] [kx' x'] l l' [Hkx Hx] Hl IH2]; intros b Eb.
        * cbn in Eb. inversion Eb; subst. constructor. assumption.
        * cbn in Eb. inversion IHl as [|v0 l0 IHx IHl2]; subst. cbn [fst snd] in *.
          destruct (marshal sp ind (nl ++ ind) x) as [a1|] eqn:Ea; [|discriminate].
          destruct (marshal_ptail sp ind nl l) as [b1|] eqn:Eb1; [|discriminate]. inversion Eb; subst.
          replace ((44%N :: nl ++ ind ++ quote kx ++ 58%N :: sp ++ a1 ++ b1) ++ nl) with ([] ++ 44%N :: (nl ++ ind) ++ (quote kx ++ 58%N :: sp ++ a1) ++ (b1 ++ nl))
            by (cbn [app]; rewrite <- !app_assoc; cbn [app]; rewrite <- !app_assoc; reflexivity).
          constructor; [constructor|apply blank_app2; assumption| |apply IH2; auto].
          apply HP; [assumption|]. eapply IHx; [| | | |exact Ea]; try assumption. apply blank_app2; assumption.
  Qed.

  (** Marshal fails exactly on the values it has to refuse. *)
  Lemma marshal_refused : forall v sp ind nl, marshal sp ind nl v = None <-> refused F fmt_float v.
  Proof.
    induction v as [|b|z|f|s|s|l IH|m IH] using gval_ind2; intros sp ind nl.
    - split; [discriminate|inversion 1].
    - split; [destruct b; discriminate|inversion 1].
    - split; [discriminate|inversion 1].
    - cbn. split; [apply rf_float|inversion 1; assumption].
    - split; [discriminate|inversion 1].
    - split; [discriminate|inversion 1].
    - assert (T : forall l, Forall (fun v => forall sp ind nl, marshal sp ind nl v = None <-> refused F fmt_float v) l ->
          (marshal_tail sp ind nl l = None <-> exists v, In v l /\ refused F fmt_float v)).
      { clear. induction 1 as [|v l Hv Hl IH]; cbn [marshal_tail].
        - split; [discriminate|]. intros [v [[] _]].
        - specialize (Hv sp ind (nl ++ ind)). destruct (marshal sp ind (nl ++ ind) v) as [a|].
          + destruct (marshal_tail sp ind nl l) as [b|].
            * split; [discriminate|]. intros [x [[<-|Hx] Hr]]; [apply Hv in Hr; discriminate|].
              assert (X : Some b = None); [|discriminate]. apply IH. eauto.
            * split; [|reflexivity]. intros _. destruct (proj1 IH eq_refl) as [x [Hx Hr]]. exists x. split; [right; assumption|assumption].
          + split; [|reflexivity]. intros _. exists v. split; [left; reflexivity|]. apply Hv. reflexivity. }
      destruct l as [|v l]; [split; [discriminate|]; inversion 1; contradiction|].
      inversion IH as [|v0 l0 IHv IHl]; subst. rewrite marshal_arr. specialize (T l IHl). specialize (IHv sp ind (nl ++ ind)).
      destruct (marshal sp ind (nl ++ ind) v) as [a|].
      + destruct (marshal_tail sp ind nl l) as [b|].
        * split; [discriminate|]. inversion 1 as [|l0 x Hx Hr|]; subst. destruct Hx as [<-|Hx]; [apply IHv in Hr; discriminate|].
          assert (X : Some b = None); [|discriminate]. apply T. eauto.
        * split; [|reflexivity]. intros _. destruct (proj1 T eq_refl) as [x [Hx Hr]]. apply (rf_arr _ _ _ x); [right; assumption|assumption].
      + split; [|reflexivity]. intros _. apply (rf_arr _ _ _ v); [left; reflexivity|]. apply IHv. reflexivity.
    - assert (T : forall l, Forall (fun kv => forall sp ind nl, marshal sp ind nl (snd kv) = None <-> refused F fmt_float (snd kv)) l ->
          (marshal_ptail sp ind nl l = None <-> exists k v, In (k, v) l /\ refused F fmt_float v)).
      { clear. induction 1 as [|[k v] l Hv Hl IH]; cbn [marshal_ptail].
        - split; [discriminate|]. intros [k [v [[] _]]].
        - cbn [snd] in Hv. specialize (Hv sp ind (nl ++ ind)). destruct (marshal sp ind (nl ++ ind) v) as [a|].
          + destruct (marshal_ptail sp ind nl l) as [b|].
            * split; [discriminate|]. intros [k2 [x [[E|Hx] Hr]]]; [inversion E; subst; apply Hv in Hr; discriminate|].
              assert (X : Some b = None); [|discriminate]. apply IH. eauto.
            * split; [|reflexivity]. intros _. destruct (proj1 IH eq_refl) as [k2 [x [Hx Hr]]]. exists k2, x. split; [right; assumption|assumption].
          + split; [|reflexivity]. intros _. exists k, v. split; [left; reflexivity|]. apply Hv. reflexivity. }
      destruct m as [|[k v] l]; [split; [discriminate|]; inversion 1; contradiction|].
      inversion IH as [|v0 l0 IHv IHl]; subst. rewrite marshal_map. specialize (T l IHl). cbn [snd] in IHv. specialize (IHv sp ind (nl ++ ind)).
      destruct (marshal sp ind (nl ++ ind) v) as [a|].
      + destruct (marshal_ptail sp ind nl l) as [b|].
        * split; [discriminate|]. inversion 1 as [| |l0 k2 x Hx Hr]; subst. destruct Hx as [E|Hx]; [inversion E; subst; apply IHv in Hr; discriminate|].
          assert (X : Some b = None); [|discriminate]. apply T. eauto.
        * split; [|reflexivity]. intros _. destruct (proj1 T eq_refl) as [k2 [x [Hx Hr]]]. apply (rf_map _ _ _ k2 x); [right; assumption|assumption].
      + split; [|reflexivity]. intros _. apply (rf_map _ _ _ k v); [left; reflexivity|]. apply IHv. reflexivity.
  Qed.

  (** The text of a spoiled value: a part that cannot be read, and the rest. *)
  Theorem marshal_spoiled : forall v, spoiled F fmt_float v -> forall sp ind nl t, blank sp -> blank ind -> blank nl ->
    marshal sp ind nl v = Some t -> exists a b, t = a ++ b /\ jbad F float_reads a /\ (delim b).
  Proof.
    assert (TL : forall sp ind nl pre pre', Forall2 comes_back pre pre' -> blank sp -> blank ind -> blank nl -> forall v post b,
        marshal_tail sp ind nl (pre ++ v :: post) = Some b ->
        (forall t, marshal sp ind (nl ++ ind) v = Some t -> exists a c, t = a ++ c /\ jbad F float_reads a /\ delim c) ->
        exists a c, b = a ++ c /\ jbad_tail F float_reads a /\ delim c).
    { intros sp ind nl pre pre' H Hsp Hind Hnl. induction H as [|x x' l l' Hx Hl IH]; intros v post b Eb Hv; cbn [marshal_tail app] in Eb.
      - destruct (marshal sp ind (nl ++ ind) v) as [a|] eqn:Ea; [|discriminate].
        destruct (marshal_tail sp ind nl post) as [b1|] eqn:Eb1; [|discriminate]. inversion Eb; subst.
        destruct (Hv a eq_refl) as [a1 [c1 [-> [Hj Hd]]]].
        exists ([] ++ 44%N :: (nl ++ ind) ++ a1), (c1 ++ b1). split; [cbn [app]; rewrite <- !app_assoc; reflexivity|]. split.
        + constructor; [constructor|apply blank_app2; assumption|assumption].
        + destruct c1; [|assumption]. destruct post; cbn in Eb1; [inversion Eb1; exact I|].
          destruct (marshal sp ind (nl ++ ind) g); [|discriminate]. destruct (marshal_tail sp ind nl post); [|discriminate]. inversion Eb1. reflexivity.
      - destruct (marshal sp ind (nl ++ ind) x) as [a|] eqn:Ea; [|discriminate].
        destruct (marshal_tail sp ind nl (l ++ v :: post)) as [b1|] eqn:Eb1; [|discriminate]. inversion Eb; subst.
        destruct (IH v post b1 Eb1 Hv) as [a1 [c1 [-> [Hj Hd]]]].
        exists ([] ++ 44%N :: (nl ++ ind) ++ a ++ a1), c1. split; [cbn [app]; rewrite <- !app_assoc; reflexivity|]. split; [|assumption].
        eapply jbl_next; [constructor|apply blank_app2; assumption| |assumption].
        eapply marshal_text; [| | | |exact Ea]; try eassumption. apply blank_app2; assumption. }
    assert (HP : forall sp k k1 v1 a, blank sp -> cleaned k k1 -> jtext v1 a -> jpair (k1, v1) (quote k ++ 58%N :: sp ++ a)).
    { intros sp k0 k2 v2 a0 Hsp Hc0 Hj0. destruct (quote_chars k0 k2 Hc0) as [kt [-> Hkt]].
      cbn [app]. rewrite <- app_assoc. cbn [app]. apply (jp_intro _ _ k2 kt v2 a0 [] sp); auto. constructor. }
    assert (BP : forall sp k a, blank sp -> jbad F float_reads a -> jbad_pair F float_reads (quote k ++ 58%N :: sp ++ a)).
    { intros sp k a Hsp Ha. destruct (cleaned_total k) as [k' Hk]. destruct (quote_chars k k' Hk) as [kt [-> Hkt]].
      cbn [app]. rewrite <- app_assoc. cbn [app]. apply (jbp_intro _ _ k' kt a [] sp); auto. constructor. }
    assert (PL : forall sp ind nl pre pre', Forall2 (fun kv kv' => cleaned (fst kv) (fst kv') /\ comes_back (snd kv) (snd kv')) pre pre' ->
        blank sp -> blank ind -> blank nl -> forall k v post b,
        marshal_ptail sp ind nl (pre ++ (k, v) :: post) = Some b ->
        (forall t, marshal sp ind (nl ++ ind) v = Some t -> exists a c, t = a ++ c /\ jbad F float_reads a /\ delim c) ->
        exists a c, b = a ++ c /\ jbad_ptail F float_reads a /\ delim c).
    { intros sp ind nl pre pre' H Hsp Hind Hnl. induction H as [|[kx x] [kx' x'] l l' [Hkx Hx] Hl IH]; intros k v post b Eb Hv; cbn [marshal_ptail app] in Eb.
      - destruct (marshal sp ind (nl ++ ind) v) as [a|] eqn:Ea; [|discriminate].
        destruct (marshal_ptail sp ind nl post) as [b1|] eqn:Eb1; [|discriminate]. inversion Eb; subst.
        destruct (Hv a eq_refl) as [a1 [c1 [-> [Hj Hd]]]].
        exists ([] ++ 44%N :: (nl ++ ind) ++ (quote k ++ 58%N :: sp ++ a1)), (c1 ++ b1).
        split; [cbn [app]; rewrite <- !app_assoc; cbn [app]; rewrite <- !app_assoc; reflexivity|]. split.
        + constructor; [constructor|apply blank_app2; assumption|]. apply BP; assumption.
        + destruct c1; [|assumption]. destruct post as [|[k2 g] post]; cbn in Eb1; [inversion Eb1; exact I|].
          destruct (marshal sp ind (nl ++ ind) g); [|discriminate]. destruct (marshal_ptail sp ind nl post); [|discriminate]. inversion Eb1. reflexivity.
      - cbn [fst snd] in *. destruct (marshal sp ind (nl ++ ind) x) as [a|] eqn:Ea; [|discriminate].
        destruct (marshal_ptail sp ind nl (l ++ (k, v) :: post)) as [b1|] eqn:Eb1; [|discriminate]. inversion Eb; subst.
        destruct (IH k v post b1 Eb1 Hv) as [a1 [c1 [-> [Hj Hd]]]].
        exists ([] ++ 44%N :: (nl ++ ind) ++ (quote kx ++ 58%N :: sp ++ a) ++ a1), c1.
        split; [cbn [app]; rewrite <- !app_assoc; cbn [app]; rewrite <- !app_assoc; reflexivity|]. split; [|assumption].
        eapply jbpl_next; [constructor|apply blank_app2; assumption| |assumption].
        apply HP; [assumption|eassumption|]. eapply marshal_text; [| | | |exact Ea]; try eassumption. apply blank_app2; assumption. }
    assert (ND : forall nl c x, blank nl -> is_num_char c = false -> delim (nl ++ c :: x)).
    { intros nl c x Hnl Hc. apply delim_blank; [assumption|exact Hc]. }
    induction 1 as [f t0 z E Hz Hn|a a' pre pre' v post Ha Hpre Hv IH|pre pre' k v post Hpre Hv IH]; intros sp ind nl t Hsp Hind Hnl Hm.
    - cbn in Hm. rewrite E in Hm. inversion Hm; subst. exists t, []. rewrite app_nil_r. split; [reflexivity|]. split; [|exact I].
      eapply jb_int; eassumption.
    - rewrite marshal_arr in Hm. destruct (marshal sp ind (nl ++ ind) a) as [x|] eqn:Ex; [|discriminate].
      destruct (marshal_tail sp ind nl (pre ++ v :: post)) as [b|] eqn:Eb; [|discriminate]. inversion Hm; subst.
      destruct (TL _ _ _ _ _ Hpre Hsp Hind Hnl _ _ _ Eb) as [a1 [c1 [-> [Hj Hd]]]].
      { intros t Et. eapply IH; [| | |exact Et]; try assumption. apply blank_app2; assumption. }
      exists (91%N :: (nl ++ ind) ++ x ++ a1), (c1 ++ nl ++ [93%N]). split; [cbn [app]; rewrite <- !app_assoc; reflexivity|]. split.
      + eapply jb_arr; [apply blank_app2; assumption| |assumption].
        eapply marshal_text; [| | | |exact Ex]; try eassumption. apply blank_app2; assumption.
      + destruct c1; [|assumption]. apply ND; [assumption|reflexivity].
    - destruct pre as [|[k0 x0] pre].
      + cbn [app] in Hm. rewrite marshal_map in Hm. destruct (marshal sp ind (nl ++ ind) v) as [x|] eqn:Ex; [|discriminate].
        destruct (marshal_ptail sp ind nl post) as [b|] eqn:Eb; [|discriminate]. inversion Hm; subst.
        destruct (IH sp ind (nl ++ ind) x Hsp Hind (blank_app2 _ _ Hnl Hind) Ex) as [a1 [c1 [-> [Hj Hd]]]].
        exists (123%N :: (nl ++ ind) ++ (quote k ++ 58%N :: sp ++ a1)), (c1 ++ b ++ nl ++ [125%N]).
        split; [cbn [app]; rewrite <- !app_assoc; cbn [app]; rewrite <- !app_assoc; reflexivity|]. split.
        * apply jb_obj; [apply blank_app2; assumption|]. apply BP; assumption.
        * destruct c1; [|assumption]. destruct post as [|[k2 g] post]; cbn in Eb.
          { inversion Eb. apply ND; [assumption|reflexivity]. }
          destruct (marshal sp ind (nl ++ ind) g); [|discriminate]. destruct (marshal_ptail sp ind nl post); [|discriminate]. inversion Eb. reflexivity.
      + inversion Hpre as [|? [k1 x1] ? pre1 [Hk Hx] Hpre2]; subst. cbn [fst snd] in *.
        cbn [app] in Hm. rewrite marshal_map in Hm. destruct (marshal sp ind (nl ++ ind) x0) as [x|] eqn:Ex; [|discriminate].
        destruct (marshal_ptail sp ind nl (pre ++ (k, v) :: post)) as [b|] eqn:Eb; [|discriminate]. inversion Hm; subst.
        destruct (PL _ _ _ _ _ Hpre2 Hsp Hind Hnl _ _ _ _ Eb) as [a1 [c1 [-> [Hj Hd]]]].
        { intros t Et. eapply IH; [| | |exact Et]; try assumption. apply blank_app2; assumption. }
        exists (123%N :: (nl ++ ind) ++ (quote k0 ++ 58%N :: sp ++ x) ++ a1), (c1 ++ nl ++ [125%N]).
        split; [cbn [app]; rewrite <- !app_assoc; cbn [app]; rewrite <- !app_assoc; reflexivity|]. split.
        * eapply jb_obj2; [apply blank_app2; assumption| |assumption].
          apply HP; [assumption|eassumption|]. eapply marshal_text; [| | | |exact Ex]; try eassumption. apply blank_app2; assumption.
        * destruct c1; [|assumption]. apply ND; [assumption|reflexivity].
  Qed.
End Marshal.
