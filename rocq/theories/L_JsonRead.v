(** The list reader on JSON texts: complete texts give their values, texts cut short give errors. *)
From Verif Require Import Base M_Decimal L_Decimal M_Utf8 M_Json S_JsonPure S_JsonText.

Lemma run_pure_none : forall A (p : jprog A) ps, fst (run_pure p ps) = None -> snd (run_pure p ps) = Lost.
Proof.
  induction p as [a|k IH|ch k IH|tok k IH|k IH|k IH|k IH|k IH]; intros ps; cbn; auto; try discriminate.
  - destruct ps as [s| |]; cbn; auto.
    + destruct (skip_ws s) as [|c t]; auto. destruct (N.eqb c ch); auto.
    + destruct (is_lower ch); cbn; auto.
  - destruct ps as [s| |]; cbn; auto.
    destruct (is_prefix tok (skip_ws s)); auto.
    destruct (is_prefix (skip_ws s) tok && forallb is_lower (skip_ws s)); auto.
  - destruct ps as [s| |]; cbn; auto.
  - destruct ps as [s| |]; cbn; auto.
  - destruct ps as [s| |]; cbn; auto.
    destruct (skip_ws s) as [|c t]; auto. destruct (N.eqb c 34); auto. destruct (str_span t) as [[a b]|]; auto.
  - destruct ps as [s| |]; cbn; auto. destruct (num_span (skip_ws s)); auto.
Qed.

Lemma run_pure_bind : forall A B (p : jprog A) (f : A -> jprog B) ps,
  run_pure (jbind p f) ps = match run_pure p ps with
                            | (Some a, ps') => run_pure (f a) ps'
                            | (None, ps') => (None, ps')
                            end.
Proof.
  induction p as [a|k IH|ch k IH|tok k IH|k IH|k IH|k IH|k IH]; intros f ps; cbn [jbind run_pure]; auto.
  - destruct ps as [s| |]; auto.
    + destruct (skip_ws s) as [|c t]; auto. destruct (N.eqb c ch); auto.
    + destruct (is_lower ch); auto.
  - destruct ps as [s| |]; auto. cbv zeta.
    destruct (is_prefix tok (skip_ws s)); auto.
    destruct (is_prefix (skip_ws s) tok && forallb is_lower (skip_ws s)); auto.
  - destruct ps as [s| |]; auto.
  - destruct ps as [s| |]; auto.
  - destruct ps as [s| |]; auto.
    destruct (skip_ws s) as [|c t]; auto. destruct (N.eqb c 34); auto. destruct (str_span t) as [[a b]|]; auto.
  - destruct ps as [s| |]; auto. destruct (num_span (skip_ws s)); auto.
Qed.

Lemma blank_is_ws : forall w, blank w -> Forall (fun c => is_ws c = true) w.
Proof.
  intros w H. eapply Forall_impl; [|exact H]. intros c [-> | [-> | [-> | ->]]]; reflexivity.
Qed.
Lemma skip_blank : forall w t, blank w -> skip_ws (w ++ t) = skip_ws t.
Proof.
  induction w as [|c w IH]; intros t H; [reflexivity|]. inversion H; subst. cbn.
  replace (is_ws c) with true; [apply IH; assumption|]. symmetry. destruct H2 as [-> | [-> | [-> | ->]]]; reflexivity.
Qed.
Lemma skip_cons : forall c t, is_ws c = false -> skip_ws (c :: t) = c :: t.
Proof. intros c t H. cbn. rewrite H. reflexivity. Qed.

(** The text after a value: nothing, or something that cannot continue a number. *)
Definition delim (r : bytes) : Prop := match r with [] => True | c :: _ => is_num_char c = false end.

Lemma num_span_app : forall t r, forallb is_num_char t = true -> delim r -> num_span (t ++ r) = (t, r).
Proof.
  induction t as [|c t IH]; intros r H D; cbn in *.
  - destruct r as [|c r]; [reflexivity|]. cbn in *. rewrite D. reflexivity.
  - apply andb_true_iff in H. destruct H as [H1 H2]. rewrite H1, IH; auto.
Qed.

Lemma hex_plain : forall c v, hexval c v -> c <> 34%N /\ c <> 92%N.
Proof. intros c v H. unfold hexval in H. lia. Qed.

Lemma str_span_chars : forall s t, jchars s t -> forall r, str_span (t ++ 34%N :: r) = Some (t, r).
Proof.
  induction 1 as [|c s t H1 H2 H IH|e c s t He H IH|a b c d va vb vc vd s t Ha Hb Hc Hd x Hx H IH];
    intros r; cbn [app str_span].
  - reflexivity.
  - destruct (N.eqb_spec c 34); [contradiction|]. destruct (N.eqb_spec c 92); [contradiction|]. rewrite IH. reflexivity.
  - rewrite IH. reflexivity.
  - apply hex_plain in Ha, Hb, Hc, Hd. cbn.
    destruct (N.eqb_spec a 34); [tauto|]. destruct (N.eqb_spec a 92); [tauto|].
    destruct (N.eqb_spec b 34); [tauto|]. destruct (N.eqb_spec b 92); [tauto|].
    destruct (N.eqb_spec c 34); [tauto|]. destruct (N.eqb_spec c 92); [tauto|].
    destruct (N.eqb_spec d 34); [tauto|]. destruct (N.eqb_spec d 92); [tauto|].
    rewrite IH. reflexivity.
Qed.

(** Cut string texts have no closing quote. *)
Lemma str_span_cut : forall s t, jchars s t -> forall q q', t = q ++ q' -> str_span q = None.
Proof.
  induction 1 as [|c s t H1 H2 H IH|e c s t He H IH|a b c d va vb vc vd s t Ha Hb Hc Hd x Hx H IH];
    intros q q' E.
  - destruct q; [reflexivity|discriminate].
  - destruct q as [|y q]; [reflexivity|]. inversion E; subst. cbn.
    destruct (N.eqb_spec y 34); [contradiction|]. destruct (N.eqb_spec y 92); [contradiction|].
    rewrite (IH _ _ eq_refl). reflexivity.
  - destruct q as [|y [|z q]]; inversion E; subst; [reflexivity|reflexivity|]. cbn. rewrite (IH _ _ eq_refl). reflexivity.
  - apply hex_plain in Ha, Hb, Hc, Hd.
    assert (P : forall y q, y <> 34%N /\ y <> 92%N -> str_span q = None -> str_span (y :: q) = None).
    { intros y r [N1 N2] Hr. cbn. destruct (N.eqb_spec y 34); [contradiction|].
      destruct (N.eqb_spec y 92); [contradiction|]. rewrite Hr. reflexivity. }
    destruct q as [|y1 [|y2 q]]; [reflexivity|injection E as <- E; reflexivity|].
    cbn [app] in E. injection E as <- <- E.
    assert (Q : str_span q = None).
    { destruct q as [|y3 q]; [reflexivity|]. cbn [app] in E. injection E as <- E. apply P; [assumption|].
      destruct q as [|y4 q]; [reflexivity|]. cbn [app] in E. injection E as <- E. apply P; [assumption|].
      destruct q as [|y5 q]; [reflexivity|]. cbn [app] in E. injection E as <- E. apply P; [assumption|].
      destruct q as [|y6 q]; [reflexivity|]. cbn [app] in E. injection E as <- E. apply P; [assumption|].
      apply (IH q q' E). }
    cbn. rewrite Q. reflexivity.
Qed.

Lemma hex_digit_val : forall c v, hexval c v -> hex_digit c = Some v.
Proof.
  intros c v H. unfold hexval in H. unfold hex_digit, in_range.
  destruct (N.leb_spec 48 c), (N.leb_spec c 57), (N.leb_spec 97 c), (N.leb_spec c 102),
    (N.leb_spec 65 c), (N.leb_spec c 70); cbn [andb]; try (f_equal; lia); lia.
Qed.

Lemma unquote_chars : forall sg s t, jchars s t -> unquote sg t = s.
Proof.
  intros sg. induction 1 as [|c s t H1 H2 H IH|e c s t He H IH|a b c d va vb vc vd s t Ha Hb Hc Hd x Hx H IH].
  - reflexivity.
  - cbn. destruct (N.eqb_spec c 92); [contradiction|]. rewrite IH. reflexivity.
  - cbn [unquote]. rewrite N.eqb_refl.
    destruct He as [[-> ->]|[[-> ->]|[[-> ->]|[[-> ->]|[[-> ->]|[[->|[->| ->]] ->]]]]]]; cbn; rewrite IH; reflexivity.
  - cbn. unfold unquote_u. rewrite (hex_digit_val _ _ Ha), (hex_digit_val _ _ Hb), (hex_digit_val _ _ Hc), (hex_digit_val _ _ Hd).
    rewrite IH. replace (((va * 16 + vb) * 16 + vc) * 16 + vd)%N with x by (unfold x; lia).
    unfold is_surrogate, in_range.
    destruct (N.leb_spec 55296 x), (N.leb_spec x 57343); cbn [andb]; try reflexivity. exfalso; apply Hx; split; assumption.
Qed.

Lemma digits_num : forall ds, Forall (fun c => (48 <= c <= 57)%N) ds ->
  forallb is_digit ds = true /\ forallb is_num_char ds = true /\ existsb is_float_char ds = false.
Proof.
  induction 1 as [|c ds Hc H [I1 [I2 I3]]]; [auto|]. cbn [forallb existsb].
  assert (D : is_digit c = true) by (unfold is_digit; apply andb_true_iff; split; apply N.leb_le; lia).
  assert (E : is_float_char c = false).
  { unfold is_float_char. destruct (N.eqb_spec c 46); [lia|]. destruct (N.eqb_spec c 101); [lia|].
    destruct (N.eqb_spec c 69); [lia|]. destruct (N.eqb_spec c 43); [lia|]. reflexivity. }
  assert (G : is_num_char c = true) by (unfold is_num_char; rewrite D; reflexivity).
  rewrite D, E, G, I1, I2, I3. auto.
Qed.

(** First characters of numbers. *)
Definition num_start (c : N) : bool := N.eqb c 45 || is_digit c.

Lemma num_start_facts : forall c, num_start c = true ->
  is_ws c = false /\ N.eqb c 110 = false /\ N.eqb c 116 = false /\ N.eqb c 102 = false /\ N.eqb c 34 = false /\
  N.eqb c 93 = false /\ N.eqb c 125 = false /\ N.eqb c 45 || is_digit c = true.
Proof.
  intros c H. assert (R : c = 45%N \/ (48 <= c <= 57)%N).
  { unfold num_start in H. apply orb_true_iff in H. destruct H as [H|H]; [left; apply N.eqb_eq; assumption|right].
    apply digit_range; assumption. }
  unfold is_ws. rewrite !(proj2 (N.eqb_neq _ _)) by lia. auto 10.
Qed.

Lemma int_text_facts : forall z t, int_text z t ->
  exists c t', t = c :: t' /\ num_start c = true /\ forallb is_num_char t = true /\
    existsb is_float_char t = false /\ parse_signed t = Some z.
Proof.
  intros z t [ds [Hne [Hd Ht]]]. destruct (digits_num ds Hd) as [D1 [D2 D3]].
  destruct Ht as [[-> ->]|[-> ->]].
  - destruct ds as [|c ds]; [contradiction|]. exists c, ds. split; [reflexivity|].
    inversion Hd; subst. split; [|split; [assumption|split; [assumption|]]].
    + unfold num_start, is_digit. rewrite (proj2 (N.leb_le 48 c)), (proj2 (N.leb_le c 57)) by lia. apply orb_true_r.
    + unfold parse_signed, parse_digits. rewrite !(proj2 (N.eqb_neq _ _)) by lia. rewrite D1. reflexivity.
  - exists 45%N, ds. split; [reflexivity|]. split; [reflexivity|]. cbn [forallb existsb].
    split; [rewrite D2; reflexivity|]. split; [rewrite D3; reflexivity|].
    unfold parse_signed, parse_digits. rewrite N.eqb_refl. destruct ds as [|c ds]; [contradiction|]. rewrite D1. reflexivity.
Qed.

Section Read.
  Variable F : Type.
  Variable parse_float : bytes -> option F.
  Variable surrogate : bytes.
  Notation read_value := (read_value F parse_float surrogate).
  Notation read_object := (read_object F parse_float surrogate).
  Notation read_pairs := (read_pairs F parse_float surrogate).
  Notation read_pair := (read_pair F parse_float surrogate).
  Notation read_array := (read_array F parse_float surrogate).
  Notation read_elems := (read_elems F parse_float surrogate).
  Notation gval := (gval F).

  (** One step of each function. *)
  Lemma read_value_S : forall f, read_value (Datatypes.S f) =
    JPeek (fun c =>
          if N.eqb c 110 then read_literal F lit_null VNil (EMsg "Expected: null")
          else if N.eqb c 116 then read_literal F lit_true (VBool true) (EMsg "Expected: true")
          else if N.eqb c 102 then read_literal F lit_false (VBool false) (EMsg "Expected: false")
          else if N.eqb c 34 then jrbind (read_string surrogate) (fun s => JRet (Ok (VStr s)))
          else if N.eqb c 45 || is_digit c then read_number F parse_float
          else if N.eqb c 123 then read_object f
          else if N.eqb c 91 then read_array f
          else JRet (Ok VNil)).
  Proof. reflexivity. Qed.
  Lemma read_object_S : forall f, read_object (Datatypes.S f) =
        JTok 123 (fun ok => if negb ok then JRet (Err (EMsg "Expected: opening '{' for object")) else
        JTok 125 (fun ok => if ok then JRet (Ok (VMap [])) else
        jrbind (read_pair f) (fun kv => read_pairs f (map_set (fst kv) (snd kv) [])))).
  Proof. reflexivity. Qed.
  Lemma read_pairs_S : forall f obj, read_pairs (Datatypes.S f) obj =
        JTok 125 (fun ok => if ok then JRet (Ok (VMap obj)) else
        JTok 44 (fun ok => if negb ok then JRet (Err err_separate) else
        jrbind (read_pair f) (fun kv => read_pairs f (map_set (fst kv) (snd kv) obj)))).
  Proof. reflexivity. Qed.
  Lemma read_pair_S : forall f, read_pair (Datatypes.S f) =
        jrbind (read_string surrogate) (fun key =>
        JTok 58 (fun ok => if negb ok then JRet (Err (EMsg "Expected: ':' to separate key and value")) else
        jrbind (read_value f) (fun v => JRet (Ok (key, v))))).
  Proof. reflexivity. Qed.
  Lemma read_array_S : forall f, read_array (Datatypes.S f) =
        JTok 91 (fun ok => if negb ok then JRet (Err (EMsg "Expected: opening '[' for array")) else
        JTok 93 (fun ok => if ok then JRet (Ok (VArr [])) else
        jbind (read_value f) (fun r =>
          match r with
          | Ok v => read_elems f [v]
          | Err _ => JRet (Ok (VArr []))
          | Panic => JRet Panic
          | OutOfFuel => JRet OutOfFuel
          end))).
  Proof. reflexivity. Qed.
  Lemma read_elems_S : forall f acc, read_elems (Datatypes.S f) acc =
        JTok 93 (fun ok => if ok then JRet (Ok (VArr acc)) else
        JTok 44 (fun ok => if negb ok then JSkip (JRet (Err err_separate)) else
        jrbind (read_value f) (fun v => read_elems f (acc ++ [v])))).
  Proof. reflexivity. Qed.

  (** Texts the reader takes for a floating point number. *)
  Definition float_reads (f : F) (t : bytes) : Prop :=
    (exists c t', t = c :: t' /\ num_start c = true) /\ forallb is_num_char t = true /\
    existsb is_float_char t = true /\ parse_float t = Some f.

  Notation jtext := (jtext F float_reads).
  Notation jtail := (jtail F float_reads).
  Notation jpair := (jpair F float_reads).
  Notation jptail := (jptail F float_reads).

  (** Rules for the primitives. *)
  Lemma tok_yes : forall A c (k : bool -> jprog A) w r, blank w -> is_ws c = false ->
    run_pure (JTok c k) (Live (w ++ c :: r)) = run_pure (k true) (Live r).
  Proof. intros A c k w r Hw Hc. cbn [run_pure]. rewrite skip_blank by assumption. cbn [skip_ws]. rewrite Hc, N.eqb_refl. reflexivity. Qed.

  Lemma tok_yes0 : forall A c (k : bool -> jprog A) r, is_ws c = false ->
    run_pure (JTok c k) (Live (c :: r)) = run_pure (k true) (Live r).
  Proof. intros. apply (tok_yes A c k [] r); [constructor|assumption]. Qed.

  Lemma tok_no : forall A ch c (k : bool -> jprog A) w r, blank w -> is_ws c = false -> N.eqb c ch = false ->
    run_pure (JTok ch k) (Live (w ++ c :: r)) = run_pure (k false) (Live (c :: r)).
  Proof. intros A ch c k w r Hw Hc He. cbn [run_pure]. rewrite skip_blank by assumption. cbn [skip_ws]. rewrite Hc, He. reflexivity. Qed.

  Lemma tok_end : forall A ch (k : bool -> jprog A) w, blank w ->
    run_pure (JTok ch k) (Live w) = run_pure (k false) (Live []).
  Proof.
    intros A ch k w Hw. cbn [run_pure]. rewrite <- (app_nil_r w), skip_blank by assumption. reflexivity.
  Qed.

  Lemma string_ok : forall s t w r, jchars s t -> blank w ->
    run_pure (read_string surrogate) (Live (w ++ 34%N :: t ++ 34%N :: r)) = (Some (Ok s), Live r).
  Proof.
    intros s t w r H Hw. unfold read_string. cbn [run_pure]. rewrite skip_blank by assumption.
    cbn [skip_ws]. change (is_ws 34) with false. cbn [N.eqb Pos.eqb]. rewrite (str_span_chars s t H r).
    cbn [run_pure]. unfold strip_quotes. cbn [length skipn].
    rewrite app_length. cbn [length]. replace (Datatypes.S (length t + 1) - 2)%nat with (length t) by lia.
    rewrite firstn_app_le by lia. rewrite firstn_all, (unquote_chars surrogate s t H). reflexivity.
  Qed.

  Lemma string_cut : forall s t w q q', jchars s t -> blank w -> t = q ++ q' ->
    run_pure (read_string surrogate) (Live (w ++ 34%N :: q)) = (Some (Err err_closing), Dead).
  Proof.
    intros s t w q q' H Hw Hq. unfold read_string. cbn [run_pure]. rewrite skip_blank by assumption.
    cbn [skip_ws]. change (is_ws 34) with false. cbn [N.eqb Pos.eqb]. rewrite (str_span_cut s t H q q' Hq). reflexivity.
  Qed.

  Lemma jtext_head : forall v t, jtext v t ->
    exists c t', t = c :: t' /\ is_ws c = false /\ N.eqb c 93 = false /\ N.eqb c 125 = false.
  Proof.
    intros v t H. destruct H.
    - exists 110%N, (bs "ull"). auto.
    - exists 116%N, (bs "rue"). auto.
    - exists 102%N, (bs "alse"). auto.
    - destruct (int_text_facts _ _ H0) as [c [t' [-> [Hc _]]]]. destruct (num_start_facts c Hc) as [A [_ [_ [_ [_ [B [C _]]]]]]]. eauto 10.
    - destruct H as [[c [t' [-> Hc]]] _]. destruct (num_start_facts c Hc) as [A [_ [_ [_ [_ [B [C _]]]]]]]. eauto 10.
    - eexists; eexists; split; [reflexivity|auto].
    - eexists; eexists; split; [reflexivity|auto].
    - eexists; eexists; split; [reflexivity|auto].
    - eexists; eexists; split; [reflexivity|auto].
    - eexists; eexists; split; [reflexivity|auto].
  Qed.

  Lemma jpair_head : forall kv t, jpair kv t -> exists t', t = 34%N :: t'.
  Proof. intros kv t H. destruct H. eauto. Qed.

  Lemma delim_blank : forall w r, blank w -> delim r -> delim (w ++ r).
  Proof.
    intros w r Hw Hr. destruct w as [|c w]; [assumption|]. inversion Hw; subst. cbn.
    destruct H1 as [-> | [-> | [-> | ->]]]; reflexivity.
  Qed.
  Lemma delim_tail : forall vs r x, jtail vs r -> delim x -> delim (r ++ x).
  Proof.
    intros vs r x H Hx. destruct H.
    - apply delim_blank; assumption.
    - rewrite <- app_assoc. apply delim_blank; [assumption|reflexivity].
  Qed.
  Lemma delim_ptail : forall vs r x, jptail vs r -> delim x -> delim (r ++ x).
  Proof.
    intros vs r x H Hx. destruct H.
    - apply delim_blank; assumption.
    - rewrite <- app_assoc. apply delim_blank; [assumption|reflexivity].
  Qed.

  (** readNumber on a complete number. *)
  Lemma number_value : forall c t' r w fuel, num_start c = true -> forallb is_num_char (c :: t') = true -> blank w ->
    delim r ->
    run_pure (read_value (Datatypes.S fuel)) (Live (w ++ (c :: t') ++ r)) =
    (Some (convert_number F parse_float (c :: t')), Live r).
  Proof.
    intros c t' r w fuel Hc Hn Hw Hr. destruct (num_start_facts c Hc) as [E0 [E1 [E2 [E3 [E4 [E5 [E6 E7]]]]]]].
    rewrite read_value_S. cbn [run_pure]. rewrite skip_blank by assumption. cbn [app skip_ws]. rewrite E0. cbn [hd].
    rewrite E1, E2, E3, E4, E7. unfold read_number. cbn [run_pure skip_ws]. rewrite E0.
    change (c :: t' ++ r) with ((c :: t') ++ r). rewrite num_span_app by assumption. reflexivity.
  Qed.

  Theorem read_text : 
    (forall v t, jtext v t -> forall fuel w r, (2 * length t <= fuel)%nat -> blank w -> delim r ->
       run_pure (read_value fuel) (Live (w ++ t ++ r)) = (Some (Ok v), Live r)) /\
    (forall vs t, jtail vs t -> forall fuel acc r, (2 * length t + 1 <= fuel)%nat ->
       run_pure (read_elems fuel acc) (Live (t ++ 93%N :: r)) = (Some (Ok (VArr (acc ++ vs))), Live r)) /\
    (forall kv t, jpair kv t -> forall fuel w r, (2 * length t <= fuel)%nat -> blank w -> delim r ->
       run_pure (read_pair fuel) (Live (w ++ t ++ r)) = (Some (Ok kv), Live r)) /\
    (forall kvs t, jptail kvs t -> forall fuel obj r, (2 * length t + 1 <= fuel)%nat ->
       run_pure (read_pairs fuel obj) (Live (t ++ 125%N :: r)) =
       (Some (Ok (VMap (fold_left (fun m kv => map_set (fst kv) (snd kv) m) kvs obj))), Live r)).
  Proof.
    apply (json_text_ind F float_reads
      (fun v t => forall fuel w r, (2 * length t <= fuel)%nat -> blank w -> delim r ->
         run_pure (read_value fuel) (Live (w ++ t ++ r)) = (Some (Ok v), Live r))
      (fun vs t => forall fuel acc r, (2 * length t + 1 <= fuel)%nat ->
         run_pure (read_elems fuel acc) (Live (t ++ 93%N :: r)) = (Some (Ok (VArr (acc ++ vs))), Live r))
      (fun kv t => forall fuel w r, (2 * length t <= fuel)%nat -> blank w -> delim r ->
         run_pure (read_pair fuel) (Live (w ++ t ++ r)) = (Some (Ok kv), Live r))
      (fun kvs t => forall fuel obj r, (2 * length t + 1 <= fuel)%nat ->
         run_pure (read_pairs fuel obj) (Live (t ++ 125%N :: r)) =
         (Some (Ok (VMap (fold_left (fun m kv => map_set (fst kv) (snd kv) m) kvs obj))), Live r))).
    - intros fuel w r Hf Hw Hr. destruct fuel; [cbn in Hf; lia|].
      rewrite read_value_S. cbn [run_pure]. rewrite skip_blank by assumption. reflexivity.
    - intros fuel w r Hf Hw Hr. destruct fuel; [cbn in Hf; lia|].
      rewrite read_value_S. cbn [run_pure]. rewrite skip_blank by assumption. reflexivity.
    - intros fuel w r Hf Hw Hr. destruct fuel; [cbn in Hf; lia|].
      rewrite read_value_S. cbn [run_pure]. rewrite skip_blank by assumption. reflexivity.
    - intros z t Hz Ht fuel w r Hf Hw Hr. destruct (int_text_facts z t Ht) as [c [t' [-> [Hc [H1 [H2 H3]]]]]].
      destruct fuel; [cbn in Hf; lia|]. rewrite number_value by assumption.
      unfold convert_number. rewrite H2. unfold parse_int64. rewrite H3.
      replace (in_int64 z) with true; [reflexivity|]. symmetry. unfold in_int64, min_int64, max_int64. unfold fits_int64 in Hz.
      apply andb_true_iff. split; apply Z.leb_le; lia.
    - intros f t [[c [t' [-> Hc]]] [H1 [H2 H3]]] fuel w r Hf Hw Hr.
      destruct fuel; [cbn in Hf; lia|]. rewrite number_value by assumption.
      unfold convert_number. rewrite H2, H3. reflexivity.
    - intros s t Hs fuel w r Hf Hw Hr. destruct fuel; [cbn in Hf; lia|].
      rewrite read_value_S. cbn [run_pure]. rewrite skip_blank by assumption. cbn [app skip_ws].
      change (is_ws 34) with false. cbn [hd]. cbn [N.eqb Pos.eqb]. unfold jrbind. rewrite run_pure_bind.
      rewrite <- app_assoc. change (34%N :: t ++ [34%N] ++ r) with ([] ++ 34%N :: t ++ 34%N :: r).
      rewrite (string_ok s t [] r Hs) by constructor. reflexivity.
    - intros w1 Hw1 fuel w r Hf Hw Hr. cbn [length] in Hf. rewrite app_length in Hf. cbn [length] in Hf.
      destruct fuel as [|[|fuel]]; [lia|lia|].
      rewrite read_value_S. cbn [run_pure]. rewrite skip_blank by assumption. cbn [app skip_ws].
      change (is_ws 91) with false. cbn [hd]. cbn [N.eqb Pos.eqb orb]. change (is_digit 91) with false. rewrite read_array_S.
      rewrite <- app_assoc. rewrite (tok_yes _ 91%N _ [] (w1 ++ [93%N] ++ r)) by (auto; constructor). cbn [negb].
      cbn [app]. rewrite (tok_yes _ 93%N _ w1 r) by auto. reflexivity.
    - intros v vs w1 t rt Hw1 Ht IHt Hrt IHrt fuel w r Hf Hw Hr. cbn [length] in Hf. rewrite !app_length in Hf. cbn [length] in Hf.
      destruct fuel as [|[|fuel]]; [lia|lia|].
      rewrite read_value_S. cbn [run_pure]. rewrite skip_blank by assumption. cbn [app skip_ws].
      change (is_ws 91) with false. cbn [hd]. cbn [N.eqb Pos.eqb orb]. change (is_digit 91) with false. rewrite read_array_S.
      rewrite <- !app_assoc. rewrite (tok_yes _ 91%N _ [] (w1 ++ t ++ rt ++ [93%N] ++ r)) by (auto; constructor). cbn [negb].
      destruct (jtext_head v t Ht) as [c [t' [Et [Hc1 [Hc2 Hc3]]]]].
      assert (Etok : forall (k : bool -> jprog (res gval)), run_pure (JTok 93 k) (Live (w1 ++ t ++ rt ++ [93%N] ++ r)) =
                run_pure (k false) (Live (t ++ rt ++ [93%N] ++ r))).
      { intros k. rewrite Et. cbn [app]. apply tok_no; assumption. }
      rewrite Etok. rewrite run_pure_bind.
      change (t ++ rt ++ [93%N] ++ r) with ([] ++ t ++ (rt ++ 93%N :: r)).
      rewrite (IHt fuel [] (rt ++ 93%N :: r)); [|lia|constructor|apply (delim_tail vs rt); [assumption|reflexivity]].
      rewrite (IHrt fuel [v] r) by lia. reflexivity.
    - intros w1 Hw1 fuel w r Hf Hw Hr. cbn [length] in Hf. rewrite app_length in Hf. cbn [length] in Hf.
      destruct fuel as [|[|fuel]]; [lia|lia|].
      rewrite read_value_S. cbn [run_pure]. rewrite skip_blank by assumption. cbn [app skip_ws].
      change (is_ws 123) with false. cbn [hd]. cbn [N.eqb Pos.eqb orb]. change (is_digit 123) with false. rewrite read_object_S.
      rewrite <- app_assoc. rewrite (tok_yes _ 123%N _ [] (w1 ++ [125%N] ++ r)) by (auto; constructor). cbn [negb].
      cbn [app]. rewrite (tok_yes _ 125%N _ w1 r) by auto. reflexivity.
    - intros kv kvs w1 t rt Hw1 Ht IHt Hrt IHrt fuel w r Hf Hw Hr. cbn [length] in Hf. rewrite !app_length in Hf. cbn [length] in Hf.
      destruct fuel as [|[|fuel]]; [lia|lia|].
      rewrite read_value_S. cbn [run_pure]. rewrite skip_blank by assumption. cbn [app skip_ws].
      change (is_ws 123) with false. cbn [hd]. cbn [N.eqb Pos.eqb orb]. change (is_digit 123) with false. rewrite read_object_S.
      rewrite <- !app_assoc. rewrite (tok_yes _ 123%N _ [] (w1 ++ t ++ rt ++ [125%N] ++ r)) by (auto; constructor). cbn [negb].
      destruct (jpair_head kv t Ht) as [t' Et].
      assert (Etok : forall (k : bool -> jprog (res gval)), run_pure (JTok 125 k) (Live (w1 ++ t ++ rt ++ [125%N] ++ r)) =
                run_pure (k false) (Live (t ++ rt ++ [125%N] ++ r))).
      { intros k. rewrite Et. cbn [app]. apply tok_no; auto. }
      rewrite Etok. unfold jrbind. rewrite run_pure_bind.
      change (t ++ rt ++ [125%N] ++ r) with ([] ++ t ++ (rt ++ 125%N :: r)).
      rewrite (IHt fuel [] (rt ++ 125%N :: r)); [|lia|constructor|apply (delim_ptail kvs rt); [assumption|reflexivity]].
      rewrite (IHrt fuel _ r) by lia. reflexivity.
    - intros w Hw fuel acc r Hf. destruct fuel; [lia|]. rewrite read_elems_S.
      rewrite (tok_yes _ 93%N _ w r) by auto. rewrite app_nil_r. reflexivity.
    - intros v vs w1 w2 t rt Hw1 Hw2 Ht IHt Hrt IHrt fuel acc r Hf.
      rewrite !app_length in Hf. cbn [length] in Hf. rewrite !app_length in Hf.
      destruct fuel; [lia|]. rewrite read_elems_S.
      rewrite <- app_assoc. cbn [app]. rewrite (tok_no _ 93%N 44%N _ w1) by auto.
      rewrite (tok_yes0 _ 44%N) by reflexivity. cbn [negb]. unfold jrbind. rewrite run_pure_bind.
      rewrite <- !app_assoc. rewrite (IHt fuel w2 (rt ++ 93%N :: r)); [|lia|assumption|apply (delim_tail vs rt); [assumption|reflexivity]].
      rewrite (IHrt fuel (acc ++ [v]) r) by lia. rewrite <- app_assoc. reflexivity.
    - intros k kt v t w1 w2 Hk Hw1 Hw2 Ht IHt fuel w r Hf Hw Hr.
      cbn [length] in Hf. rewrite !app_length in Hf. cbn [length] in Hf. rewrite !app_length in Hf. cbn [length] in Hf. rewrite app_length in Hf.
      destruct fuel; [lia|]. rewrite read_pair_S. unfold jrbind at 1. rewrite run_pure_bind.
      cbn [app]. rewrite <- !app_assoc. cbn [app]. rewrite <- !app_assoc. cbn [app]. rewrite <- !app_assoc.
      rewrite (string_ok k kt w _ Hk Hw). rewrite (tok_yes _ 58%N _ w1) by auto. cbn [negb].
      unfold jrbind. rewrite run_pure_bind. rewrite (IHt fuel w2 r); [|lia|assumption|assumption]. reflexivity.
    - intros w Hw fuel obj r Hf. destruct fuel; [lia|]. rewrite read_pairs_S.
      rewrite (tok_yes _ 125%N _ w r) by auto. reflexivity.
    - intros kv kvs w1 w2 t rt Hw1 Hw2 Ht IHt Hrt IHrt fuel obj r Hf.
      rewrite !app_length in Hf. cbn [length] in Hf. rewrite !app_length in Hf.
      destruct fuel; [lia|]. rewrite read_pairs_S.
      rewrite <- app_assoc. cbn [app]. rewrite (tok_no _ 125%N 44%N _ w1) by auto.
      rewrite (tok_yes0 _ 44%N) by reflexivity. cbn [negb]. unfold jrbind. rewrite run_pure_bind.
      rewrite <- !app_assoc. rewrite (IHt fuel w2 (rt ++ 125%N :: r)); [|lia|assumption|apply (delim_ptail kvs rt); [assumption|reflexivity]].
      rewrite (IHrt fuel _ r) by lia. reflexivity.
  Qed.
End Read.
