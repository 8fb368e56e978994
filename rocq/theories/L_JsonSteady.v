(** Without misspelled words the reader never depends on the buffer boundaries. *)
From Verif Require Import Base M_Decimal M_Bufio M_Utf8 M_Json S_JsonPure S_JsonText L_JsonBuf L_JsonTotal L_JsonRead.

Lemma outside_trans : forall d s u, outside d s -> outside s u -> outside d u.
Proof. induction 1; intros; auto; [apply out_char|apply out_string]; auto. Qed.
Lemma outside_char : forall d c t, outside d (c :: t) -> c <> 34%N -> outside d t.
Proof. intros d c t H Hc. apply (outside_trans _ _ _ H). constructor; [assumption|constructor]. Qed.
Lemma outside_skip_ws : forall d s, outside d s -> outside d (skip_ws s).
Proof.
  intros d s. induction s as [|c s IH]; intros H; cbn; [assumption|]. destruct (is_ws c) eqn:E; [|assumption].
  apply IH. apply (outside_char d c); [assumption|]. intros ->. discriminate.
Qed.
Lemma outside_num : forall d s, outside d s -> outside d (snd (num_span s)).
Proof.
  intros d s. induction s as [|c s IH]; intros H; cbn; [assumption|]. destruct (is_num_char c) eqn:E; [|assumption].
  assert (Hs : outside d s). { apply (outside_char d c); [assumption|]. intros ->. discriminate. }
  specialize (IH Hs). destruct (num_span s). exact IH.
Qed.
Lemma str_span_quoted : forall n s a b, (length s <= n)%nat -> str_span s = Some (a, b) -> quoted a /\ s = a ++ 34%N :: b.
Proof.
  induction n as [|n IH]; intros s a b Hn H; destruct s as [|c s]; cbn in *; try discriminate; [lia|].
  destruct (N.eqb_spec c 34); [inversion H; subst; split; [constructor|reflexivity]|].
  destruct (N.eqb_spec c 92).
  - destruct s as [|d s]; [discriminate|]. cbn in Hn. destruct (str_span s) as [[a' b']|] eqn:E; [|discriminate].
    inversion H; subst. destruct (IH s a' b ltac:(lia) E) as [H1 ->]. split; [constructor; assumption|reflexivity].
  - destruct (str_span s) as [[a' b']|] eqn:E; [|discriminate]. inversion H; subst.
    destruct (IH s a' b ltac:(lia) E) as [H1 ->]. split; [constructor; assumption|reflexivity].
Qed.
Lemma outside_str : forall d s a b, outside d (34%N :: s) -> str_span s = Some (a, b) -> outside d b.
Proof.
  intros d s a b H E. destruct (str_span_quoted _ s a b (le_n _) E) as [Hq ->].
  apply (outside_trans _ _ _ H). apply out_string; [assumption|constructor].
Qed.
Lemma is_prefix_spec : forall p s, is_prefix p s = true -> exists r, s = p ++ r.
Proof.
  induction p as [|x p IH]; intros [|y s] H; cbn in *; try discriminate; [exists []|exists (y :: s)|]; auto.
  apply andb_true_iff in H. destruct H as [H1 H2]. apply N.eqb_eq in H1. subst y.
  destruct (IH s H2) as [r ->]. exists r. reflexivity.
Qed.
Lemma is_prefix_app : forall p r, is_prefix p (p ++ r) = true.
Proof. induction p as [|x p IH]; intros r; cbn; [reflexivity|]. rewrite N.eqb_refl. apply IH. Qed.
Lemma outside_app : forall d p r, ~ In 34%N p -> outside d (p ++ r) -> outside d r.
Proof.
  induction p as [|c p IH]; intros r Hp H; [assumption|]. apply IH; [intros X; apply Hp; right; assumption|].
  apply (outside_char d c); [assumption|]. intros ->. apply Hp. left. reflexivity.
Qed.

Section Steady.
  Variable F : Type.
  Variable parse_float : bytes -> option F.
  Variable surrogate : bytes.
  Variable doc : bytes.
  Hypothesis Hok : ~ misspelled doc.
  Notation read_value := (read_value F parse_float surrogate).
  Notation read_object := (read_object F parse_float surrogate).
  Notation read_pairs := (read_pairs F parse_float surrogate).
  Notation read_pair := (read_pair F parse_float surrogate).
  Notation read_array := (read_array F parse_float surrogate).
  Notation read_elems := (read_elems F parse_float surrogate).
  Notation read_loop := (read_loop F parse_float surrogate).

  Definition fits (ps : pst) : Prop := match ps with Live s => outside doc s | Dead => True | Lost => False end.
  Definition live (ps : pst) : Prop := exists s, ps = Live s /\ outside doc s.
  Definition pw {A} (p : jprog A) (ps : pst) : Prop := exists a ps', run_pure p ps = (Some a, ps') /\ fits ps'.

  Lemma live_fits : forall ps, live ps -> fits ps.
  Proof. intros ps [s [-> H]]. exact H. Qed.
  Lemma pw_ret : forall A (a : A) ps, fits ps -> pw (JRet a) ps.
  Proof. intros A a ps H. exists a, ps. auto. Qed.
  Lemma pw_bind : forall A B (p : jprog A) (f : A -> jprog B) ps, pw p ps ->
    (forall a ps', fits ps' -> pw (f a) ps') -> pw (jbind p f) ps.
  Proof.
    intros A B p f ps [a [ps' [E Hf]]] Hk. unfold pw. rewrite run_pure_bind, E. apply Hk. assumption.
  Qed.
  Lemma pw_rbind : forall A B (p : jprog (res A)) (f : A -> jprog (res B)) ps, pw p ps ->
    (forall a ps', fits ps' -> pw (f a) ps') -> pw (jrbind p f) ps.
  Proof.
    intros A B p f ps Hp Hk. apply pw_bind; [assumption|]. intros [a|e| |] ps' Hf; [apply Hk; assumption|..]; apply pw_ret; assumption.
  Qed.
  (** A token character: after success the input is live. *)
  Lemma pw_tok : forall A ch (k : bool -> jprog A) ps, ch <> 34%N -> is_lower ch = false -> fits ps ->
    (forall ps', live ps' -> pw (k true) ps') -> (forall ps', fits ps' -> (live ps -> live ps') -> pw (k false) ps') ->
    pw (JTok ch k) ps.
  Proof.
    intros A ch k ps Hch Hl Hf Ht Hn. unfold pw. cbn [run_pure]. destruct ps as [s| |]; [| |contradiction].
    - pose proof (outside_skip_ws doc s Hf) as H1. destruct (skip_ws s) as [|c t].
      + apply (Hn (Live [])); [exact H1|]. intros _. exists []. auto.
      + destruct (N.eqb_spec c ch).
        * subst. apply (Ht (Live t)). exists t. split; [reflexivity|]. apply (outside_char doc ch); assumption.
        * apply (Hn (Live (c :: t))); [exact H1|]. intros _. exists (c :: t). auto.
    - rewrite Hl. apply Hn; [exact I|]. intros [s [X _]]. discriminate X.
  Qed.
  Lemma pw_skip : forall A (k : jprog A) ps, fits ps -> (forall ps', fits ps' -> pw k ps') -> pw (JSkip k) ps.
  Proof.
    intros A k ps Hf Hk. unfold pw. cbn [run_pure]. destruct ps as [s| |]; [| |contradiction]; apply Hk; [|exact I].
    apply outside_skip_ws. assumption.
  Qed.
  Lemma pw_string : forall ps, live ps -> pw (read_string surrogate) ps.
  Proof.
    intros ps [s [-> H]]. unfold pw, read_string. cbn [run_pure]. pose proof (outside_skip_ws doc s H) as H1.
    destruct (skip_ws s) as [|c t]; [eexists; eexists; split; [reflexivity|exact H1]|].
    destruct (N.eqb_spec c 34); [|eexists; eexists; split; [reflexivity|exact H1]]. subst c.
    destruct (str_span t) as [[a b]|] eqn:E; [|eexists; eexists; split; [reflexivity|exact I]].
    eexists; eexists; split; [reflexivity|]. apply (outside_str doc t a); assumption.
  Qed.
  Lemma pw_literal : forall lit v e s c t u, In lit [bs "null"; bs "true"; bs "false"] -> outside doc s ->
    s = c :: t -> lit = c :: u -> is_ws c = false -> ~ In 34%N lit -> forallb is_lower lit = true ->
    pw (read_literal F lit v e) (Live s).
  Proof.
    intros lit v e s c t u Hin Ho Es El Hws Hq Hlow. unfold pw, read_literal. cbn [run_pure].
    assert (Esk : skip_ws s = s) by (rewrite Es; cbn; rewrite Hws; reflexivity). rewrite Esk.
    destruct (is_prefix lit s) eqn:E1.
    - destruct (is_prefix_spec _ _ E1) as [r Er]. eexists; eexists; split; [reflexivity|]. cbn.
      rewrite Er, skipn_app, skipn_all, Nat.sub_diag. cbn [skipn app]. apply (outside_app doc lit); [assumption|]. congruence.
    - destruct (is_prefix s lit) eqn:E2.
      + destruct (is_prefix_spec _ _ E2) as [r Er].
        assert (E3 : forallb is_lower s = true).
        { rewrite Er, forallb_app in Hlow. apply andb_true_iff in Hlow. tauto. }
        rewrite E3. cbn [andb]. eexists; eexists; split; [reflexivity|exact I].
      + exfalso. apply Hok. exists s, lit. split; [assumption|]. split; [assumption|].
        split; [exists c, t, u; auto|].
        split; intros r X; [rewrite X in E1|rewrite X in E2]; rewrite is_prefix_app in *; discriminate.
  Qed.

  Theorem steady_read : forall fuel,
    (forall ps, live ps -> pw (read_value fuel) ps) /\
    (forall ps, live ps -> pw (read_object fuel) ps) /\
    (forall m ps, fits ps -> pw (read_pairs fuel m) ps) /\
    (forall ps, live ps -> pw (read_pair fuel) ps) /\
    (forall ps, live ps -> pw (read_array fuel) ps) /\
    (forall l ps, fits ps -> pw (read_elems fuel l) ps).
  Proof.
    induction fuel as [|f [Hv [Ho [Hps [Hp [Ha He]]]]]].
    { repeat split; intros; apply pw_ret; try assumption; apply live_fits; assumption. }
    split; [|split; [|split; [|split; [|split]]]].
    - intros ps [s [-> Hs]]. rewrite read_value_S. unfold pw. cbn [run_pure].
      pose proof (outside_skip_ws doc s Hs) as H1.
      destruct (skip_ws s) as [|c t] eqn:Esk.
      { cbn. eexists; eexists; split; [reflexivity|exact H1]. }
      cbn [hd].
      assert (Hlive : live (Live (c :: t))) by (exists (c :: t); auto).
      destruct (N.eqb_spec c 110) as [->|_].
      { eapply (pw_literal lit_null VNil _ _ 110%N t); [left; reflexivity|exact H1|reflexivity|reflexivity|reflexivity| |reflexivity].
        cbn. intuition discriminate. }
      destruct (N.eqb_spec c 116) as [->|_].
      { eapply (pw_literal lit_true _ _ _ 116%N t); [right; left; reflexivity|exact H1|reflexivity|reflexivity|reflexivity| |reflexivity].
        cbn. intuition discriminate. }
      destruct (N.eqb_spec c 102) as [->|_].
      { eapply (pw_literal lit_false _ _ _ 102%N t); [right; right; left; reflexivity|exact H1|reflexivity|reflexivity|reflexivity| |reflexivity].
        cbn. intuition discriminate. }
      destruct (N.eqb c 34).
      { apply (pw_rbind _ _ (read_string surrogate)); [apply pw_string; assumption|]. intros; apply pw_ret; assumption. }
      destruct (N.eqb c 45 || is_digit c).
      { unfold read_number. cbn [run_pure].
        pose proof (outside_num doc _ (outside_skip_ws doc _ H1)) as H2. destruct (num_span (skip_ws (c :: t))) as [a b].
        eexists; eexists; split; [reflexivity|exact H2]. }
      destruct (N.eqb c 123); [apply (Ho _ Hlive)|]. destruct (N.eqb c 91); [apply (Ha _ Hlive)|].
      eexists; eexists; split; [reflexivity|exact H1].
    - intros ps Hl. rewrite read_object_S. apply pw_tok; [discriminate|reflexivity|apply live_fits; assumption| |].
      2:{ intros ps' H _. apply pw_ret. assumption. }
      intros ps1 Hl1. cbn [negb]. apply pw_tok; [discriminate|reflexivity|apply live_fits; assumption| |].
      { intros ps' H. apply pw_ret. apply live_fits. assumption. }
      intros ps2 _ H2. specialize (H2 Hl1). apply pw_rbind; [apply Hp; assumption|]. intros; apply Hps; assumption.
    - intros m ps Hf. rewrite read_pairs_S. apply pw_tok; [discriminate|reflexivity|assumption| |].
      { intros ps' H. apply pw_ret. apply live_fits. assumption. }
      intros ps1 Hf1 _. apply pw_tok; [discriminate|reflexivity|assumption| |].
      { intros ps' H. cbn [negb]. apply pw_rbind; [apply Hp; assumption|]. intros; apply Hps; assumption. }
      intros ps' H _. apply pw_ret. assumption.
    - intros ps Hl. rewrite read_pair_S. apply pw_rbind; [apply pw_string; assumption|]. intros k ps1 Hf1.
      apply pw_tok; [discriminate|reflexivity|assumption| |].
      { intros ps' H. cbn [negb]. apply pw_rbind; [apply Hv; assumption|]. intros; apply pw_ret; assumption. }
      intros ps' H _. apply pw_ret. assumption.
    - intros ps Hl. rewrite read_array_S. apply pw_tok; [discriminate|reflexivity|apply live_fits; assumption| |].
      2:{ intros ps' H _. apply pw_ret. assumption. }
      intros ps1 Hl1. cbn [negb]. apply pw_tok; [discriminate|reflexivity|apply live_fits; assumption| |].
      { intros ps' H. apply pw_ret. apply live_fits. assumption. }
      intros ps2 _ H2. specialize (H2 Hl1). apply pw_bind; [apply Hv; assumption|].
      intros [v|e| |] ps' Hf; [apply He; assumption|..]; apply pw_ret; assumption.
    - intros l ps Hf. rewrite read_elems_S. apply pw_tok; [discriminate|reflexivity|assumption| |].
      { intros ps' H. apply pw_ret. apply live_fits. assumption. }
      intros ps1 Hf1 _. apply pw_tok; [discriminate|reflexivity|assumption| |].
      { intros ps' H. cbn [negb]. apply pw_rbind; [apply Hv; assumption|]. intros; apply He; assumption. }
      intros ps' H _. cbn [negb]. apply pw_skip; [assumption|]. intros; apply pw_ret; assumption.
  Qed.

  Lemma steady_body : forall fuel js ps, live ps -> pw (read_body F parse_float surrogate fuel js) ps.
  Proof.
    intros fuel js ps Hl. destruct (steady_read fuel) as [Hv [_ [_ [Hp _]]]]. unfold read_body.
    destruct (js_obj js); apply pw_bind; try (apply Hv || apply Hp); try assumption; intros; apply pw_ret; assumption.
  Qed.
  Lemma steady_entry : forall fuel js ps, fits ps -> (js_init js = false -> live ps) ->
    exists r js' ps', run_pure (read_entry F parse_float surrogate fuel js) ps = (Some (r, js'), ps') /\ fits ps' /\
      forall e, r = Ok e -> js_init js' = true.
  Proof.
    intros fuel js ps Hf Hi.
    assert (HB : forall ps, live ps -> exists r js' ps', run_pure (read_body F parse_float surrogate fuel js) ps = (Some (r, js'), ps') /\ fits ps' /\
      forall e, r = Ok e -> js_init js' = true).
    { intros p Hl. destruct (steady_read fuel) as [Hv [_ [_ [Hp _]]]]. unfold read_body. destruct (js_obj js).
      - destruct (Hp p Hl) as [a [p' [E Hfp]]]. rewrite run_pure_bind, E.
        destruct a as [[k v]|e| |]; (eexists; eexists; eexists; split; [reflexivity|split; [assumption|intros; reflexivity]]).
      - destruct (Hv p Hl) as [a [p' [E Hfp]]]. rewrite run_pure_bind, E.
        destruct a as [v|e| |]; (eexists; eexists; eexists; split; [reflexivity|split; [assumption|intros; reflexivity]]). }
    pose (P := fun (p : jprog (res (entry F) * jstate)) ps => exists r js' ps', run_pure p ps = (Some (r, js'), ps') /\ fits ps' /\
      forall e, r = Ok e -> js_init js' = true).
    assert (PR : forall e j ps, fits ps -> P (JRet (Err e, j)) ps).
    { intros e j p H. exists (Err e), j, p. split; [reflexivity|]. split; [assumption|discriminate]. }
    assert (PT : forall ch k ps, ch <> 34%N -> is_lower ch = false -> fits ps ->
      (forall ps', live ps' -> P (k true) ps') -> (forall ps', fits ps' -> (live ps -> live ps') -> P (k false) ps') -> P (JTok ch k) ps).
    { intros ch k p Hch Hl Hfp Ht Hn. unfold P. cbn [run_pure]. destruct p as [s| |]; [| |contradiction].
      - pose proof (outside_skip_ws doc s Hfp) as H1. destruct (skip_ws s) as [|c t].
        + apply (Hn (Live [])); [exact H1|]. intros _. exists []. auto.
        + destruct (N.eqb_spec c ch).
          * subst. apply (Ht (Live t)). exists t. split; [reflexivity|]. apply (outside_char doc ch); assumption.
          * apply (Hn (Live (c :: t))); [exact H1|]. intros _. exists (c :: t). auto.
      - rewrite Hl. apply Hn; [exact I|]. intros [s [X _]]. discriminate X. }
    change (P (read_entry F parse_float surrogate fuel js) ps). unfold read_entry.
    change (P (JFill ?p) ?s) with (P p s).
    destruct (js_init js) eqn:Ei.
    - apply PT; [destruct (js_obj js); discriminate|destruct (js_obj js); reflexivity|assumption| |].
      + intros; apply PR, live_fits; assumption.
      + intros p1 Hf1 _. apply PT; [discriminate|reflexivity|assumption| |].
        * intros; apply HB; assumption.
        * intros; apply PR; assumption.
    - apply PT; [destruct (js_obj js); discriminate|destruct (js_obj js); reflexivity|assumption| |].
      + intros p1 Hl1. apply PT; [destruct (js_obj js); discriminate|destruct (js_obj js); reflexivity|apply live_fits; assumption| |].
        * intros; apply PR, live_fits; assumption.
        * intros p2 _ H2. apply HB. apply H2. assumption.
      + intros; apply PR; assumption.
  Qed.
  Theorem steady_loop : forall n fuel js ps, fits ps -> (js_init js = false -> live ps) -> pw (read_loop n fuel js) ps.
  Proof.
    induction n as [|n IH]; intros fuel js ps Hf Hi; [apply pw_ret; assumption|].
    destruct (steady_entry fuel js ps Hf Hi) as [r [js' [ps' [E [Hf' Hi']]]]].
    change (read_loop (Datatypes.S n) fuel js) with
      (jbind (read_entry F parse_float surrogate fuel js) (fun '(r, js') =>
          match r with
          | Ok e => jbind (read_loop n fuel js') (fun '(es, x) => JRet (e :: es, x))
          | Err e => JRet ([], Err e)
          | Panic => JRet ([], Panic)
          | OutOfFuel => JRet ([], OutOfFuel)
          end)).
    unfold pw. rewrite run_pure_bind, E. destruct r as [e|e| |].
    - apply pw_bind; [|intros [es x] p H; apply pw_ret; assumption].
      apply IH; [assumption|]. intros X. rewrite (Hi' e eq_refl) in X. discriminate.
    - apply pw_ret. assumption.
    - apply pw_ret. assumption.
    - apply pw_ret. assumption.
  Qed.
End Steady.
