From Verif Require Import Base M_Strings M_Stepfile S_Stepfile.

Lemma strip_prefix_spec : forall p s r, strip_prefix p s = Some r <-> s = p ++ r.
Proof.
  induction p as [|x p IH]; intros s r; simpl.
  - split; [intro H; injection H as ->; reflexivity|intros ->; reflexivity].
  - destruct s as [|y s]; [split; discriminate|].
    destruct (N.eqb_spec x y) as [->|Hn].
    + rewrite IH. split; [intros ->; reflexivity|intro H; injection H; auto].
    + split; [discriminate|]. intro H. injection H as H1 H2. congruence.
Qed.

Lemma strip_prefix_none : forall p s, strip_prefix p s = None <-> forall r, s <> p ++ r.
Proof.
  intros p s. destruct (strip_prefix p s) as [r|] eqn:E.
  - apply strip_prefix_spec in E. split; [discriminate|]. intro H. exfalso. eapply H; eauto.
  - split; [|reflexivity]. intros _ r Hr. apply strip_prefix_spec in Hr. congruence.
Qed.

(** [cut] finds the first occurrence. *)
Lemma cut_some : forall sep s a r, cut sep s = (a, Some r) ->
  s = a ++ sep ++ r /\ forall i, occurs_at sep s i -> (length a <= i)%nat.
Proof.
  intros sep. induction s as [|c s IH]; intros a r H; cbn [cut] in H.
  - destruct (strip_prefix sep []) as [r'|] eqn:E; [|discriminate].
    injection H as <- <-. apply strip_prefix_spec in E. split; [exact E|intros; simpl; lia].
  - destruct (strip_prefix sep (c :: s)) as [r'|] eqn:E.
    + injection H as <- <-. apply strip_prefix_spec in E. split; [exact E|intros; simpl; lia].
    + destruct (cut sep s) as [a' r'] eqn:E2. injection H as <- ->.
      destruct (IH _ _ eq_refl) as [H1 H2]. split; [simpl; congruence|].
      intros i [p [q [Hp Hl]]]. destruct p as [|y p].
      * exfalso. apply strip_prefix_none with (r := q) in E. apply E. exact Hp.
      * simpl in Hp, Hl. injection Hp as <- Hp. simpl. subst i. apply le_n_S. apply H2. exists p, q. auto.
Qed.

Lemma cut_none : forall sep s a, cut sep s = (a, None) ->
  a = s /\ forall i, ~ occurs_at sep s i.
Proof.
  intros sep. induction s as [|c s IH]; intros a H; cbn [cut] in H.
  - destruct (strip_prefix sep []) as [r'|] eqn:E; [discriminate|].
    injection H as <-. split; [reflexivity|]. intros i [p [q [Hp Hl]]].
    destruct p; [|discriminate]. apply strip_prefix_none with (r := q) in E. auto.
  - destruct (strip_prefix sep (c :: s)) as [r'|] eqn:E; [discriminate|].
    destruct (cut sep s) as [a' r'] eqn:E2. injection H as <- ->.
    destruct (IH _ eq_refl) as [H1 H2]. split; [congruence|].
    intros i [p [q [Hp Hl]]]. destruct p as [|y p].
    + apply strip_prefix_none with (r := q) in E. auto.
    + simpl in Hp, Hl. injection Hp as <- Hp. apply (H2 (length p)). exists p, q. auto.
Qed.

Lemma app_length_inj : forall A (a b c d : list A), a ++ b = c ++ d -> length a = length c -> a = c /\ b = d.
Proof.
  induction a as [|x a IH]; intros b c d H Hl; destruct c as [|y c]; try discriminate; [auto|].
  simpl in *. injection H as -> H. destruct (IH _ _ _ H) as [-> ->]; [lia|auto].
Qed.

(** First occurrence in [x ++ sep ++ r] is right after [x]. *)
Lemma occurs_app : forall sep x r i, occurs_at sep (x ++ sep ++ r) i -> (i < length x)%nat ->
  occurs_at sep (x ++ sep) i.
Proof.
  intros sep x r i [a [b [H Hl]]] Hi.
  exists a, (firstn (length x - i) b). split; [|assumption].
  assert (length b = length x - i + length r)%nat.
  { apply (f_equal (@length N)) in H. rewrite !app_length in H. lia. }
  rewrite <- (firstn_skipn (length x - i) b) in H.
  rewrite !app_assoc in H. apply app_length_inj in H.
  - destruct H as [H _]. rewrite <- !app_assoc in H. exact H.
  - rewrite !app_length, firstn_length. lia.
Qed.

Lemma cut_join : forall sep x r, sep <> [] -> (forall i, occurs_at sep (x ++ sep) i -> (length x <= i)%nat) ->
  cut sep (x ++ sep ++ r) = (x, Some r).
Proof.
  intros sep x r Hne H.
  destruct (cut sep (x ++ sep ++ r)) as [a [r'|]] eqn:E.
  - apply cut_some in E. destruct E as [E1 E2].
    assert (length a = length x).
    { assert (length a <= length x)%nat by (apply E2; exists x, r; auto).
      destruct (Nat.lt_ge_cases (length a) (length x)); [|lia].
      assert (length x <= length a)%nat; [|lia]. apply H.
      apply occurs_app with (r := r); [exists a, r'; auto|assumption]. }
    apply app_length_inj in E1; [|lia]. destruct E1 as [-> E1]. apply app_inv_head in E1. congruence.
  - apply cut_none in E. destruct E as [_ E]. exfalso. apply (E (length x)). exists x, r. auto.
Qed.

Lemma split_fuel_joined : forall sep, sep <> [] -> forall fuel s, (length s < fuel)%nat ->
  joined sep (split_fuel fuel sep s) = s /\ separable sep (split_fuel fuel sep s).
Proof.
  intros sep Hne. induction fuel as [|fuel IH]; intros s Hf; [lia|].
  cbn [split_fuel]. destruct (cut sep s) as [a [r|]] eqn:E.
  - apply cut_some in E. destruct E as [E1 E2].
    assert (Hl : (length r < fuel)%nat).
    { rewrite E1, !app_length in Hf. destruct sep; [congruence|]. simpl in Hf. lia. }
    destruct (IH r Hl) as [I1 I2].
    destruct (split_fuel fuel sep r) as [|y ys] eqn:Es; [destruct I2|].
    split; [simpl in *; rewrite I1; symmetry; exact E1|].
    cbn [separable]. split; [|exact I2].
    intros i Hi. apply E2. rewrite E1. destruct Hi as [p [q [Hp Hq]]].
    exists p, (q ++ r). split; [|assumption]. rewrite app_assoc, Hp, <- !app_assoc. reflexivity.
  - apply cut_none in E. destruct E as [-> E]. split; [reflexivity|exact E].
Qed.

Lemma split_of_joined : forall sep, sep <> [] -> forall xs fuel, separable sep xs ->
  (length (joined sep xs) < fuel)%nat -> split_fuel fuel sep (joined sep xs) = xs.
Proof.
  intros sep Hne. induction xs as [|x xs IH]; intros fuel Hs Hf; [destruct Hs|].
  destruct fuel as [|fuel]; [lia|].
  destruct xs as [|y ys].
  - cbn [joined split_fuel]. simpl in Hs. destruct (cut sep x) as [a [r|]] eqn:E.
    + apply cut_some in E. destruct E as [E _]. exfalso. apply (Hs (length a)). exists a, r. auto.
    + apply cut_none in E. destruct E as [-> _]. reflexivity.
  - change (joined sep (x :: y :: ys)) with (x ++ sep ++ joined sep (y :: ys)) in *.
    destruct Hs as [H1 H2]. cbn [split_fuel]. rewrite cut_join by assumption.
    rewrite IH; [reflexivity|assumption|].
    rewrite !app_length in Hf. assert (0 < length sep)%nat by (destruct sep; [congruence|simpl; lia]). lia.
Qed.

Lemma split_joined_iff : forall sep xs, sep <> [] ->
  (split sep (joined sep xs) = xs <-> separable sep xs).
Proof.
  intros sep xs Hne. split.
  - intro H. rewrite <- H. apply split_fuel_joined; [assumption|lia].
  - intro H. apply split_of_joined; auto.
Qed.

Lemma joined_split : forall sep s, sep <> [] -> joined sep (split sep s) = s.
Proof. intros. apply split_fuel_joined; [assumption|lia]. Qed.

(** Scripts that are text. *)
Definition script_text (s : script) : option bytes :=
  match s with
  | ScReader d None => Some d
  | ScReader _ (Some _) => None
  | ScString v => Some v
  | ScBytes v => Some v
  | ScOther => None
  end.

Lemma write_script_ok : forall s x out, script_text s = Some x ->
  write_step_script s (mkSink out []) = (None, mkSink (out ++ x) []).
Proof.
  intros [d [e|]|v|v|] x out H; try discriminate; injection H as <-; try reflexivity.
  destruct d; simpl; [rewrite app_nil_r|]; reflexivity.
Qed.

Lemma step_write_ok : forall steps xs out, map script_text steps = map Some xs ->
  step_write steps (mkSink out []) = (None, mkSink (out ++ joined step_sep xs) []).
Proof.
  induction steps as [|s steps IH]; intros xs out H; destruct xs as [|x xs]; try discriminate.
  - simpl. rewrite app_nil_r. reflexivity.
  - simpl in H. injection H as H1 H2. cbn [step_write]. rewrite (write_script_ok s x out H1).
    destruct steps as [|s' steps]; destruct xs as [|x' xs]; try discriminate.
    + reflexivity.
    + unfold sink_write. simpl snd. rewrite (IH (x' :: xs) _ H2).
      do 2 f_equal. change (joined step_sep (x :: x' :: xs)) with (x ++ step_sep ++ joined step_sep (x' :: xs)).
      rewrite <- !app_assoc. reflexivity.
Qed.
