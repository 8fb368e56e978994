(** The JSON reader terminates: a bound on the recursion and loop counts in terms of the input length. *)
From Verif Require Import Base M_Bufio L_Bufio M_Json S_JsonPure L_JsonBuf.

Lemma run_json_bind : forall A B (p : jprog A) (f : A -> jprog B) st,
  run_json (jbind p f) st = match run_json p st with
                            | Ok (a, st') => run_json (f a) st'
                            | Err e => Err e | Panic => Panic | OutOfFuel => OutOfFuel end.
Proof.
  induction p as [a|k IH|ch k IH|tok k IH|k IH|k IH|k IH|k IH]; intros f st; cbn [jbind run_json]; auto.
  - destruct (j_tok ch st) as [[x st']| | |]; auto.
  - destruct (j_lit tok st) as [[x st']| | |]; auto.
  - destruct (j_peek st) as [[x st']| | |]; auto.
  - destruct (j_skip st) as [[x st']| | |]; auto.
  - destruct (j_str st) as [[x st']| | |]; auto.
  - destruct (j_num st) as [[x st']| | |]; auto.
Qed.

Definition suffix (x y : bytes) : Prop := exists p, y = p ++ x.
Lemma suffix_refl : forall x, suffix x x.
Proof. intros x. exists []. reflexivity. Qed.
Lemma suffix_trans : forall x y z, suffix x y -> suffix y z -> suffix x z.
Proof. intros x y z [p ->] [q ->]. exists (q ++ p). apply app_assoc. Qed.
Lemma suffix_cons : forall c x y, suffix (c :: x) y -> suffix x y.
Proof. intros c x y [p ->]. exists (p ++ [c]). rewrite <- app_assoc. reflexivity. Qed.
Lemma suffix_nil : forall y, suffix [] y.
Proof. intros y. exists y. symmetry. apply app_nil_r. Qed.
Lemma skip_ws_suffix : forall s, suffix (skip_ws s) s.
Proof.
  induction s as [|c s IH]; cbn; [apply suffix_refl|]. destruct (is_ws c); [|apply suffix_refl].
  destruct IH as [p E]. exists (c :: p). cbn. congruence.
Qed.
Lemma num_span_suffix : forall s, suffix (snd (num_span s)) s.
Proof.
  induction s as [|c s IH]; cbn; [apply suffix_refl|]. destruct (is_num_char c); [|apply suffix_refl].
  destruct (num_span s) as [a b]. cbn in *. destruct IH as [p E]. exists (c :: p). cbn. congruence.
Qed.
Lemma str_span_eq : forall n s a b, (length s <= n)%nat -> str_span s = Some (a, b) -> s = a ++ 34%N :: b.
Proof.
  induction n as [|n IH]; intros s a b Hn H; destruct s as [|c s]; cbn in *; try lia; try discriminate.
  destruct (N.eqb_spec c 34) as [->|]; [inversion H; subst; reflexivity|].
  destruct (N.eqb c 92).
  - destruct s as [|d s]; [discriminate|]. destruct (str_span s) as [[x y]|] eqn:E; [|discriminate].
    inversion H; subst. cbn in *. apply IH in E; [|lia]. rewrite E. reflexivity.
  - destruct (str_span s) as [[x y]|] eqn:E; [|discriminate]. inversion H; subst. apply IH in E; [|lia]. rewrite E. reflexivity.
Qed.

Lemma skip_ws_le : forall s, (length (skip_ws s) <= length s)%nat.
Proof. induction s as [|c s IH]; cbn; [lia|]. destruct (is_ws c); cbn; lia. Qed.
Lemma num_span_le : forall s, (length (snd (num_span s)) <= length s)%nat.
Proof.
  induction s as [|c s IH]; cbn; [lia|]. destruct (is_num_char c); [|cbn; lia].
  destruct (num_span s) as [a b]. cbn in *. lia.
Qed.
Lemma str_span_lt : forall n s a b, (length s <= n)%nat -> str_span s = Some (a, b) -> (length b < length s)%nat.
Proof.
  induction n as [|n IH]; intros s a b Hn H; destruct s as [|c s]; cbn in *; try lia; try discriminate.
  destruct (N.eqb c 34); [inversion H; subst; lia|].
  destruct (N.eqb c 92).
  - destruct s as [|d s]; [discriminate|]. destruct (str_span s) as [[x y]|] eqn:E; [|discriminate].
    inversion H; subst. cbn in *. apply IH in E; lia.
  - destruct (str_span s) as [[x y]|] eqn:E; [|discriminate]. inversion H; subst. apply IH in E; lia.
Qed.

Section Wp.
  Variables (cap : nat) (fin : err) (doc : bytes).

  Definition jokd (st : jst) : Prop := jok cap fin st /\ suffix (pending (j_buf st)) doc.

  Definition wp {A} (p : jprog A) (st : jst) (Q : A -> nat -> Prop) : Prop :=
    run_json p st = Panic /\ ends_escaped doc \/
    exists a st', run_json p st = Ok (a, st') /\ jokd st' /\ Q a (length (pending (j_buf st'))).

  Definition len (st : jst) : nat := length (pending (j_buf st)).

  Lemma wp_ret : forall A (a : A) st (Q : A -> nat -> Prop), jokd st -> Q a (len st) -> wp (JRet a) st Q.
  Proof. intros. right. exists a, st. auto. Qed.

  Lemma wp_bind : forall A B (p : jprog A) (f : A -> jprog B) st Q,
    wp p st (fun a n => forall st', jokd st' -> len st' = n -> wp (f a) st' Q) ->
    wp (jbind p f) st Q.
  Proof.
    intros A B p f st Q [H|[a [st' [H1 [H2 H3]]]]]; unfold wp; rewrite run_json_bind.
    - left. destruct H as [H H']. rewrite H. auto.
    - rewrite H1. apply (H3 st' H2 eq_refl).
  Qed.

  Lemma wp_impl : forall A (p : jprog A) st (Q R : A -> nat -> Prop),
    wp p st Q -> (forall a n, Q a n -> R a n) -> wp p st R.
  Proof. intros A p st Q R [H|[a [st' [H1 [H2 H3]]]]] HQ; [left; assumption|right; exists a, st'; auto]. Qed.

  Lemma wp_tok : forall A ch (k : bool -> jprog A) st Q, jokd st ->
    (forall st', jokd st' -> (S (len st') <= len st)%nat -> wp (k true) st' Q) ->
    (forall st', jokd st' -> (len st' <= len st)%nat -> wp (k false) st' Q) ->
    wp (JTok ch k) st Q.
  Proof.
    intros A ch k st Q [Hj Hsx] Ht Hf. unfold wp. cbn [run_json].
    destruct (j_tok_spec cap fin st ch Hj) as [st' [E1 [E2' E3]]]. rewrite E1.
    assert (E2 : jokd st').
    { split; [assumption|]. rewrite E3. apply suffix_trans with (y := skip_ws (pending (j_buf st)));
        [|eapply suffix_trans; [apply skip_ws_suffix|assumption]].
      destruct (skip_ws (pending (j_buf st))) as [|c t]; [apply suffix_refl|].
      destruct (N.eqb c ch); [apply suffix_cons with c|]; apply suffix_refl. }
    pose proof (skip_ws_le (pending (j_buf st))) as Hle.
    destruct (skip_ws (pending (j_buf st))) as [|c t].
    - apply (Hf st' E2). unfold len. rewrite E3. cbn. lia.
    - destruct (N.eqb c ch).
      + apply (Ht st' E2). unfold len. rewrite E3. cbn in Hle. lia.
      + apply (Hf st' E2). unfold len. rewrite E3. lia.
  Qed.

  Lemma wp_lit : forall A tok (k : bool -> jprog A) st Q, jokd st -> (length tok <= 16)%nat -> tok <> [] ->
    (forall x st', jokd st' -> (len st' <= len st)%nat -> wp (k x) st' Q) -> wp (JLit tok k) st Q.
  Proof.
    intros A tok k st Q [Hj Hsx] H1 H2 Hk. unfold wp. cbn [run_json].
    destruct (j_lit_spec cap fin st tok Hj H1 H2) as [st' [E1 [E2' [_ [x E4]]]]]. rewrite E1.
    assert (E2 : jokd st').
    { split; [assumption|]. apply suffix_trans with (y := skip_ws (pending (j_buf st)));
        [exists x; assumption|eapply suffix_trans; [apply skip_ws_suffix|assumption]]. }
    apply (Hk _ st' E2). unfold len. pose proof (skip_ws_le (pending (j_buf st))) as Hle.
    rewrite E4, app_length in Hle. lia.
  Qed.

  Lemma wp_peek : forall A (k : N -> jprog A) st Q, jokd st ->
    (forall x st', jokd st' -> (len st' <= len st)%nat -> wp (k x) st' Q) -> wp (JPeek k) st Q.
  Proof.
    intros A k st Q [Hj Hsx] Hk. unfold wp. cbn [run_json].
    destruct (j_peek_spec cap fin st Hj) as [st' [E1 [E2' E3]]]. rewrite E1.
    assert (E2 : jokd st').
    { split; [assumption|]. rewrite E3. eapply suffix_trans; [apply skip_ws_suffix|assumption]. }
    apply (Hk _ st' E2). unfold len. rewrite E3. apply skip_ws_le.
  Qed.

  Lemma wp_skip : forall A (k : jprog A) st Q, jokd st ->
    (forall st', jokd st' -> (len st' <= len st)%nat -> wp k st' Q) -> wp (JSkip k) st Q.
  Proof.
    intros A k st Q [Hj Hsx] Hk. unfold wp. cbn [run_json].
    destruct (j_skip_spec cap fin st Hj) as [st' [E1 [E2' E3]]]. rewrite E1.
    assert (E2 : jokd st').
    { split; [assumption|]. rewrite E3. eapply suffix_trans; [apply skip_ws_suffix|assumption]. }
    apply (Hk st' E2). unfold len. rewrite E3. apply skip_ws_le.
  Qed.

  Lemma wp_fill : forall A (k : jprog A) st Q, jokd st ->
    (forall st', jokd st' -> (len st' <= len st)%nat -> wp k st' Q) -> wp (JFill k) st Q.
  Proof.
    intros A k st Q [Hj Hsx] Hk. unfold wp. cbn [run_json].
    destruct (j_fill_spec cap fin st Hj) as [E2' E3].
    assert (E2 : jokd (j_fill st)) by (split; [assumption|rewrite E3; assumption]). apply (Hk _ E2). unfold len. rewrite E3. lia.
  Qed.

  Lemma wp_num : forall A (k : bytes -> jprog A) st Q, jokd st ->
    (forall x st', jokd st' -> (len st' <= len st)%nat -> wp (k x) st' Q) -> wp (JNum k) st Q.
  Proof.
    intros A k st Q [Hj Hsx] Hk. unfold wp. cbn [run_json].
    destruct (j_num_spec cap fin st Hj) as [st' [E1 [E2' E3]]]. rewrite E1.
    assert (E2 : jokd st').
    { split; [assumption|]. rewrite E3. eapply suffix_trans; [apply num_span_suffix|].
      eapply suffix_trans; [apply skip_ws_suffix|assumption]. }
    apply (Hk _ st' E2). unfold len. rewrite E3.
    pose proof (skip_ws_le (pending (j_buf st))). pose proof (num_span_le (skip_ws (pending (j_buf st)))). lia.
  Qed.

  Lemma wp_str : forall A (k : bytes + err -> jprog A) st Q, jokd st ->
    (forall x st', jokd st' -> (S (len st') <= len st)%nat -> wp (k (inl x)) st' Q) ->
    (forall e st', jokd st' -> is_eof_text e <> true -> (len st' <= len st)%nat -> wp (k (inr e)) st' Q) -> wp (JStr k) st Q.
  Proof.
    intros A k st Q [Hj Hsx] Hk He. unfold wp. cbn [run_json].
    pose proof (j_str_spec cap fin st Hj) as HS.
    pose proof (skip_ws_le (pending (j_buf st))) as Hle.
    assert (Hsx1 : suffix (skip_ws (pending (j_buf st))) doc) by (eapply suffix_trans; [apply skip_ws_suffix|assumption]).
    destruct (skip_ws (pending (j_buf st))) as [|c t].
    - destruct HS as [st' [E1 [E2 E3]]]. rewrite E1. apply (He _ st');
        [split; [assumption|rewrite E3; apply suffix_nil]|discriminate|]. unfold len. rewrite E3. cbn. lia.
    - cbn [length] in Hle. destruct (N.eqb c 34).
      + destruct (str_span t) as [[a b]|] eqn:Es.
        * destruct HS as [st' [E1 [E2 E3]]]. rewrite E1. apply (Hk _ st').
          -- split; [assumption|]. rewrite E3. apply suffix_trans with (y := c :: t); [|assumption].
             apply (str_span_eq (length t) t a b (le_n _)) in Es. exists (c :: a ++ [34%N]).
             rewrite Es. cbn. rewrite <- app_assoc. reflexivity.
          -- unfold len. rewrite E3. apply (str_span_lt (length t) t a b (le_n _)) in Es. lia.
        * destruct HS as [[HS [pre [d HS2]]]|[st' [E1 [E2 E3]]]].
          -- left. rewrite HS. split; [reflexivity|]. destruct Hsx1 as [q Hq]. exists (q ++ c :: pre), d.
             rewrite Hq, HS2, <- app_assoc. reflexivity.
          -- rewrite E1. apply (He _ st'); [split; [assumption|rewrite E3; apply suffix_nil]|discriminate|].
             unfold len. rewrite E3. cbn. lia.
      + destruct HS as [st' [E1 [E2 E3]]]. rewrite E1. apply (He _ st');
          [split; [assumption|rewrite E3; assumption]|discriminate|]. unfold len. rewrite E3. cbn. lia.
  Qed.
End Wp.

Section Total.
  Variable F : Type.
  Variable parse_float : bytes -> option F.
  Variable surrogate : bytes.
  Variables (cap : nat) (fin : err) (doc : bytes).
  Notation wp := (wp cap fin doc).
  Notation jok := (jokd cap fin doc).
  Notation read_value := (read_value F parse_float surrogate).
  Notation read_object := (read_object F parse_float surrogate).
  Notation read_pairs := (read_pairs F parse_float surrogate).
  Notation read_pair := (read_pair F parse_float surrogate).
  Notation read_array := (read_array F parse_float surrogate).
  Notation read_elems := (read_elems F parse_float surrogate).

  (** A finished call: a value or an error, and no more input than before. *)
  Definition fine {A} (m : nat) (r : res A) (n : nat) : Prop :=
    (n <= m)%nat /\ match r with Ok _ => True | Err e => is_eof_text e <> true | _ => False end.

  Lemma fine_weaken : forall A m m' (r : res A) n, fine m r n -> (m <= m')%nat -> fine m' r n.
  Proof. unfold fine. intros. split; [lia|tauto]. Qed.

  Lemma wp_rbind : forall A B (p : jprog (res A)) (f : A -> jprog (res B)) st m M,
    wp p st (fine m) -> (m <= M)%nat ->
    (forall a st', jok st' -> (len st' <= m)%nat -> wp (f a) st' (fine M)) ->
    wp (jrbind p f) st (fine M).
  Proof.
    intros A B p f st m M Hp Hm Hf. unfold jrbind. apply wp_bind.
    eapply wp_impl; [exact Hp|]. intros a n [Hn Ha] st' Hj Hl. subst n.
    destruct a as [a|e| |]; [apply Hf; auto|apply wp_ret; [assumption|split; [lia|auto]]|contradiction|contradiction].
  Qed.

  Lemma read_string_fine : forall st, jok st ->
    wp (read_string surrogate) st (fun r n => fine (len st) r n /\ match r with Ok _ => (S n <= len st)%nat | _ => True end).
  Proof.
    intros st Hj. unfold read_string. apply wp_str; [assumption| |].
    - intros x st' Hj' Hl. apply wp_ret; [assumption|]. split; [split; [lia|exact I]|assumption].
    - intros e st' Hj' He Hl. apply wp_ret; [assumption|]. split; [|exact I]. split; assumption.
  Qed.

  Lemma convert_number_fine : forall t m n, (n <= m)%nat -> fine m (convert_number F parse_float t) n.
  Proof.
    intros t m n H. split; [assumption|]. unfold convert_number. destruct t; [discriminate|].
    destruct (existsb is_float_char (n0 :: t)).
    - destruct (parse_float (n0 :: t)); [exact I|discriminate].
    - destruct (M_Decimal.parse_int64 (n0 :: t)); [exact I|discriminate].
  Qed.

  Lemma literal_fine : forall st tok v e, jok st -> (length tok <= 16)%nat -> tok <> [] -> is_eof_text e <> true ->
    wp (read_literal F tok v e) st (fine (len st)).
  Proof.
    intros st tok v e Hj H1 H2 He. unfold read_literal. apply wp_lit; [assumption|assumption|assumption|].
    intros x st' Hj' Hl. apply wp_ret; [assumption|]. split; [assumption|]. destruct x; [exact I|assumption].
  Qed.

  Theorem read_fine : forall fuel,
    (forall st, jok st -> (3 * len st + 3 <= fuel)%nat -> wp (read_value fuel) st (fine (len st))) /\
    (forall st, jok st -> (3 * len st + 2 <= fuel)%nat -> wp (read_object fuel) st (fine (len st))) /\
    (forall st m, jok st -> (3 * len st + 2 <= fuel)%nat -> wp (read_pairs fuel m) st (fine (len st))) /\
    (forall st, jok st -> (3 * len st + 2 <= fuel)%nat -> wp (read_pair fuel) st (fine (len st))) /\
    (forall st, jok st -> (3 * len st + 2 <= fuel)%nat -> wp (read_array fuel) st (fine (len st))) /\
    (forall st l, jok st -> (3 * len st + 2 <= fuel)%nat -> wp (read_elems fuel l) st (fine (len st))).
  Proof.
    induction fuel as [|f [IHv [IHo [IHps [IHp [IHa IHe]]]]]].
    { repeat split; intros; lia. }
    split; [|split; [|split; [|split; [|split]]]].
    - intros st Hj Hf. cbn [M_Json.read_value]. apply wp_peek; [assumption|]. intros c st1 Hj1 Hl1.
      destruct (N.eqb c 110).
      { eapply wp_impl; [apply literal_fine; [assumption|cbn; lia|discriminate|discriminate]|]. intros; eapply fine_weaken; eauto. }
      destruct (N.eqb c 116).
      { eapply wp_impl; [apply literal_fine; [assumption|cbn; lia|discriminate|discriminate]|]. intros; eapply fine_weaken; eauto. }
      destruct (N.eqb c 102).
      { eapply wp_impl; [apply literal_fine; [assumption|cbn; lia|discriminate|discriminate]|]. intros; eapply fine_weaken; eauto. }
      destruct (N.eqb c 34).
      { eapply wp_rbind with (m := len st1).
        - eapply wp_impl; [apply read_string_fine; assumption|]. intros a n [H _]. exact H.
        - assumption.
        - intros a st2 Hj2 Hl2. apply wp_ret; [assumption|]. split; [lia|exact I]. }
      destruct (N.eqb c 45 || M_Decimal.is_digit c).
      { unfold read_number. apply wp_num; [assumption|]. intros x st2 Hj2 Hl2. apply wp_ret; [assumption|].
        apply convert_number_fine. lia. }
      destruct (N.eqb c 123).
      { eapply wp_impl; [apply IHo; [assumption|lia]|]. intros; eapply fine_weaken; eauto. }
      destruct (N.eqb c 91).
      { eapply wp_impl; [apply IHa; [assumption|lia]|]. intros; eapply fine_weaken; eauto. }
      apply wp_ret; [assumption|]. split; [assumption|exact I].
    - intros st Hj Hf. cbn [M_Json.read_object].
      apply wp_tok; [assumption| |]; intros st1 Hj1 Hl1; cbn [negb];
        [|apply wp_ret; [assumption|split; [assumption|discriminate]]].
      apply wp_tok; [assumption| |]; intros st2 Hj2 Hl2.
      { apply wp_ret; [assumption|split; [lia|exact I]]. }
      apply wp_rbind with (m := len st2); [apply IHp; [assumption|lia]|lia|].
      intros kv st3 Hj3 Hl3. eapply wp_impl; [apply IHps; [assumption|lia]|]. intros; eapply fine_weaken; [eauto|lia].
    - intros st m Hj Hf. cbn [M_Json.read_pairs].
      apply wp_tok; [assumption| |]; intros st1 Hj1 Hl1.
      { apply wp_ret; [assumption|split; [lia|exact I]]. }
      apply wp_tok; [assumption| |]; intros st2 Hj2 Hl2; cbn [negb];
        [|apply wp_ret; [assumption|split; [lia|discriminate]]].
      apply wp_rbind with (m := len st2); [apply IHp; [assumption|lia]|lia|].
      intros kv st3 Hj3 Hl3. eapply wp_impl; [apply IHps; [assumption|lia]|]. intros; eapply fine_weaken; [eauto|lia].
    - intros st Hj Hf. cbn [M_Json.read_pair]. unfold jrbind at 1. apply wp_bind.
      eapply wp_impl; [apply read_string_fine; assumption|]. intros a n [[Hn Ha] Hs] st1 Hj1 Hl1. subst n.
      destruct a as [key|e| |]; [|apply wp_ret; [assumption|split; assumption]|contradiction|contradiction].
      apply wp_tok; [assumption| |]; intros st2 Hj2 Hl2; cbn [negb];
        [|apply wp_ret; [assumption|split; [lia|discriminate]]].
      apply wp_rbind with (m := len st2); [apply IHv; [assumption|lia]|lia|].
      intros v st3 Hj3 Hl3. apply wp_ret; [assumption|split; [lia|exact I]].
    - intros st Hj Hf. cbn [M_Json.read_array].
      apply wp_tok; [assumption| |]; intros st1 Hj1 Hl1; cbn [negb];
        [|apply wp_ret; [assumption|split; [assumption|discriminate]]].
      apply wp_tok; [assumption| |]; intros st2 Hj2 Hl2.
      { apply wp_ret; [assumption|split; [lia|exact I]]. }
      apply wp_bind. eapply wp_impl; [apply IHv; [assumption|lia]|].
      intros a n [Hn Ha] st3 Hj3 Hl3. subst n.
      destruct a as [v|e| |]; [|apply wp_ret; [assumption|split; [lia|exact I]]|contradiction|contradiction].
      eapply wp_impl; [apply IHe; [assumption|lia]|]. intros; eapply fine_weaken; [eauto|lia].
    - intros st l Hj Hf. cbn [M_Json.read_elems].
      apply wp_tok; [assumption| |]; intros st1 Hj1 Hl1.
      { apply wp_ret; [assumption|split; [lia|exact I]]. }
      apply wp_tok; [assumption| |]; intros st2 Hj2 Hl2; cbn [negb].
      + apply wp_rbind with (m := len st2); [apply IHv; [assumption|lia]|lia|].
        intros v st3 Hj3 Hl3. eapply wp_impl; [apply IHe; [assumption|lia]|]. intros; eapply fine_weaken; [eauto|lia].
      + apply wp_skip; [assumption|]. intros st3 Hj3 Hl3. apply wp_ret; [assumption|split; [lia|discriminate]].
  Qed.

  (** ReadEntry: a finished result; an entry costs at least one byte of input, and io.EOF is only
      returned after the closing bracket was read. *)
  Lemma read_body_fine : forall fuel js st, jok st -> (3 * len st + 3 <= fuel)%nat ->
    wp (read_body F parse_float surrogate fuel js) st (fun r n => fine (len st) (fst r) n).
  Proof.
    intros fuel js st Hj Hf. unfold read_body. destruct (read_fine fuel) as [Hv [_ [_ [Hp _]]]].
    destruct (js_obj js); apply wp_bind.
    - eapply wp_impl; [apply Hp; [assumption|lia]|]. intros a n [Hn Ha] st' Hj' Hl. subst n.
      apply wp_ret; [assumption|]. destruct a as [[k v]|e| |]; split; cbn; auto.
    - eapply wp_impl; [apply Hv; [assumption|lia]|]. intros a n [Hn Ha] st' Hj' Hl. subst n.
      apply wp_ret; [assumption|]. destruct a as [v|e| |]; split; cbn; auto.
  Qed.

  Definition fine_entry (m : nat) (r : res (entry F)) (n : nat) : Prop :=
    match r with
    | Ok _ => (S n <= m)%nat
    | Err _ => (n <= m)%nat
    | _ => False
    end.

  Lemma read_entry_fine : forall fuel js st, jok st -> (3 * len st + 3 <= fuel)%nat ->
    wp (read_entry F parse_float surrogate fuel js) st (fun r n => fine_entry (len st) (fst r) n).
  Proof.
    intros fuel js st Hj Hf. unfold read_entry. apply wp_fill; [assumption|]. intros st0 Hj0 Hl0.
    assert (Hbody : forall st', jok st' -> (S (len st') <= len st)%nat ->
       wp (read_body F parse_float surrogate fuel js) st' (fun r n => fine_entry (len st) (fst r) n)).
    { intros st' Hj' Hl'. eapply wp_impl; [apply read_body_fine; [assumption|lia]|].
      intros [r js'] n [Hn Hr]. cbn [fst] in *. destruct r; cbn; try lia; contradiction. }
    destruct (js_init js).
    - apply wp_tok; [assumption| |]; intros st1 Hj1 Hl1; [apply wp_ret; [assumption|cbn; lia]|].
      apply wp_tok; [assumption| |]; intros st2 Hj2 Hl2; [apply Hbody; [assumption|lia]|].
      apply wp_ret; [assumption|cbn; lia].
    - apply wp_tok; [assumption| |]; intros st1 Hj1 Hl1; [|apply wp_ret; [assumption|cbn; lia]].
      apply wp_tok; [assumption| |]; intros st2 Hj2 Hl2; [apply wp_ret; [assumption|cbn; lia]|].
      apply Hbody; [assumption|lia].
  Qed.

  Lemma read_loop_fine : forall n fuel js st, jok st -> (3 * len st + 3 <= fuel)%nat -> (len st < n)%nat ->
    wp (read_loop F parse_float surrogate n fuel js) st
       (fun r m => (length (fst r) + m <= len st)%nat /\ exists e, snd r = Err e).
  Proof.
    induction n as [|n IH]; intros fuel js st Hj Hf Hn; [lia|]. cbn [read_loop].
    apply wp_bind. eapply wp_impl; [apply read_entry_fine; assumption|].
    intros [r js'] m Hr st' Hj' Hl. subst m. cbn [fst] in Hr.
    destruct r as [e|e| |]; cbn in Hr; try contradiction.
    - apply wp_bind. eapply wp_impl; [apply IH; [assumption|lia|lia]|].
      intros [es x] m [Hm Hx] st2 Hj2 Hl2. subst m. apply wp_ret; [assumption|]. cbn in *. split; [lia|assumption].
    - apply wp_ret; [assumption|]. cbn. split; [lia|eauto].
  Qed.
End Total.
