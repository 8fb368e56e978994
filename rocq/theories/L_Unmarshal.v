(** json.Unmarshal: total, and right on every JSON text. *)
From Coq Require Import ZArith Lia ZifyN ZifyBool.
From Verif Require Import Base M_Decimal L_Decimal M_Utf8 S_Utf8 L_Utf8 M_Json S_JsonText S_JsonBack M_Unmarshal S_NDJson L_JsonRead L_JsonMarshal.
Ltac Zify.zify_post_hook ::= Z.div_mod_to_equations.

Lemma drop_blank_length : forall s, (length (drop_blank s) <= length s)%nat.
Proof. induction s as [|c s IH]; cbn; [lia|]. destruct (is_ws c); cbn; lia. Qed.
Lemma drop_blank_app : forall w s, blank w -> drop_blank (w ++ s) = drop_blank s.
Proof.
  induction 1 as [|c w H Hw IH]; [reflexivity|]. cbn [app drop_blank].
  replace (is_ws c) with true; [assumption|]. unfold is_ws. destruct H as [->|[->|[->| ->]]]; reflexivity.
Qed.
Lemma drop_blank_all : forall w, blank w -> drop_blank w = [].
Proof. intros w H. rewrite <- (app_nil_r w), drop_blank_app by assumption. reflexivity. Qed.
Lemma drop_blank_stop : forall c s, is_ws c = false -> drop_blank (c :: s) = c :: s.
Proof. intros c s H. cbn. rewrite H. reflexivity. Qed.

Lemma span_digits_length : forall s a b, span_digits s = (a, b) -> length s = (length a + length b)%nat.
Proof.
  induction s as [|c s IH]; intros a b H; cbn in H; [injection H as <- <-; reflexivity|].
  destruct (is_digit c); [|injection H as <- <-; reflexivity].
  destruct (span_digits s) as [a' b'] eqn:E. injection H as <- <-. cbn. rewrite (IH _ _ eq_refl). reflexivity.
Qed.
Lemma scan_number_length : forall s n r, scan_number s = Some (n, r) -> (length r < length s)%nat.
Proof.
  assert (HI : forall s n r, scan_int s = Some (n, r) -> (length r < length s)%nat).
  { intros [|c s] n r H; cbn in H; [discriminate|]. destruct (N.eqb c 48); [injection H as <- <-; cbn; lia|].
    destruct (is_digit c); [|discriminate]. destruct (span_digits s) as [a b] eqn:E. injection H as <- <-.
    apply span_digits_length in E. cbn. lia. }
  assert (HF : forall s n r, scan_frac s = Some (n, r) -> (length r <= length s)%nat).
  { intros [|c s] n r H; cbn in H; [injection H as <- <-; lia|]. destruct (N.eqb c 46); [|injection H as <- <-; lia].
    destruct (span_digits s) as [a b] eqn:E. apply span_digits_length in E. destruct a; [discriminate|].
    injection H as <- <-. cbn in *. lia. }
  assert (HE : forall s n r, scan_exp s = Some (n, r) -> (length r <= length s)%nat).
  { intros [|c s] n r H; cbn in H; [injection H as <- <-; lia|]. destruct (N.eqb c 101 || N.eqb c 69); [|injection H as <- <-; lia].
    assert (X : exists g t, match s with
                               | x :: r => if N.eqb x 43 || N.eqb x 45 then ([x], r) else ([], s)
                               | [] => ([], s)
                               end = (g, t) /\ (length t <= length s)%nat).
    { destruct s as [|x s]; [eexists _, _; split; [reflexivity|lia]|].
      destruct (N.eqb x 43 || N.eqb x 45); eexists _, _; (split; [reflexivity|cbn; lia]). }
    destruct X as [g [t [E1 E2]]]. rewrite E1 in H. destruct (span_digits t) as [a b] eqn:E. apply span_digits_length in E.
    destruct a; [discriminate|]. injection H as <- <-. cbn in *. lia. }
  intros s n r H. unfold scan_number in H.
  assert (X : exists g t, match s with
                 | c :: t => if N.eqb c 45 then ([c], t) else ([], s)
                 | [] => ([], s)
                 end = (g, t) /\ (length t <= length s)%nat).
  { destruct s as [|x s]; [eexists _, _; split; [reflexivity|lia]|].
    destruct (N.eqb x 45); eexists _, _; (split; [reflexivity|cbn; lia]). }
  destruct X as [g [t [E1 E2]]]. rewrite E1 in H.
  destruct (scan_int t) as [[i s1]|] eqn:EI; [|discriminate]. apply HI in EI.
  destruct (scan_frac s1) as [[f s2]|] eqn:EF; [|discriminate]. apply HF in EF.
  destruct (scan_exp s2) as [[e s3]|] eqn:EE; [|discriminate]. apply HE in EE.
  injection H as <- <-. lia.
Qed.
Lemma next_u_length : forall s r t, next_u s = Some (r, t) -> (length t < length s)%nat.
Proof.
  intros s r t H. destruct s as [|x [|y [|a [|b [|c [|d s]]]]]]; cbn [next_u] in H; try discriminate.
  destruct (N.eqb x 92 && N.eqb y 117); [|discriminate]. destruct (hex4 a b c d); [|discriminate]. injection H as _ <-. cbn. lia.
Qed.
Lemma std_string_length : forall n s x r, std_string n s = Some (x, r) -> (length r < length s)%nat.
Proof.
  induction n as [|n IH]; intros s x r H; [discriminate|]. cbn [std_string] in H. destruct s as [|c t]; [discriminate|].
  assert (M : forall a u, match std_string n u with Some (b, r) => Some (a ++ b, r) | None => None end = Some (x, r) -> (length r < length u)%nat).
  { intros a u E. destruct (std_string n u) as [[b r']|] eqn:E1; [|discriminate]. apply IH in E1. injection E as _ <-. assumption. }
  destruct (N.eqb c 34); [injection H as _ <-; cbn; lia|].
  destruct (N.eqb c 92).
  { destruct (next_u (c :: t)) as [[u t1]|] eqn:E1.
    - apply next_u_length in E1. destruct (is_surrogate u); [|apply M in H; lia].
      destruct (next_u t1) as [[u2 t2]|] eqn:E2; [|apply M in H; lia]. apply next_u_length in E2.
      destruct (in_range 55296 56319 u && in_range 56320 57343 u2); apply M in H; lia.
    - destruct t as [|e t]; [discriminate|]. destruct (std_short e); [|discriminate]. apply M in H. cbn in *. lia. }
  destruct (c <? 32)%N; [discriminate|].
  destruct (decode_rune (c :: t)) as [[u k]|] eqn:E1.
  - destruct (decode_some _ _ _ E1) as [_ [Hk _]]. pose proof (encode_length u). apply M in H. rewrite skipn_length in H. cbn [length] in *. lia.
  - apply M in H. cbn. lia.
Qed.

Section Total.
  Variable F : Type.
  Variable parse_float : bytes -> option F.
  Notation std_value := (std_value F parse_float).
  Notation std_rest := (std_rest F parse_float).
  Notation std_pair := (std_pair F parse_float).
  Notation std_prest := (std_prest F parse_float).

  Lemma std_value_S : forall f d s, std_value (Datatypes.S f) d s =
        match s with
        | [] => Err err_json
        | c :: t =>
            if N.eqb c 34 then
              match std_string (length t) t with Some (x, r) => Ok (VStr x, r) | None => Err err_json end
            else if N.eqb c 91 then
              match d with
              | O => Err err_json
              | Datatypes.S d =>
                  match drop_blank t with
                  | [] => Err err_json
                  | x :: r => if N.eqb x 93 then Ok (VArr [], r)
                              else match std_value f d (x :: r) with
                                   | Ok (v, r) => std_rest f d [v] r
                                   | Err e => Err e | Panic => Panic | OutOfFuel => OutOfFuel
                                   end
                  end
              end
            else if N.eqb c 123 then
              match d with
              | O => Err err_json
              | Datatypes.S d =>
                  match drop_blank t with
                  | [] => Err err_json
                  | x :: r => if N.eqb x 125 then Ok (VMap [], r)
                              else match std_pair f d (x :: r) with
                                   | Ok (k, v, r) => std_prest f d (map_set k v []) r
                                   | Err e => Err e | Panic => Panic | OutOfFuel => OutOfFuel
                                   end
                  end
              end
            else if prefixb (bs "null") s then Ok (VNil, skipn 4 s)
            else if prefixb (bs "true") s then Ok (VBool true, skipn 4 s)
            else if prefixb (bs "false") s then Ok (VBool false, skipn 5 s)
            else match scan_number s with
                 | Some (n, r) => match parse_float n with Some x => Ok (VFloat x, r) | None => Err err_json end
                 | None => Err err_json
                 end
        end.
  Proof. reflexivity. Qed.
  Lemma std_rest_S : forall f d acc s, std_rest (Datatypes.S f) d acc s =
        match drop_blank s with
        | [] => Err err_json
        | c :: t =>
            if N.eqb c 93 then Ok (VArr acc, t)
            else if N.eqb c 44 then
              match std_value f d (drop_blank t) with
              | Ok (v, r) => std_rest f d (acc ++ [v]) r
              | Err e => Err e | Panic => Panic | OutOfFuel => OutOfFuel
              end
            else Err err_json
        end.
  Proof. reflexivity. Qed.
  Lemma std_pair_S : forall f d s, std_pair (Datatypes.S f) d s =
        match s with
        | [] => Err err_json
        | c :: t =>
            if negb (N.eqb c 34) then Err err_json else
            match std_string (length t) t with
            | None => Err err_json
            | Some (k, r) =>
                match drop_blank r with
                | [] => Err err_json
                | x :: r =>
                    if negb (N.eqb x 58) then Err err_json else
                    match std_value f d (drop_blank r) with
                    | Ok (v, r) => Ok (k, v, r)
                    | Err e => Err e | Panic => Panic | OutOfFuel => OutOfFuel
                    end
                end
            end
        end.
  Proof. reflexivity. Qed.
  Lemma std_prest_S : forall f d acc s, std_prest (Datatypes.S f) d acc s =
        match drop_blank s with
        | [] => Err err_json
        | c :: t =>
            if N.eqb c 125 then Ok (VMap acc, t)
            else if N.eqb c 44 then
              match std_pair f d (drop_blank t) with
              | Ok (k, v, r) => std_prest f d (map_set k v acc) r
              | Err e => Err e | Panic => Panic | OutOfFuel => OutOfFuel
              end
            else Err err_json
        end.
  Proof. reflexivity. Qed.

  Definition settled {A} (s : bytes) (x : res (A * bytes)) : Prop :=
    match x with Ok (_, r) => (length r < length s)%nat | Err _ => True | _ => False end.
  Lemma prefixb_length : forall p s, prefixb p s = true -> (length p <= length s)%nat.
  Proof. induction p; destruct s; cbn; intros; try lia; try discriminate. apply andb_true_iff in H. destruct H as [_ H]. apply IHp in H. lia. Qed.

  Lemma std_total : forall f,
    (forall d s, (length s < f)%nat -> settled s (std_value f d s)) /\
    (forall d acc s, (length s < f)%nat -> settled s (std_rest f d acc s)) /\
    (forall d s, (length s < f)%nat -> settled s (std_pair f d s)) /\
    (forall d acc s, (length s < f)%nat -> settled s (std_prest f d acc s)).
  Proof.
    induction f as [|f [IHv [IHr [IHp IHq]]]]; [repeat split; intros; lia|]. repeat split.
    - intros d s Hf. rewrite std_value_S. destruct s as [|c t]; [exact I|]. cbn [length] in Hf.
      destruct (N.eqb c 34).
      { destruct (std_string (length t) t) as [[x r]|] eqn:E; [|exact I]. apply std_string_length in E. cbn. lia. }
      destruct (N.eqb c 91).
      { destruct d as [|d]; [exact I|]. pose proof (drop_blank_length t) as Hs. destruct (drop_blank t) as [|x r] eqn:E; [exact I|].
        destruct (N.eqb x 93); [cbn in *; lia|].
        specialize (IHv d (x :: r) ltac:(lia)). destruct (std_value f d (x :: r)) as [[v r1]|e| |]; cbn in IHv; try contradiction; [|exact I].
        specialize (IHr d [v] r1 ltac:(cbn in *; lia)). destruct (std_rest f d [v] r1) as [[v2 r2]|e| |]; cbn in *; auto. lia. }
      destruct (N.eqb c 123).
      { destruct d as [|d]; [exact I|]. pose proof (drop_blank_length t) as Hs. destruct (drop_blank t) as [|x r] eqn:E; [exact I|].
        destruct (N.eqb x 125); [cbn in *; lia|].
        specialize (IHp d (x :: r) ltac:(lia)). destruct (std_pair f d (x :: r)) as [[[k v] r1]|e| |]; cbn in IHp; try contradiction; [|exact I].
        specialize (IHq d (map_set k v []) r1 ltac:(cbn in *; lia)). destruct (std_prest f d (map_set k v []) r1) as [[v2 r2]|e| |]; cbn in *; auto. lia. }
      destruct (prefixb (bs "null") (c :: t)) eqn:P1; [apply prefixb_length in P1; unfold settled; rewrite skipn_length; cbn in *; lia|].
      destruct (prefixb (bs "true") (c :: t)) eqn:P2; [apply prefixb_length in P2; unfold settled; rewrite skipn_length; cbn in *; lia|].
      destruct (prefixb (bs "false") (c :: t)) eqn:P3; [apply prefixb_length in P3; unfold settled; rewrite skipn_length; cbn in *; lia|].
      destruct (scan_number (c :: t)) as [[n r]|] eqn:E; [|exact I]. destruct (parse_float n); [|exact I].
      apply scan_number_length in E. exact E.
    - intros d acc s Hf. rewrite std_rest_S. pose proof (drop_blank_length s) as Hs. destruct (drop_blank s) as [|c t]; [exact I|].
      cbn [length] in Hs. destruct (N.eqb c 93); [cbn; lia|]. destruct (N.eqb c 44); [|exact I].
      pose proof (drop_blank_length t) as Ht. specialize (IHv d (drop_blank t) ltac:(lia)).
      destruct (std_value f d (drop_blank t)) as [[v r1]|e| |]; cbn in IHv; try contradiction; [|exact I].
      specialize (IHr d (acc ++ [v]) r1 ltac:(lia)). destruct (std_rest f d (acc ++ [v]) r1) as [[v2 r2]|e| |]; cbn in *; auto. lia.
    - intros d s Hf. rewrite std_pair_S. destruct s as [|c t]; [exact I|]. cbn [length] in Hf.
      destruct (negb (N.eqb c 34)); [exact I|]. destruct (std_string (length t) t) as [[k r]|] eqn:E; [|exact I]. apply std_string_length in E.
      pose proof (drop_blank_length r) as Hr. destruct (drop_blank r) as [|x r1]; [exact I|]. cbn [length] in Hr.
      destruct (negb (N.eqb x 58)); [exact I|]. pose proof (drop_blank_length r1) as Hr1.
      specialize (IHv d (drop_blank r1) ltac:(lia)).
      destruct (std_value f d (drop_blank r1)) as [[v r2]|e| |]; cbn in IHv; try contradiction; [|exact I]. cbn. lia.
    - intros d acc s Hf. rewrite std_prest_S. pose proof (drop_blank_length s) as Hs. destruct (drop_blank s) as [|c t]; [exact I|].
      cbn [length] in Hs. destruct (N.eqb c 125); [cbn; lia|]. destruct (N.eqb c 44); [|exact I].
      pose proof (drop_blank_length t) as Ht. specialize (IHp d (drop_blank t) ltac:(lia)).
      destruct (std_pair f d (drop_blank t)) as [[[k v] r1]|e| |]; cbn in IHp; try contradiction; [|exact I].
      specialize (IHq d (map_set k v acc) r1 ltac:(lia)). destruct (std_prest f d (map_set k v acc) r1) as [[v2 r2]|e| |]; cbn in *; auto. lia.
  Qed.
  Lemma unmarshal_total : forall d s, unmarshal F parse_float d s <> OutOfFuel /\ unmarshal F parse_float d s <> Panic.
  Proof.
    intros d s. unfold unmarshal. pose proof (drop_blank_length s) as Hs.
    destruct (std_total (Datatypes.S (length s))) as [H _]. specialize (H d (drop_blank s) ltac:(lia)).
    destruct (std_value _ d (drop_blank s)) as [[v r]|e| |]; cbn in H; try contradiction; [|split; discriminate].
    destruct (drop_blank r); split; discriminate.
  Qed.
End Total.

(** Number literals. *)
Definition no_digit (r : bytes) : Prop := match r with c :: _ => is_digit c = false | [] => True end.
Lemma is_digit_true : forall c, (48 <= c <= 57)%N -> is_digit c = true.
Proof. intros c H. unfold is_digit. lia. Qed.
Lemma span_digits_app : forall t r, digits t -> no_digit r -> span_digits (t ++ r) = (t, r).
Proof.
  induction 1 as [|c t H Ht IH]; intros Hr.
  - destruct r as [|c r]; [reflexivity|]. cbn in *. rewrite Hr. reflexivity.
  - cbn. rewrite is_digit_true by assumption. rewrite IH by assumption. reflexivity.
Qed.
(** What may follow a value. *)
Definition ends (r : bytes) : Prop :=
  match r with [] => True | c :: _ => In c [32; 10; 13; 9; 44; 93; 125]%N end.
Lemma ends_no_digit : forall r, ends r -> no_digit r.
Proof. intros [|c r] H; [exact I|]. cbn in H. cbn. decompose [or] H; subst; try reflexivity. contradiction. Qed.
Lemma exp_scan : forall e r, exp_part e -> ends r -> scan_exp (e ++ r) = Some (e, r).
Proof.
  intros e r [->|[x [g [d [-> [Hx [Hg [Hd Hds]]]]]]]] Hr.
  - cbn [app]. destruct r as [|c r]; [reflexivity|]. cbn in Hr. unfold scan_exp.
    decompose [or] Hr; subst; try reflexivity. contradiction.
  - cbn [app]. unfold scan_exp. replace (N.eqb x 101 || N.eqb x 69) with true by (destruct Hx; subst; reflexivity).
    destruct d as [|d0 d]; [contradiction|]. inversion Hds as [|? ? H0 Hds2]; subst.
    destruct Hg as [->|[->| ->]]; cbn [app N.eqb Pos.eqb orb].
    + replace (N.eqb d0 43 || N.eqb d0 45) with false by lia. change (d0 :: d ++ r) with ((d0 :: d) ++ r).
      rewrite span_digits_app by (auto using ends_no_digit). reflexivity.
    + change (d0 :: d ++ r) with ((d0 :: d) ++ r). rewrite span_digits_app by (auto using ends_no_digit). reflexivity.
    + change (d0 :: d ++ r) with ((d0 :: d) ++ r). rewrite span_digits_app by (auto using ends_no_digit). reflexivity.
Qed.
Lemma exp_no_digit : forall e r, exp_part e -> ends r -> no_digit (e ++ r) /\ (forall c t, e ++ r = c :: t -> c <> 46%N).
Proof.
  intros e r [->|[x [g [d [-> [Hx _]]]]]] Hr; cbn [app].
  - split; [apply ends_no_digit; assumption|]. intros c t ->. cbn in Hr. decompose [or] Hr; subst; try lia; try contradiction.
  - split; [cbn; destruct Hx; subst; reflexivity|]. intros c t E. injection E as <- _. lia.
Qed.
Lemma frac_scan : forall f r, frac_part f -> no_digit r -> (forall c t, r = c :: t -> c <> 46%N) -> scan_frac (f ++ r) = Some (f, r).
Proof.
  intros f r [->|[d [-> [Hd Hds]]]] Hr Hdot.
  - cbn [app]. destruct r as [|c r]; [reflexivity|]. unfold scan_frac. destruct (N.eqb_spec c 46) as [->|_]; [|reflexivity].
    exfalso. eapply Hdot; reflexivity.
  - cbn [app]. unfold scan_frac. cbn [N.eqb Pos.eqb]. rewrite span_digits_app by assumption. destruct d; [contradiction|reflexivity].
Qed.
Lemma frac_no_digit : forall f r, frac_part f -> no_digit r -> no_digit (f ++ r).
Proof. intros f r [->|[d [-> _]]] H; [assumption|reflexivity]. Qed.
Lemma int_scan : forall i r, int_part i -> no_digit r -> scan_int (i ++ r) = Some (i, r).
Proof.
  intros i r [->|[c [d [-> [Hc Hd]]]]] Hr; [reflexivity|]. cbn [app]. unfold scan_int.
  rewrite (proj2 (N.eqb_neq c 48)) by lia. rewrite is_digit_true by lia.
  change (c :: d ++ r) with ((c :: d) ++ r). rewrite span_digits_app; auto. constructor; [lia|assumption].
Qed.
Lemma number_scan : forall t r, strict_number t -> ends r -> scan_number (t ++ r) = Some (t, r).
Proof.
  intros t r [g [i [f [e [-> [Hg [Hi [Hf He]]]]]]]] Hr.
  destruct (exp_no_digit e r He Hr) as [E1 E2].
  assert (X : scan_number (i ++ f ++ e ++ r) = Some (i ++ f ++ e, r) /\ scan_number (45%N :: i ++ f ++ e ++ r) = Some (45%N :: i ++ f ++ e, r)).
  { unfold scan_number. cbn [N.eqb Pos.eqb].
    replace (match i ++ f ++ e ++ r with
             | [] => ([], i ++ f ++ e ++ r)
             | c :: t => if N.eqb c 45 then ([c], t) else ([], i ++ f ++ e ++ r)
             end) with (@nil N, i ++ f ++ e ++ r).
    - rewrite int_scan by (auto using frac_no_digit). rewrite frac_scan by assumption. rewrite exp_scan by assumption. split; reflexivity.
    - destruct Hi as [->|[c [d [-> [Hc _]]]]]; [reflexivity|]. cbn [app]. rewrite (proj2 (N.eqb_neq c 45)) by lia. reflexivity. }
  rewrite <- !app_assoc. destruct Hg as [->| ->]; cbn [app]; tauto.
Qed.
Lemma number_head : forall t, strict_number t -> exists c u, t = c :: u /\ (c = 45 \/ 48 <= c <= 57)%N.
Proof.
  intros t [g [i [f [e [-> [Hg [Hi _]]]]]]]. destruct Hg as [->| ->]; cbn [app]; [|eexists _, _; split; [reflexivity|lia]].
  destruct Hi as [->|[c [d [-> [Hc _]]]]]; cbn [app]; eexists _, _; (split; [reflexivity|lia]).
Qed.

(** Strings. *)
Lemma hex_digit_val : forall c v, hexval c v -> hex_digit c = Some v.
Proof.
  intros c v H. unfold hexval in H. unfold hex_digit, in_range.
  destruct H as [[H ->]|[[H ->]|[H ->]]];
    repeat match goal with |- context [(?a <=? ?b)%N] => destruct (N.leb_spec a b); try lia end; cbn [andb]; f_equal; lia.
Qed.
Lemma hex_digit_inv : forall c v, hex_digit c = Some v -> hexval c v /\ c <> 34%N /\ c <> 92%N.
Proof.
  intros c v H. unfold hex_digit, in_range in H. unfold hexval.
  repeat match type of H with context [(?a <=? ?b)%N] => destruct (N.leb_spec a b) end; cbn [andb] in H; try discriminate; injection H as <-; lia.
Qed.
Lemma next_u_escape : forall r u t, u_escape r u -> next_u (u ++ t) = Some (r, t).
Proof.
  intros r u t (a & b & c & d & va & vb & vc & vd & -> & Ha & Hb & Hc & Hd & ->). cbn [app next_u N.eqb Pos.eqb andb].
  unfold hex4. rewrite (hex_digit_val _ _ Ha), (hex_digit_val _ _ Hb), (hex_digit_val _ _ Hc), (hex_digit_val _ _ Hd).
  do 2 f_equal. lia.
Qed.
Lemma next_u_inv : forall s r t, next_u s = Some (r, t) -> exists u, u_escape r u /\ s = u ++ t.
Proof.
  intros s r t H. destruct s as [|x [|y [|a [|b [|c [|d s]]]]]]; cbn [next_u] in H; try discriminate.
  destruct (N.eqb_spec x 92) as [->|]; [|discriminate]. destruct (N.eqb_spec y 117) as [->|]; [|discriminate]. cbn [andb] in H.
  unfold hex4 in H.
  destruct (hex_digit a) as [va|] eqn:Ea; [|discriminate]. destruct (hex_digit b) as [vb|] eqn:Eb; [|discriminate].
  destruct (hex_digit c) as [vc|] eqn:Ec; [|discriminate]. destruct (hex_digit d) as [vd|] eqn:Ed; [|discriminate].
  injection H as <- <-. exists [92%N; 117%N; a; b; c; d]. split; [|reflexivity].
  exists a, b, c, d, va, vb, vc, vd. apply hex_digit_inv in Ea, Eb, Ec, Ed. repeat split; try tauto. lia.
Qed.
Lemma u_escape_no_quote : forall r u, u_escape r u -> ~ In 34%N u.
Proof.
  intros r u (a & b & c & d & va & vb & vc & vd & -> & Ha & Hb & Hc & Hd & ->) H. unfold hexval in *.
  cbn in H. decompose [or] H; subst; try lia; try contradiction; discriminate.
Qed.
(** A prefix without the byte c of a text ending in c is a prefix of what is before. *)
Lemma prefix_before : forall (c : N) u t r v, ~ In c u -> t ++ c :: r = u ++ v -> exists w, t = u ++ w.
Proof.
  intros c u. induction u as [|x u IH]; intros t r v Hn E; [exists t; reflexivity|].
  destruct t as [|y t]; cbn [app] in E; injection E as -> E.
  - exfalso. apply Hn. left. reflexivity.
  - destruct (IH t r v) as [w ->]; [intro; apply Hn; right; assumption|assumption|]. exists w. reflexivity.
Qed.
Lemma u_escape_length : forall r u, u_escape r u -> length u = 6%nat.
Proof. intros r u (a & b & c & d & va & vb & vc & vd & -> & _). reflexivity. Qed.

Lemma std_string_chars : forall s t, schars s t -> forall n r, (length t < n)%nat -> std_string n (t ++ 34%N :: r) = Some (s, r).
Proof.
  induction 1 as [|x s t Hx H32 H34 H92 Hs IH|c s t Hb Hs IH|e c s t He Hs IH|x u s t Hu Hh Hl Hs IH|x1 x2 u1 u2 s t Hu1 Hh Hu2 Hl Hs IH|x u s t Hu Hh Hno Hs IH];
    intros n r Hn; (destruct n as [|n]; [lia|]).
  - reflexivity.
  - rewrite <- app_assoc. pose proof (encode_length x) as Hl. destruct (encode_rune x) as [|c0 u0] eqn:E; [cbn in Hl; lia|].
    assert (Hc : (c0 = x \/ 128 <= c0)%N).
    { destruct (N.ltb_spec x 128) as [X|X].
      - left. unfold encode_rune in E. rewrite (proj2 (N.ltb_lt x 128)) in E by assumption. congruence.
      - right. pose proof (encode_high x X) as J. rewrite E in J. inversion J; assumption. }
    assert (D : decode_rune (c0 :: u0 ++ t ++ 34%N :: r) = Some (x, length (encode_rune x))).
    { change (c0 :: u0 ++ t ++ 34%N :: r) with ((c0 :: u0) ++ t ++ 34%N :: r). rewrite <- E. apply decode_encode. assumption. }
    cbn [app std_string]. rewrite (proj2 (N.eqb_neq c0 34)), (proj2 (N.eqb_neq c0 92)), (proj2 (N.ltb_ge c0 32)) by lia. rewrite D.
    change (c0 :: u0 ++ t ++ 34%N :: r) with ((c0 :: u0) ++ t ++ 34%N :: r). rewrite <- E.
    rewrite skipn_app, skipn_all, Nat.sub_diag. cbn [skipn app].
    rewrite IH; [rewrite E; reflexivity|]. rewrite app_length in Hn. lia.
  - assert (Hc : (128 <= c)%N).
    { destruct (N.ltb_spec c 128) as [X|X]; [|assumption]. exfalso. apply (Hb c t); [unfold scalar; lia|].
      unfold encode_rune. rewrite (proj2 (N.ltb_lt c 128)) by assumption. reflexivity. }
    cbn [app std_string]. rewrite (proj2 (N.eqb_neq c 34)), (proj2 (N.eqb_neq c 92)), (proj2 (N.ltb_ge c 32)) by lia.
    destruct (decode_rune (c :: t ++ 34%N :: r)) as [[x k]|] eqn:E.
    + exfalso. destruct (decode_some _ _ _ E) as [Hx [_ Es]].
      assert (Hx128 : (128 <= x)%N).
      { destruct (N.ltb_spec x 128) as [X|X]; [|assumption]. unfold encode_rune in Es.
        rewrite (proj2 (N.ltb_lt x 128)) in Es by assumption. injection Es as Es _. lia. }
      change (c :: t ++ 34%N :: r) with ((c :: t) ++ 34%N :: r) in Es.
      destruct (prefix_before 34 (encode_rune x) (c :: t) r (skipn k ((c :: t) ++ 34%N :: r))) as [w Hw]; [|exact Es|].
      { intro Hin. pose proof (encode_high x Hx128) as J. rewrite Forall_forall in J. apply J in Hin. lia. }
      apply (Hb x w Hx Hw).
    + rewrite IH; [reflexivity|]. cbn in Hn. lia.
  - cbn [app std_string]. cbn [N.eqb Pos.eqb].
    assert (Hs2 : std_short e = Some c /\ e <> 117%N).
    { unfold short_escape in He. unfold std_short. destruct He as [[-> ->]|[[-> ->]|[[-> ->]|[[-> ->]|[[-> ->]|[H ->]]]]]];
        try (split; [reflexivity|lia]). destruct H as [->|[->| ->]]; (split; [reflexivity|lia]). }
    destruct Hs2 as [E1 E2].
    replace (next_u (92%N :: e :: t ++ 34%N :: r)) with (@None (N * bytes)).
    + rewrite E1. rewrite IH; [reflexivity|]. cbn in Hn. lia.
    + destruct (t ++ 34%N :: r) as [|a1 [|a2 [|a3 [|a4 z]]]]; try reflexivity. cbn [next_u N.eqb Pos.eqb andb].
      rewrite (proj2 (N.eqb_neq e 117)) by assumption. reflexivity.
  - pose proof (u_escape_length _ _ Hu) as Hlen. pose proof (next_u_escape x u (t ++ 34%N :: r) Hu) as Hnx.
    rewrite <- app_assoc. assert (E0 : exists u', u = 92%N :: u') by (destruct Hu as (a & b & c & d & va & vb & vc & vd & -> & _); eauto).
    destruct E0 as [u' ->]. cbn [app] in *. cbn [std_string]. cbn [N.eqb Pos.eqb]. rewrite Hnx.
    replace (is_surrogate x) with false.
    + rewrite IH; [reflexivity|]. cbn [length] in *. rewrite app_length in Hn. lia.
    + symmetry. apply in_range_false. unfold high_half, low_half in *. lia.
  - pose proof (u_escape_length _ _ Hu1) as Hlen1. pose proof (u_escape_length _ _ Hu2) as Hlen2.
    pose proof (next_u_escape x1 u1 (u2 ++ t ++ 34%N :: r) Hu1) as Hnx1.
    pose proof (next_u_escape x2 u2 (t ++ 34%N :: r) Hu2) as Hnx2.
    rewrite <- !app_assoc. assert (E0 : exists u', u1 = 92%N :: u') by (destruct Hu1 as (a & b & c & d & va & vb & vc & vd & -> & _); eauto).
    destruct E0 as [u' ->]. cbn [app] in *. cbn [std_string]. cbn [N.eqb Pos.eqb]. rewrite Hnx1.
    unfold high_half, low_half in *. unfold is_surrogate. rewrite (in_range_true 55296 57343) by lia. rewrite Hnx2.
    rewrite !in_range_true by lia. cbn [andb].
    rewrite IH; [reflexivity|]. cbn [length] in *. rewrite !app_length in Hn. lia.
  - pose proof (u_escape_length _ _ Hu) as Hlen. pose proof (next_u_escape x u (t ++ 34%N :: r) Hu) as Hnx.
    rewrite <- app_assoc. assert (E0 : exists u', u = 92%N :: u') by (destruct Hu as (a & b & c & d & va & vb & vc & vd & -> & _); eauto).
    destruct E0 as [u' ->]. cbn [app] in *. cbn [std_string]. cbn [N.eqb Pos.eqb]. rewrite Hnx.
    assert (IH' : std_string n (t ++ 34%N :: r) = Some (s, r)) by (apply IH; cbn [length] in *; rewrite app_length in Hn; lia).
    unfold high_half, low_half in *. unfold is_surrogate. rewrite (in_range_true 55296 57343) by lia.
    destruct (next_u (t ++ 34%N :: r)) as [[x2 t2]|] eqn:E2; [|rewrite IH'; reflexivity].
    destruct (in_range 55296 56319 x) eqn:Er1; cbn [andb]; [|rewrite IH'; reflexivity].
    destruct (in_range 56320 57343 x2) eqn:Er2; cbn [andb]; [|rewrite IH'; reflexivity].
    exfalso. apply Hno. apply in_range_spec in Er1, Er2. split; [assumption|].
    destruct (next_u_inv _ _ _ E2) as [u2 [Hu2 Es]].
    destruct (prefix_before 34 u2 t r t2) as [w Hw]; [eapply u_escape_no_quote; eassumption|assumption|]. eauto 10.
Qed.

Section Texts.
  Variable F : Type.
  Variable parse_float : bytes -> option F.
  Notation std_value := (std_value F parse_float).
  Notation std_rest := (std_rest F parse_float).
  Notation std_pair := (std_pair F parse_float).
  Notation std_prest := (std_prest F parse_float).
  Notation stext := (stext F parse_float).
  Notation stail := (stail F parse_float).
  Notation spair := (spair F parse_float).
  Notation sptail := (sptail F parse_float).

  Lemma ends_blank : forall w r, blank w -> ends r -> ends (w ++ r).
  Proof. intros w r H Hr. destruct H as [|c w H Hw]; [assumption|]. cbn. destruct H as [->|[->|[->| ->]]]; auto 10. Qed.
  Lemma text_head : forall d v t, stext d v t -> exists c u, t = c :: u /\ is_ws c = false /\ c <> 93%N.
  Proof.
    intros d v t H. destruct H; try (eexists _, _; split; [reflexivity|split; [reflexivity|discriminate]]).
    destruct (number_head _ H) as [c [u [-> Hc]]]. exists c, u. split; [reflexivity|]. unfold is_ws. split; lia.
  Qed.
  Lemma pair_head : forall d kv t, spair d kv t -> exists u, t = 34%N :: u.
  Proof. intros d kv t H. destruct H. eauto. Qed.

  Lemma std_text :
    (forall d v t, stext d v t -> forall f r, (length t <= f)%nat -> ends r -> std_value f d (t ++ r) = Ok (v, r)) /\
    (forall d vs t, stail d vs t -> forall f acc r, (length t < f)%nat -> std_rest f d acc (t ++ 93%N :: r) = Ok (VArr (acc ++ vs), r)) /\
    (forall d kv t, spair d kv t -> forall f r, (length t <= f)%nat -> ends r -> std_pair f d (t ++ r) = Ok (fst kv, snd kv, r)) /\
    (forall d kvs t, sptail d kvs t -> forall f acc r, (length t < f)%nat ->
       std_prest f d acc (t ++ 125%N :: r) = Ok (VMap (fold_left (fun m kv => map_set (fst kv) (snd kv) m) kvs acc), r)).
  Proof.
    apply strict_text_ind; intros.
    - destruct f; [cbn in *; lia|]. reflexivity.
    - destruct f; [cbn in *; lia|]. reflexivity.
    - destruct f; [cbn in *; lia|]. reflexivity.
    - destruct (number_head _ H) as [c [u [E Hc]]].
      destruct f0 as [|f0]; [subst t; cbn in *; lia|]. rewrite std_value_S.
      pose proof (number_scan t r H H2) as Hsc. subst t. cbn [app] in *.
      rewrite (proj2 (N.eqb_neq c 34)), (proj2 (N.eqb_neq c 91)), (proj2 (N.eqb_neq c 123)) by lia.
      assert (P : forall a p, (102 <= a)%N -> prefixb (a :: p) (c :: u ++ r) = false).
      { intros a p Ha. cbn. rewrite (proj2 (N.eqb_neq a c)) by lia. reflexivity. }
      cbn [bs map list_ascii_of_string]. rewrite !P by (vm_compute; discriminate). rewrite Hsc, H0. reflexivity.
    - destruct f as [|f]; [cbn in *; lia|]. rewrite std_value_S. cbn [app N.eqb Pos.eqb]. rewrite <- app_assoc. cbn [app].
      rewrite (std_string_chars s t H); [reflexivity|]. rewrite app_length. cbn. lia.
    - destruct f as [|f]; [cbn in *; lia|]. rewrite std_value_S. cbn [app N.eqb Pos.eqb]. rewrite <- app_assoc. cbn [app].
      rewrite drop_blank_app by assumption. reflexivity.
    - destruct f as [|f]; [cbn in *; lia|]. cbn [length] in H4. rewrite !app_length in H4. cbn [length] in H4.
      rewrite std_value_S. cbn [app N.eqb Pos.eqb]. rewrite <- !app_assoc. cbn [app].
      rewrite drop_blank_app by assumption.
      destruct (text_head _ _ _ H0) as [c [u [E [E1 E2]]]].
      assert (X : drop_blank (t ++ r ++ 93%N :: r0) = t ++ r ++ 93%N :: r0) by (rewrite E; apply drop_blank_stop; assumption).
      assert (Y : std_value f d (t ++ r ++ 93%N :: r0) = Ok (v, r ++ 93%N :: r0)).
      { apply H1; [lia|]. inversion H2; subst.
        - apply ends_blank; [assumption|]. cbn. auto 10.
        - rewrite <- app_assoc. apply ends_blank; [assumption|]. cbn. auto 10. }
      rewrite X. rewrite E in *. cbn [app] in *. rewrite (proj2 (N.eqb_neq c 93)) by assumption. rewrite Y.
      apply (H3 f [v] r0). cbn in *. lia.
    - destruct f as [|f]; [cbn in *; lia|]. rewrite std_value_S. cbn [app N.eqb Pos.eqb]. rewrite <- app_assoc. cbn [app].
      rewrite drop_blank_app by assumption. reflexivity.
    - destruct f as [|f]; [cbn in *; lia|]. cbn [length] in H4. rewrite !app_length in H4. cbn [length] in H4.
      rewrite std_value_S. cbn [app N.eqb Pos.eqb]. rewrite <- !app_assoc. cbn [app].
      rewrite drop_blank_app by assumption.
      destruct (pair_head _ _ _ H0) as [u E].
      assert (X : drop_blank (t ++ r ++ 125%N :: r0) = t ++ r ++ 125%N :: r0) by (rewrite E; apply drop_blank_stop; reflexivity).
      assert (Y : std_pair f d (t ++ r ++ 125%N :: r0) = Ok (fst kv, snd kv, r ++ 125%N :: r0)).
      { apply H1; [lia|]. inversion H2; subst.
        - apply ends_blank; [assumption|]. cbn. auto 10.
        - rewrite <- app_assoc. apply ends_blank; [assumption|]. cbn. auto 10. }
      rewrite X. rewrite E in *. cbn [app] in *. cbn [N.eqb Pos.eqb]. rewrite Y.
      apply (H3 f _ r0). cbn in *. lia.
    - destruct f as [|f]; [lia|]. rewrite std_rest_S, drop_blank_app by assumption.
      rewrite drop_blank_stop by reflexivity. cbn [N.eqb Pos.eqb]. rewrite app_nil_r. reflexivity.
    - destruct f as [|f]; [lia|]. rewrite !app_length in H5. cbn [length] in H5. rewrite !app_length in H5.
      rewrite std_rest_S. rewrite <- app_assoc. rewrite drop_blank_app by assumption. cbn [app].
      rewrite drop_blank_stop by reflexivity. cbn [N.eqb Pos.eqb]. rewrite <- !app_assoc. rewrite drop_blank_app by assumption.
      destruct (text_head _ _ _ H1) as [c [u [E [E1 E2]]]].
      assert (X : drop_blank (t ++ r ++ 93%N :: r0) = t ++ r ++ 93%N :: r0) by (rewrite E; apply drop_blank_stop; assumption).
      rewrite X. rewrite H2; [|lia|].
      + rewrite H4 by (subst t; cbn in *; lia). rewrite <- app_assoc. reflexivity.
      + inversion H3; subst.
        * apply ends_blank; [assumption|]. cbn. auto 10.
        * rewrite <- app_assoc. apply ends_blank; [assumption|]. cbn. auto 10.
    - destruct f as [|f]; [cbn in *; lia|]. cbn [length] in H4. rewrite !app_length in H4. cbn [length] in H4. rewrite !app_length in H4. cbn [length] in H4. rewrite !app_length in H4.
      rewrite std_pair_S. cbn [app N.eqb Pos.eqb negb]. rewrite <- !app_assoc. cbn [app].
      rewrite (std_string_chars k kt H) by (rewrite app_length; cbn; lia).
      rewrite <- !app_assoc. rewrite drop_blank_app by assumption. cbn [app]. rewrite drop_blank_stop by reflexivity. cbn [N.eqb Pos.eqb negb].
      rewrite <- !app_assoc. rewrite drop_blank_app by assumption.
      destruct (text_head _ _ _ H2) as [c [u [E [E1 E2]]]].
      assert (X : drop_blank (t ++ r) = t ++ r) by (rewrite E; apply drop_blank_stop; assumption).
      rewrite X, H3; [reflexivity|lia|assumption].
    - destruct f as [|f]; [lia|]. rewrite std_prest_S, drop_blank_app by assumption.
      rewrite drop_blank_stop by reflexivity. cbn [N.eqb Pos.eqb]. reflexivity.
    - destruct f as [|f]; [lia|]. rewrite !app_length in H5. cbn [length] in H5. rewrite !app_length in H5.
      rewrite std_prest_S. rewrite <- app_assoc. rewrite drop_blank_app by assumption. cbn [app].
      rewrite drop_blank_stop by reflexivity. cbn [N.eqb Pos.eqb]. rewrite <- !app_assoc. rewrite drop_blank_app by assumption.
      destruct (pair_head _ _ _ H1) as [u E].
      assert (X : drop_blank (t ++ r ++ 125%N :: r0) = t ++ r ++ 125%N :: r0) by (rewrite E; apply drop_blank_stop; reflexivity).
      rewrite X. rewrite H2; [|lia|].
      + rewrite H4 by (subst t; cbn in *; lia). reflexivity.
      + inversion H3; subst.
        * apply ends_blank; [assumption|]. cbn. auto 10.
        * rewrite <- app_assoc. apply ends_blank; [assumption|]. cbn. auto 10.
  Qed.

  Theorem unmarshal_line : forall d v l, sline F parse_float d v l -> unmarshal F parse_float d l = Ok v.
  Proof.
    intros d v l [w1 [t [w2 [H1 [H2 [Ht ->]]]]]]. unfold unmarshal.
    rewrite drop_blank_app by assumption. destruct (text_head _ _ _ Ht) as [c [u [E [E1 E2]]]].
    assert (X : drop_blank (t ++ w2) = t ++ w2) by (rewrite E; apply drop_blank_stop; assumption).
    rewrite X. destruct std_text as [S1 _]. rewrite (S1 _ _ _ Ht).
    - rewrite drop_blank_all by assumption. reflexivity.
    - rewrite !app_length. lia.
    - rewrite <- (app_nil_r w2). apply ends_blank; [assumption|exact I].
  Qed.
End Texts.
