(** Lemmas about Values: totality of reading, conversion, comparison and printing. *)
From Coq Require Import ZArith Lia.
From Verif Require Import Base M_Decimal L_Decimal M_Utf8 S_Utf8 L_Utf8 S_JsonText M_JsonWrite L_JsonMarshal M_Unmarshal S_NDJson L_Unmarshal L_UnmarshalInv L_NDJson P_NDJson M_Doc M_Vals S_Vals L_Vals P_Vals L_Tabular L_Texts M_Value S_Value L_Value.

(** Totality. *)
Lemma scan_total : forall f d s, (length s < f)%nat -> settled s (scan f d s).
Proof. intros f d s H. apply std_total. assumption. Qed.
Lemma raw_rest_total : forall f d acc s, (length s < f)%nat -> raw_rest f d acc s <> Panic /\ raw_rest f d acc s <> OutOfFuel.
Proof.
  induction f as [|f IH]; intros d acc s H; [lia|]. cbn [raw_rest]. pose proof (drop_blank_length s) as Hs.
  destruct (drop_blank s) as [|c t]; [split; discriminate|]. cbn [length] in Hs. destruct (N.eqb c 93); [split; discriminate|].
  destruct (N.eqb c 44); [|split; discriminate]. pose proof (drop_blank_length t) as Ht.
  pose proof (scan_total f d (drop_blank t) ltac:(lia)) as X. destruct (scan f d (drop_blank t)) as [[v r]|e| |]; cbn in X; try contradiction; [|split; discriminate].
  apply IH. lia.
Qed.
Lemma raw_pair_total : forall f d s, (length s <= f)%nat -> settled s (raw_pair f d s).
Proof.
  intros f d s H. unfold raw_pair. destruct s as [|c t]; [exact I|]. cbn [length] in H.
  destruct (negb (N.eqb c 34)); [exact I|]. destruct (std_string (length t) t) as [[k r]|] eqn:E; [|exact I]. apply std_string_length in E.
  pose proof (drop_blank_length r) as Hr. destruct (drop_blank r) as [|x r1]; [exact I|]. cbn [length] in Hr.
  destruct (negb (N.eqb x 58)); [exact I|]. pose proof (drop_blank_length r1) as Hr1.
  pose proof (scan_total f d (drop_blank r1) ltac:(lia)) as X. destruct (scan f d (drop_blank r1)) as [[v r2]|e| |]; cbn in X |- *; try contradiction; lia || exact I.
Qed.
Lemma raw_prest_total : forall f d acc s, (length s < f)%nat -> raw_prest f d acc s <> Panic /\ raw_prest f d acc s <> OutOfFuel.
Proof.
  induction f as [|f IH]; intros d acc s H; [lia|]. cbn [raw_prest]. pose proof (drop_blank_length s) as Hs.
  destruct (drop_blank s) as [|c t]; [split; discriminate|]. cbn [length] in Hs. destruct (N.eqb c 125); [split; discriminate|].
  destruct (N.eqb c 44); [|split; discriminate]. pose proof (drop_blank_length t) as Ht.
  pose proof (raw_pair_total f d (drop_blank t) ltac:(lia)) as X. destruct (raw_pair f d (drop_blank t)) as [[[k v] r]|e| |]; cbn in X; try contradiction; [|split; discriminate].
  apply IH. lia.
Qed.
Lemma finish_total : forall A (r : res (A * bytes)), r <> Panic /\ r <> OutOfFuel -> finish r <> Panic /\ finish r <> OutOfFuel.
Proof. intros A [[x r]|e| |] [H1 H2]; try congruence; cbn; [destruct (drop_blank r)|]; split; discriminate. Qed.
Lemma raw_array_total : forall depth data, raw_array depth data <> Panic /\ raw_array depth data <> OutOfFuel.
Proof.
  intros depth data. unfold raw_array. pose proof (drop_blank_length data) as Hs. destruct (drop_blank data) as [|c t]; [split; discriminate|].
  cbn [length] in Hs. destruct (negb (N.eqb c 91)); [split; discriminate|]. destruct depth as [|d]; [split; discriminate|].
  pose proof (drop_blank_length t) as Ht. destruct (drop_blank t) as [|x r]; [split; discriminate|].
  destruct (N.eqb x 93); [apply finish_total; split; discriminate|].
  pose proof (scan_total (S (length data)) d (x :: r) ltac:(lia)) as X. destruct (scan _ d (x :: r)) as [[v r1]|e| |]; cbn [settled] in X; try contradiction; [|split; discriminate].
  apply finish_total, raw_rest_total. lia.
Qed.
Lemma raw_object_total : forall depth data, raw_object depth data <> Panic /\ raw_object depth data <> OutOfFuel.
Proof.
  intros depth data. unfold raw_object. pose proof (drop_blank_length data) as Hs. destruct (drop_blank data) as [|c t]; [split; discriminate|].
  cbn [length] in Hs. destruct (negb (N.eqb c 123)); [split; discriminate|]. destruct depth as [|d]; [split; discriminate|].
  pose proof (drop_blank_length t) as Ht. destruct (drop_blank t) as [|x r]; [split; discriminate|].
  destruct (N.eqb x 125); [apply finish_total; split; discriminate|].
  pose proof (raw_pair_total (S (length data)) d (x :: r) ltac:(lia)) as X. destruct (raw_pair _ d (x :: r)) as [[[k v] r1]|e| |]; cbn [settled] in X; try contradiction; [|split; discriminate].
  apply finish_total, raw_prest_total. lia.
Qed.

Section Total.
  Variable F : Type.
  Variable parse_float : bytes -> option F.
  Variable float32_ok : bytes -> bool.
  Variable of_int : Z -> F.
  Variable depth : nat.
  Notation unmarshal_value := (unmarshal_value F parse_float float32_ok of_int depth).
  Lemma into_total : forall init take data, into F depth init take data <> Panic /\ into F depth init take data <> OutOfFuel.
  Proof.
    intros init take data. unfold into. pose proof (unmarshal_total bytes (@Some bytes) depth data) as [H1 H2].
    destruct (unmarshal bytes (@Some bytes) depth data) as [g|e| |]; try congruence; [|split; discriminate].
    destruct g; try (split; discriminate); (match goal with |- context [take ?g] => destruct (take g) end; split; discriminate).
  Qed.
  Lemma value_total : forall f data, (length data < f)%nat -> unmarshal_value f data <> Panic /\ unmarshal_value f data <> OutOfFuel.
  Proof.
    induction f as [|f IH]; intros data Hf; [lia|]. rewrite unmarshal_value_S. cbv zeta.
    assert (E : forall x, (length x < f)%nat -> elem F parse_float float32_ok of_int depth f x <> Panic /\ elem F parse_float float32_ok of_int depth f x <> OutOfFuel).
    { intros x Hx. destruct (IH x Hx) as [H1 H2]. unfold elem. destruct (unmarshal_value f x); try congruence; split; discriminate. }
    destruct (N.eqb _ tObject).
    { destruct (raw_object_total depth data) as [H1 H2]. destruct (raw_object depth data) as [m|e| |] eqn:ER; try congruence; [|split; discriminate].
      pose proof (raw_object_inv _ _ _ ER) as [w1 [t [w2 [m0 [-> [Hw1 [Hw2 Ht]]]]]]].
      destruct depth as [|d]; [inversion Ht|]. destruct (raw_object_text d m0 w1 t w2 Ht Hw1 Hw2) as [ts [E1 [_ E2]]]. rewrite E1 in ER. injection ER as <-.
      match goal with |- context [mapM ?p ts] => assert (X : mapM p ts <> Panic /\ mapM p ts <> OutOfFuel) end.
      { apply mapM_total. eapply Forall_impl; [|exact E2]. cbn beta. intros x Hx. rewrite !app_length in Hf. destruct (E (snd x) ltac:(lia)) as [A B].
        destruct (elem _ _ _ _ _ f (snd x)); try congruence; split; discriminate. }
      destruct X as [A B]. match goal with |- context [mapM ?p ts] => destruct (mapM p ts); try congruence end; split; discriminate. }
    destruct (N.eqb _ tArray).
    { destruct (raw_array_total depth data) as [H1 H2]. destruct (raw_array depth data) as [m|e| |] eqn:ER; try congruence; [|split; discriminate].
      pose proof (raw_array_inv _ _ _ ER) as [w1 [t [w2 [m0 [-> [Hw1 [Hw2 Ht]]]]]]].
      destruct depth as [|d]; [inversion Ht|]. destruct (raw_array_text d m0 w1 t w2 Ht Hw1 Hw2) as [ts [E1 [_ E2]]]. rewrite E1 in ER. injection ER as <-.
      match goal with |- context [mapM ?p ts] => assert (X : mapM p ts <> Panic /\ mapM p ts <> OutOfFuel) end.
      { apply mapM_total. eapply Forall_impl; [|exact E2]. cbn beta. intros x Hx. rewrite !app_length in Hf. apply E. lia. }
      destruct X as [A B]. match goal with |- context [mapM ?p ts] => destruct (mapM p ts); try congruence end; split; discriminate. }
    repeat match goal with |- context [if ?b then _ else _] => destruct b; [apply into_total|] end. split; discriminate.
  Qed.
End Total.

(** Conversion. *)
Section Convert.
  Variable F : Type.
  Notation value := (value F).
  Notation decoded := (decoded F).
  Section Ind.
    Variable P : decoded -> Prop.
    Hypothesis H1 : P DNil.
    Hypothesis H2 : forall n, P (DUint n).
    Hypothesis H3 : forall z, P (DInt z).
    Hypothesis H4 : forall f, P (DFloat f).
    Hypothesis H5 : forall s, P (DStr s).
    Hypothesis H6 : forall b, P (DBool b).
    Hypothesis H7 : forall l, Forall P l -> P (DArr l).
    Hypothesis H8 : forall m, Forall (fun kd => P (snd kd)) m -> P (DMap m).
    Hypothesis H9 : forall m, Forall (fun kd => P (snd kd)) m -> P (DAny m).
    Hypothesis H0 : P DOther.
    Fixpoint decoded_ind2 (d : decoded) : P d :=
      match d with
      | DNil => H1 | DUint n => H2 n | DInt z => H3 z | DFloat f => H4 f | DStr s => H5 s | DBool b => H6 b
      | DArr l => H7 l ((fix go (l : list decoded) : Forall P l :=
          match l with [] => Forall_nil _ | x :: l' => Forall_cons _ (decoded_ind2 x) (go l') end) l)
      | DMap m => H8 m ((fix go (m : list (bytes * decoded)) : Forall (fun kd => P (snd kd)) m :=
          match m with [] => Forall_nil _ | x :: m' => Forall_cons _ (decoded_ind2 (snd x)) (go m') end) m)
      | DAny m => H9 m ((fix go (m : list (decoded * decoded)) : Forall (fun kd => P (snd kd)) m :=
          match m with [] => Forall_nil _ | x :: m' => Forall_cons _ (decoded_ind2 (snd x)) (go m') end) m)
      | DOther => H0
      end.
  End Ind.
  Lemma uint_iff : forall n z, int_of_uint n = z <-> int64 z /\ (exists k, Z.of_N n = z + k * 2 ^ 64)%Z.
  Proof.
    intros n z. unfold int_of_uint, int64. pose proof (N.mod_lt n (2 ^ 64)%N ltac:(discriminate)) as Hm.
    pose proof (N.div_mod n (2 ^ 64)%N ltac:(discriminate)) as Hd. set (m := (n mod 2 ^ 64)%N) in *. set (q := (n / 2 ^ 64)%N) in *.
    change (2 ^ 64)%N with 18446744073709551616%N in *. change (2 ^ 63)%N with 9223372036854775808%N.
    change (2 ^ 64)%Z with 18446744073709551616%Z. change (2 ^ 63)%Z with 9223372036854775808%Z.
    destruct (N.ltb_spec m 9223372036854775808%N) as [H|H]; split.
    - intros <-. split; [lia|]. exists (Z.of_N q). lia.
    - intros [Hz [k Hk]]. assert (k = Z.of_N q) by lia. lia.
    - intros <-. split; [lia|]. exists (Z.of_N q + 1)%Z. lia.
    - intros [Hz [k Hk]]. assert (k = Z.of_N q + 1)%Z by lia. lia.
  Qed.
  Notation convert := (convert_decoded F).
  Fixpoint convert_list (l : list decoded) : res (list value) :=
    match l with
    | [] => Ok []
    | d :: l => match convert d with
                | Ok v => match convert_list l with Ok vs => Ok (v :: vs) | Err e => Err e | Panic => Panic | OutOfFuel => OutOfFuel end
                | Err e => Err e | Panic => Panic | OutOfFuel => OutOfFuel
                end
    end.
  Fixpoint convert_map (acc : list (bytes * value)) (m : list (bytes * decoded)) : res (list (bytes * value)) :=
    match m with
    | [] => Ok acc
    | (k, d) :: m => match convert d with Ok v => convert_map (map_set k v acc) m | Err e => Err e | Panic => Panic | OutOfFuel => OutOfFuel end
    end.
  Fixpoint convert_any (acc : list (bytes * value)) (m : list (decoded * decoded)) : res (list (bytes * value)) :=
    match m with
    | [] => Ok acc
    | (DStr k, d) :: m => match convert d with Ok v => convert_any (map_set k v acc) m | Err e => Err e | Panic => Panic | OutOfFuel => OutOfFuel end
    | _ :: _ => Err err_key
    end.
  Lemma convert_arr_eq : forall l, convert (DArr l) = match convert_list l with Ok vs => Ok (XPtr (XArr vs)) | Err e => Err e | Panic => Panic | OutOfFuel => OutOfFuel end.
  Proof.
    intros l. cbn [convert_decoded]. match goal with |- match ?f l with _ => _ end = _ => assert (E : f l = convert_list l) end; [|rewrite E; reflexivity].
    induction l as [|d l IH]; [reflexivity|]. cbn [convert_list]. rewrite <- IH. reflexivity.
  Qed.
  Lemma convert_map_eq : forall m, convert (DMap m) = match convert_map [] m with Ok vs => Ok (XPtr (XObj vs)) | Err e => Err e | Panic => Panic | OutOfFuel => OutOfFuel end.
  Proof.
    intros m. cbn [convert_decoded]. generalize (@nil (bytes * value)). induction m as [|[k d] m IH]; intros acc; [reflexivity|].
    cbn [convert_map]. destruct (convert d); reflexivity.
  Qed.
  Lemma convert_any_eq : forall m, convert (DAny m) = match convert_any [] m with Ok vs => Ok (XPtr (XObj vs)) | Err e => Err e | Panic => Panic | OutOfFuel => OutOfFuel end.
  Proof.
    intros m. cbn [convert_decoded]. generalize (@nil (bytes * value)). induction m as [|[k d] m IH]; intros acc; [reflexivity|].
    reflexivity.
  Qed.
  Notation sets := (fold_left (fun o kv => map_set (fst kv) (snd kv) o)).
  Lemma convert_exact : forall d v, convert d = Ok v <-> converts F d v.
  Proof.
    induction d as [|n|z|f|s|b|l IH|m IH|m IH|] using decoded_ind2; intros v.
    - split; intros H; [injection H as <-; constructor|inversion H; reflexivity].
    - cbn [convert_decoded]. split; intros H.
      + injection H as <-. pose proof (proj1 (uint_iff n _) eq_refl) as [A B]. constructor; assumption.
      + inversion H; subst. f_equal. f_equal. apply uint_iff. auto.
    - split; intros H; [injection H as <-; constructor|inversion H; reflexivity].
    - split; intros H; [injection H as <-; constructor|inversion H; reflexivity].
    - split; intros H; [injection H as <-; constructor|inversion H; reflexivity].
    - split; intros H; [injection H as <-; constructor|inversion H; reflexivity].
    - rewrite convert_arr_eq. assert (X : forall vs, convert_list l = Ok vs <-> Forall2 (converts F) l vs).
      { clear v. induction IH as [|d l Hd _ IHl]; intros vs; cbn [convert_list].
        - split; intros H; [injection H as <-; constructor|inversion H; reflexivity].
        - split.
          + intros H. destruct (convert d) as [v|e| |] eqn:E; try discriminate. destruct (convert_list l) as [ws|e| |] eqn:El; try discriminate.
            injection H as <-. constructor; [apply Hd; reflexivity|apply IHl; reflexivity].
          + intros H. inversion H; subst. rewrite (proj2 (Hd y)) by assumption. rewrite (proj2 (IHl l')) by assumption. reflexivity. }
      split.
      + intros H. destruct (convert_list l) as [vs|e| |] eqn:E; try discriminate. injection H as <-. constructor. apply X. reflexivity.
      + intros H. inversion H; subst. rewrite (proj2 (X vs)) by assumption. reflexivity.
    - rewrite convert_map_eq. assert (X : forall acc o, convert_map acc m = Ok o <-> exists kvs, o = sets kvs acc /\ Forall2 (fun kd kv => fst kd = fst kv /\ converts F (snd kd) (snd kv)) m kvs).
      { clear v. induction IH as [|[k d] m Hd _ IHm]; intros acc o; cbn [convert_map].
        - split; [intros H; injection H as <-; exists []; auto|intros [kvs [-> H]]; inversion H; reflexivity].
        - cbn [snd] in Hd. split.
          + intros H. destruct (convert d) as [v|e| |] eqn:E; try discriminate. apply IHm in H. destruct H as [kvs [-> H]].
            exists ((k, v) :: kvs). split; [reflexivity|]. constructor; [split; [reflexivity|apply Hd; reflexivity]|assumption].
          + intros [kvs [-> H]]. inversion H as [|? [k' v] ? kvs0 [Hk Hv] Hr]; subst. cbn [fst snd] in *. subst k'.
            rewrite (proj2 (Hd v)) by assumption. cbn [fold_left fst snd]. apply IHm. exists kvs0. auto. }
      split.
      + intros H. destruct (convert_map [] m) as [o|e| |] eqn:E; try discriminate. injection H as <-. apply X in E. destruct E as [kvs [-> H]]. constructor. assumption.
      + intros H. inversion H as [| | | | | | |? o Ho|]; subst. rewrite (proj2 (X [] (sets o []))) by (exists o; auto). reflexivity.
    - rewrite convert_any_eq. assert (X : forall acc o, convert_any acc m = Ok o <-> exists kvs, o = sets kvs acc /\ Forall2 (fun kd kv => fst kd = DStr (fst kv) /\ converts F (snd kd) (snd kv)) m kvs).
      { clear v. induction IH as [|[k d] m Hd _ IHm]; intros acc o; cbn [convert_any].
        - split; [intros H; injection H as <-; exists []; auto|intros [kvs [-> H]]; inversion H; reflexivity].
        - cbn [snd] in Hd. split.
          + intros H. destruct k as [| | | |k| | | | |]; try discriminate.
            destruct (convert d) as [v|e| |] eqn:E; try discriminate. apply IHm in H. destruct H as [kvs [-> H]].
            exists ((k, v) :: kvs). split; [reflexivity|]. constructor; [split; [reflexivity|apply Hd; reflexivity]|assumption].
          + intros [kvs [-> H]]. inversion H as [|? [k' v] ? kvs0 [Hk Hv] Hr]; subst. cbn [fst snd] in *. subst k.
            rewrite (proj2 (Hd v)) by assumption. cbn [fold_left fst snd]. apply IHm. exists kvs0. auto. }
      split.
      + intros H. destruct (convert_any [] m) as [o|e| |] eqn:E; try discriminate. injection H as <-. apply X in E. destruct E as [kvs [-> H]]. constructor. assumption.
      + intros H. inversion H as [| | | | | | | |? o Ho]; subst. rewrite (proj2 (X [] (sets o []))) by (exists o; auto). reflexivity.
    - split; intros H; [discriminate|inversion H].
  Qed.
  Lemma convert_total : forall d, convert d <> Panic /\ convert d <> OutOfFuel.
  Proof.
    induction d as [|n|z|f|s|b|l IH|m IH|m IH|] using decoded_ind2; try (split; discriminate).
    - rewrite convert_arr_eq. assert (X : convert_list l <> Panic /\ convert_list l <> OutOfFuel); [|destruct X, (convert_list l); try congruence; split; discriminate].
      induction IH as [|d l [H1 H2] _ [I1 I2]]; cbn [convert_list]; [split; discriminate|].
      destruct (convert d); try congruence; [|split; discriminate]. destruct (convert_list l); try congruence; split; discriminate.
    - rewrite convert_map_eq. assert (X : forall acc, convert_map acc m <> Panic /\ convert_map acc m <> OutOfFuel); [|destruct (X []), (convert_map [] m); try congruence; split; discriminate].
      induction IH as [|[k d] m [H1 H2] _ IHm]; intros acc; cbn [convert_map]; [split; discriminate|]. cbn [snd] in *.
      destruct (convert d); try congruence; [apply IHm|split; discriminate].
    - rewrite convert_any_eq. assert (X : forall acc, convert_any acc m <> Panic /\ convert_any acc m <> OutOfFuel); [|destruct (X []), (convert_any [] m); try congruence; split; discriminate].
      induction IH as [|[k d] m [H1 H2] _ IHm]; intros acc; cbn [convert_any]; [split; discriminate|]. cbn [snd] in *.
      destruct k; try (split; discriminate). destruct (convert d); try congruence; [apply IHm|split; discriminate].
  Qed.
End Convert.

(** Comparison. *)
Section Equal.
  Variable F : Type.
  Variable feq : F -> F -> bool.
  Variable of_int : Z -> F.
  Notation value := (value F).
  Notation deep_equal := (deep_equal F feq).
  Notation alike := (alike F feq).
  Fixpoint deep_list (l l' : list value) : bool :=
    match l, l' with [], [] => true | x :: l, y :: l' => deep_equal x y && deep_list l l' | _, _ => false end.
  Fixpoint deep_map (m m' : list (bytes * value)) : bool :=
    match m, m' with [], [] => true | (k, x) :: m, (k', y) :: m' => beqb k k' && deep_equal x y && deep_map m m' | _, _ => false end.
  Lemma deep_arr : forall l l', deep_equal (XArr l) (XArr l') = deep_list l l'.
  Proof. reflexivity. Qed.
  Lemma deep_obj : forall m m', deep_equal (XObj m) (XObj m') = deep_map m m'.
  Proof. reflexivity. Qed.
  Lemma deep_iff : forall a b, deep_equal a b = true <-> alike a b.
  Proof.
    induction a as [x|x|x|x|x|l IH|m IH|v IH|k v IH] using value_ind2; intros b; destruct b as [y|y|y|y|y|l'|m'|w|k' w];
      try (split; intros H; [discriminate|inversion H]).
    - cbn. rewrite Bool.eqb_true_iff. split; [intros ->; constructor|intros H; inversion H; reflexivity].
    - cbn. rewrite Bool.eqb_true_iff. split; [intros ->; constructor|intros H; inversion H; reflexivity].
    - cbn. rewrite Z.eqb_eq. split; [intros ->; constructor|intros H; inversion H; reflexivity].
    - cbn. split; [intros; constructor; assumption|intros H; inversion H; assumption].
    - cbn. rewrite beqb_eq. split; [intros ->; constructor|intros H; inversion H; reflexivity].
    - rewrite deep_arr. assert (X : forall l', deep_list l l' = true <-> Forall2 alike l l').
      { clear l'. induction IH as [|x l Hx _ IHl]; intros [|y l']; cbn [deep_list]; try (split; intros H; [discriminate|inversion H]).
        - split; [intros; constructor|reflexivity].
        - rewrite andb_true_iff, Hx, IHl. split; [intros [H1 H2]; constructor; assumption|intros H; inversion H; auto]. }
      rewrite X. split; [intros; constructor; assumption|intros H; inversion H; assumption].
    - rewrite deep_obj. assert (X : forall m', deep_map m m' = true <-> Forall2 (fun kv kv' => fst kv = fst kv' /\ alike (snd kv) (snd kv')) m m').
      { clear m'. induction IH as [|[k x] m Hx _ IHl]; intros [|[k' y] m']; cbn [deep_map]; try (split; intros H; [discriminate|inversion H]).
        - split; [intros; constructor|reflexivity].
        - cbn [snd] in Hx. rewrite !andb_true_iff, Hx, IHl, beqb_eq. split; [intros [[-> H1] H2]; constructor; cbn; auto|intros H; inversion H; cbn in *; tauto]. }
      rewrite X. split; [intros; constructor; assumption|intros H; inversion H; assumption].
    - cbn [M_Value.deep_equal]. rewrite IH. split; [intros; constructor; assumption|intros H; inversion H; assumption].
    - cbn [M_Value.deep_equal]. rewrite andb_true_iff, IH, beqb_eq. split; [intros [-> ?]; constructor; assumption|intros H; inversion H; auto].
  Qed.
  Lemma stands_ex : forall v : value, exists w, stands F v w.
  Proof.
    induction v as [x|x|x|x|x|l IH|m IH|v [w IH]|k v [w IH]] using value_ind2;
      try (eexists; apply sf_here; intros; discriminate); exists w; constructor; assumption.
  Qed.
  Lemma stands_same : forall v w, stands F v w -> vtype F v = vtype F w /\ vnumber F of_int v = vnumber F of_int w /\ vinteger F v = vinteger F w /\
    vboolean F v = vboolean F w /\ vis_null F v = vis_null F w /\ vstring F v = vstring F w /\ vlen F v = vlen F w /\ vkeys F v = vkeys F w /\
    (forall i, vindex F v i = vindex F w i) /\ (forall k, vmap_index F v k = vmap_index F w k).
  Proof. intros v w H. induction H; cbn; auto. repeat split; auto. Qed.
  Lemma stands_fun : forall v w, stands F v w -> forall w', stands F v w' -> w = w'.
  Proof.
    intros v w H. induction H as [v Hp Hk|v w H IH|k v w H IH]; intros w' H'.
    - inversion H'; subst; [reflexivity|elim (Hp v0); reflexivity|elim (Hk k v0); reflexivity].
    - inversion H' as [? Hp| |]; subst; [elim (Hp v); reflexivity|auto].
    - inversion H' as [? ? Hk| |]; subst; [elim (Hk k v); reflexivity|auto].
  Qed.
  Lemma stands_shape : forall v w, stands F v w -> (forall x, w <> XPtr x) /\ (forall k x, w <> XKeyed k x).
  Proof. intros v w H. induction H; auto. Qed.
  Lemma equal_exact : forall a b, exists r, vequal F feq of_int a b = Ok r /\ (r = true <-> equals F feq a b).
  Proof.
    intros a b. destruct (stands_ex a) as [x Hx]. destruct (stands_ex b) as [y Hy].
    destruct (stands_same _ _ Hx) as [T1 [N1 [I1 [B1 [Z1 [S1 _]]]]]]. destruct (stands_same _ _ Hy) as [T2 [N2 [I2 [B2 [Z2 [S2 _]]]]]].
    destruct (stands_shape _ _ Hx) as [P1 K1]. destruct (stands_shape _ _ Hy) as [P2 K2].
    assert (INV : equals F feq a b -> ((exists l l', x = XArr l /\ y = XArr l') \/ (exists m m', x = XObj m /\ y = XObj m')) /\ alike a b \/
      (exists p q, x = XNull p /\ y = XNull q) \/ (exists p, x = XBool p /\ y = XBool p) \/ (exists z, x = XInt z /\ y = XInt z) \/
      (exists f g, x = XNum f /\ y = XNum g /\ feq f g = true) \/ (exists s, x = XStr s /\ y = XStr s)).
    { intros H. destruct H as [a b x' y' H1 H2 H3 H4|a b p q H1 H2|a b p H1 H2|a b z H1 H2|a b f g H1 H2 H3|a b s H1 H2];
        pose proof (stands_fun _ _ Hx _ H1); pose proof (stands_fun _ _ Hy _ H2); subst; eauto 10. }
    unfold vequal. rewrite T1, T2, N1, N2, I1, I2, B1, B2, Z1, Z2, S1, S2.
    destruct x as [p|p|p|p|p|l|m|v|k v]; try (elim (P1 v); reflexivity); try (elim (K1 k v); reflexivity);
      (destruct y as [q|q|q|q|q|l'|m'|w|k' w]; try (elim (P2 w); reflexivity); try (elim (K2 k' w); reflexivity));
      cbn [vtype vnumber vinteger vboolean vis_null vstring N.eqb Pos.eqb negb orb tNull tBoolean tInteger tNumber tString tArray tObject];
      try (exists false; split; [reflexivity|split; [discriminate|]]; intros H; apply INV in H; exfalso; clear - H; decompose [and or ex] H; discriminate);
      (eexists; split; [reflexivity|]).
    - cbn [Bool.eqb]. split; [intros _; eapply eq_null; eassumption|reflexivity].
    - rewrite Bool.eqb_true_iff. split; [intros ->; eapply eq_bool; eassumption|]. intros H. apply INV in H. clear - H. decompose [and or ex] H; congruence.
    - rewrite Z.eqb_eq. split; [intros ->; eapply eq_int; eassumption|]. intros H. apply INV in H. clear - H. decompose [and or ex] H; congruence.
    - split; [intros H; eapply eq_num; eassumption|]. intros H. apply INV in H. clear - H. decompose [and or ex] H; congruence.
    - rewrite beqb_eq. split; [intros ->; eapply eq_str; eassumption|]. intros H. apply INV in H. clear - H. decompose [and or ex] H; congruence.
    - rewrite deep_iff. split; [intros H; eapply eq_deep; eauto 10|]. intros H. apply INV in H. clear - H. decompose [and or ex] H; try congruence; assumption.
    - rewrite deep_iff. split; [intros H; eapply eq_deep; eauto 10|]. intros H. apply INV in H. clear - H. decompose [and or ex] H; try congruence; assumption.
  Qed.
  Lemma alike_refl : forall v, numbers F (fun f => feq f f = true) v <-> alike v v.
  Proof.
    induction v as [x|x|x|x|x|l IH|m IH|v IH|k v IH] using value_ind2; try (split; intros; constructor; fail).
    - split; intros H; inversion H; constructor; assumption.
    - split; intros H; inversion H; subst; constructor.
      + clear H. induction IH as [|x l Hx _ IHl]; [constructor|]. inversion H1; subst. constructor; [apply Hx; assumption|auto].
      + clear H. induction IH as [|x l Hx _ IHl]; [constructor|]. inversion H2; subst. constructor; [apply Hx; assumption|auto].
    - split; intros H; inversion H; subst; constructor.
      + clear H. induction IH as [|x l Hx _ IHl]; [constructor|]. inversion H1; subst. constructor; [split; [reflexivity|apply Hx; assumption]|auto].
      + clear H. induction IH as [|x l Hx _ IHl]; [constructor|]. inversion H2 as [|? ? ? ? [_ A] B]; subst. constructor; [apply Hx; assumption|auto].
    - split; intros H; inversion H; subst; constructor; apply IH; assumption.
    - split; intros H; inversion H; subst; constructor; apply IH; assumption.
  Qed.
  Lemma alike_sym : (forall f g, feq f g = true -> feq g f = true) -> forall a b, alike a b -> alike b a.
  Proof.
    intros Hs. induction a as [x|x|x|x|x|l IH|m IH|v IH|k v IH] using value_ind2; intros b H; inversion H; subst; constructor; auto.
    - clear H. revert l' H1. induction IH as [|x l Hx _ IHl]; intros l' H; inversion H; subst; constructor; auto.
    - clear H. revert m' H1. induction IH as [|x l Hx _ IHl]; intros l' H; inversion H as [|? ? ? ? [? ?] ?]; subst; constructor; auto.
  Qed.
  Lemma alike_trans : (forall f g h, feq f g = true -> feq g h = true -> feq f h = true) -> forall a b c, alike a b -> alike b c -> alike a c.
  Proof.
    intros Ht. induction a as [x|x|x|x|x|l IH|m IH|v IH|k v IH] using value_ind2; intros b c H1 H2; inversion H1; subst; inversion H2; subst; constructor; eauto.
    - clear H1 H2. revert l' l'0 H0 H3. induction IH as [|x l Hx _ IHl]; intros l' l'' A B; inversion A; subst; inversion B; subst; constructor; eauto.
    - clear H1 H2. revert m' m'0 H0 H3. induction IH as [|x l Hx _ IHl]; intros l' l'' A B; inversion A as [|? ? ? ? [? ?] ?]; subst; inversion B as [|? ? ? ? [? ?] ?]; subst; constructor; eauto.
      split; [congruence|eauto].
  Qed.
End Equal.

(** Printing and reading back. *)
Section Back.
  Variable F : Type.
  Variable parse_float : bytes -> option F.
  Variable float32_ok : bytes -> bool.
  Variable fmt_float : F -> option bytes.
  Notation value := (value F).
  Definition lit (t : bytes) : option bytes := match scan_number t with Some (n, []) => Some n | _ => None end.
  Lemma lit_strict : forall t, strict_number t -> lit t = Some t.
  Proof. intros t H. unfold lit. pose proof (number_scan t [] H I) as X. rewrite app_nil_r in X. rewrite X. reflexivity. Qed.
  Lemma lit_format : strict_format bytes lit (@Some bytes).
  Proof.
    intros f t H. unfold lit in H. destruct (scan_number f) as [[n [|? ?]]|] eqn:E; try discriminate. injection H as <-.
    apply scan_number_inv in E. rewrite app_nil_r in E. destruct E as [E ->]. auto.
  Qed.
  (** [printed g h]: h is g with numbers as text. *)
  Inductive printed : gval F -> gval bytes -> Prop :=
  | pt_nil : printed VNil VNil
  | pt_bool : forall b, printed (VBool b) (VBool b)
  | pt_int : forall z, printed (VInt z) (VInt z)
  | pt_float : forall f t, fmt_float f = Some t -> strict_number t -> printed (VFloat f) (VFloat t)
  | pt_str : forall s, printed (VStr s) (VStr s)
  | pt_arr : forall l l', Forall2 printed l l' -> printed (VArr l) (VArr l')
  | pt_map : forall m m', Forall2 (fun kv kv' => fst kv = fst kv' /\ printed (snd kv) (snd kv')) m m' -> printed (VMap m) (VMap m').
  Lemma marshal_printed : forall g h, printed g h -> forall sp ind nl, exists t, marshal F fmt_float sp ind nl g = Some t /\ marshal bytes lit sp ind nl h = Some t.
  Proof.
    induction g as [|b|z|f|s|s|l IH|m IH] using gval_ind2; intros h H sp ind nl; inversion H; subst; try (eexists; split; reflexivity).
    - destruct b; eexists; split; reflexivity.
    - cbn. rewrite H1, (lit_strict _ H2). eauto.
    - destruct l as [|v l]; inversion H1 as [|? h0 ? l1 Hv Hl]; subst; [eexists; split; reflexivity|]. rewrite !marshal_arr.
      inversion IH as [|? ? IHv IHl]; subst. destruct (IHv _ Hv sp ind (nl ++ ind)) as [a [-> ->]].
      assert (X : exists b, marshal_tail F fmt_float sp ind nl l = Some b /\ marshal_tail bytes lit sp ind nl l1 = Some b); [|destruct X as [b [-> ->]]; eauto].
      clear H1 IH IHv Hv H. induction Hl as [|x y l l1 Hx Hl IH2]; [eexists; split; reflexivity|]. inversion IHl as [|? ? IHx IHl2]; subst. cbn [marshal_tail].
      destruct (IHx _ Hx sp ind (nl ++ ind)) as [p [-> ->]]. destruct (IH2 IHl2) as [b [-> ->]]. eauto.
    - destruct m as [|[k v] l]; inversion H1 as [|? [k' h0] ? l1 [Hk Hv] Hl]; subst; [eexists; split; reflexivity|]. cbn [fst snd] in *. subst k'. rewrite !marshal_map.
      inversion IH as [|? ? IHv IHl]; subst. cbn [snd] in IHv. destruct (IHv _ Hv sp ind (nl ++ ind)) as [a [-> ->]].
      assert (X : exists b, marshal_ptail F fmt_float sp ind nl l = Some b /\ marshal_ptail bytes lit sp ind nl l1 = Some b); [|destruct X as [b [-> ->]]; eauto].
      clear H1 IH IHv Hv H. induction Hl as [|[kx x] [ky y] l l1 [Hk Hx] Hl IH2]; [eexists; split; reflexivity|]. inversion IHl as [|? ? IHx IHl2]; subst. cbn [marshal_ptail fst snd] in *. subst ky.
      destruct (IHx _ Hx sp ind (nl ++ ind)) as [p [-> ->]]. destruct (IH2 IHl2) as [b [-> ->]]. eauto.
  Qed.
  Hypothesis fmt_ok : strict_format F fmt_float parse_float.
  Notation returnable := (returnable F float32_ok fmt_float).
  Lemma sorted_by_keys : forall A B (m : list (bytes * A)) (m' : list (bytes * B)), map fst m = map fst m' -> sorted m -> sorted m'.
  Proof.
    assert (K : forall A B (m : list (bytes * A)) (m' : list (bytes * B)) k, map fst m = map fst m' -> key_above k m -> key_above k m').
    { induction m as [|[k1 v1] m IH]; intros [|[k2 v2] m'] k E H; try discriminate; [exact I|]. cbn in E. injection E as -> E. destruct H as [H1 H2]. split; eauto. }
    induction m as [|[k1 v1] m IH]; intros [|[k2 v2] m'] E H; try discriminate; [exact I|]. cbn in E. injection E as -> E. destruct H as [H1 H2]. split; eauto.
  Qed.
  (** What is written and what is read back. *)
  Definition goes (d : nat) (v : value) : Prop := exists h g, printed (plain F v) h /\ line_back bytes (@Some bytes) h g /\ deep bytes d h /\ reads F parse_float float32_ok g v.
  Lemma list_goes : forall d l, Forall (goes d) l -> exists hs gs, Forall2 printed (map (plain F) l) hs /\ Forall2 (line_back bytes (@Some bytes)) hs gs /\
    Forall (deep bytes d) hs /\ Forall2 (reads F parse_float float32_ok) gs l.
  Proof.
    intros d l H. induction H as [|v l [h [g [A [B [C D]]]]] _ [hs [gs [A1 [B1 [C1 D1]]]]]]; [exists [], []; cbn; auto|].
    exists (h :: hs), (g :: gs). cbn [map]. auto.
  Qed.
  Lemma map_goes : forall d m, Forall (fun kv => well_formed (fst kv) /\ goes d (snd kv)) m -> exists hs gs,
    Forall2 (fun kv kv' => fst kv = fst kv' /\ printed (snd kv) (snd kv')) (map (fun kv => (fst kv, plain F (snd kv))) m) hs /\
    Forall2 (fun kv kv' => cleaned (fst kv) (fst kv') /\ line_back bytes (@Some bytes) (snd kv) (snd kv')) hs gs /\
    Forall (fun kv => deep bytes d (snd kv)) hs /\ Forall2 (fun kv kv' => fst kv = fst kv' /\ reads F parse_float float32_ok (snd kv) (snd kv')) gs m.
  Proof.
    intros d m H. induction H as [|[k v] m [Hk [h [g [A [B [C D]]]]]] _ [hs [gs [A1 [B1 [C1 D1]]]]]]; [exists [], []; cbn; auto|].
    exists ((k, h) :: hs), ((k, g) :: gs). cbn [map fst snd] in *. repeat split; auto; constructor; cbn [fst snd]; auto. split; [apply cleaned_well_formed; assumption|assumption].
  Qed.
  Lemma all_go : forall v, returnable v -> forall d, shallow F d v -> goes d v.
  Proof.
    induction v as [x|x|x|x|x|l IH|m IH|v IH|k v IH] using value_ind2; intros H d Hd; inversion H; subst.
    - exists VNil, VNil. repeat split; constructor.
    - exists (VBool x), (VBool x). repeat split; constructor.
    - exists (VInt x), (VFloat (itoa x)). repeat split; try constructor; auto. apply integer_parse, parse_signed_itoa.
    - destruct (fmt_ok _ _ H1) as [S1 S2]. exists (VFloat t), (VFloat t). repeat split; try constructor; auto.
    - exists (VStr x), (VStr x). repeat split; try constructor. apply cleaned_well_formed. assumption.
    - inversion Hd; subst. destruct (list_goes d0 l) as [hs [gs [A [B [C D]]]]].
      { rewrite Forall_forall in *. intros y Hy. apply IH; auto. }
      exists (VArr hs), (VArr gs). repeat split; constructor; assumption.
    - inversion Hd; subst. destruct (map_goes d0 m) as [hs [gs [A [B [C D]]]]].
      { rewrite Forall_forall in *. intros y Hy. destruct (H2 y Hy). split; [assumption|]. apply IH; auto. }
      exists (VMap hs), (VMap gs). repeat split; try (constructor; assumption).
      replace (VMap gs) with (object_of bytes gs); [constructor; assumption|].
      assert (Sg : sorted gs).
      { assert (K : map fst m = map fst gs) by (clear - D; induction D as [|? ? ? ? [E _] _ IH2]; cbn; [reflexivity|rewrite E; f_equal; assumption]).
        exact (sorted_by_keys _ _ _ _ K H1). }
      unfold object_of. rewrite (P_NDJson.fold_set_sorted bytes) by assumption. reflexivity.
  Qed.
End Back.

Lemma fold_any_sorted_aux : forall A (m acc : list (bytes * A)), sorted (acc ++ m) -> fold_left (fun o kv => map_set (fst kv) (snd kv) o) m acc = acc ++ m.
Proof.
  assert (L : forall A (acc : list (bytes * A)) k v m, sorted (acc ++ (k, v) :: m) -> map_set k v acc = acc ++ [(k, v)]).
  { induction acc as [|[k1 v1] acc IH]; intros k v m H; cbn [app map_set]; [reflexivity|]. cbn [app] in H. destruct H as [H1 H2].
    assert (HL : bcmp k1 k = Lt). { clear - H1. induction acc as [|[k2 v2] acc IH]; cbn [app key_above] in H1; [exact (proj1 H1)|apply IH; exact (proj2 H1)]. }
    rewrite bcmp_antisym, HL. cbn [CompOpp]. f_equal. eapply IH; eassumption. }
  intros A. induction m as [|[k v] m IH]; intros acc H; cbn [fold_left]; [rewrite app_nil_r; reflexivity|]. cbn [fst snd].
  rewrite (L _ _ _ _ _ H). rewrite IH; rewrite <- app_assoc; [reflexivity|exact H].
Qed.
Lemma fold_any_sorted : forall A (m : list (bytes * A)), sorted m -> fold_left (fun o kv => map_set (fst kv) (snd kv) o) m [] = m.
Proof. intros A m H. apply (fold_any_sorted_aux A m []). assumption. Qed.

(** Walking through values. *)
Section Walk.
  Variable F : Type.
  Variable parse_float : bytes -> option F.
  Variable float32_ok : bytes -> bool.
  Notation reads := (reads F parse_float float32_ok).
  Lemma Forall2_nth : forall A B (R : A -> B -> Prop) l m, Forall2 R l m -> forall i,
    match nth_error l i, nth_error m i with Some x, Some y => R x y | None, None => True | _, _ => False end.
  Proof. intros A B R l m H. induction H as [|x y l m Hx _ IH]; intros [|i]; cbn; auto; apply IH. Qed.
  Lemma Forall2_get : forall A B (R : bytes * A -> bytes * B -> Prop), (forall x y, R x y -> fst x = fst y) -> forall m o, Forall2 R m o -> forall k,
    match map_get k m, map_get k o with Some x, Some y => R (k, x) (k, y) | None, None => True | _, _ => False end.
  Proof.
    intros A B R HR m o H k. induction H as [|[k1 x] [k2 y] m o H1 _ IH]; [exact I|]. pose proof (HR _ _ H1) as E. cbn in E. subst k2.
    cbn [map_get]. destruct (beqb_spec k k1) as [->|]; assumption.
  Qed.
  (** Objects of the tree are sorted. *)
  Lemma walk_exact : forall p g v, settled_value bytes g -> reads g v -> forall v', walks F v p v' <-> exists g', at_path g p g' /\ reads g' v'.
  Proof.
    induction p as [|s p IH]; intros g v Hs Hr v'.
    - split; [intros H; inversion H; subst; exists g; split; [constructor|assumption]|].
      intros [g' [H Hr']]. inversion H; subst. assert (v = v'); [|subst; constructor].
      clear - Hr Hr'. revert v v' Hr Hr'. induction g' as [|b|z|f|s|s|l IH|m IH] using gval_ind2; intros v v' H1 H2; inversion H1; inversion H2; subst; try reflexivity.
      + f_equal. match goal with A : integer_text _ _, B : integer_text _ _ |- _ => apply integer_parse in A; apply integer_parse in B; congruence end.
      + exfalso. match goal with A : forall z, ~ _, B : integer_text _ _ |- _ => exact (A _ B) end.
      + exfalso. match goal with A : forall z, ~ _, B : integer_text _ _ |- _ => exact (A _ B) end.
      + f_equal. congruence.
      + f_equal. clear H1 H2. match goal with A : Forall2 _ l vs, B : Forall2 _ l vs0 |- _ => revert vs vs0 A B end. induction IH as [|x l Hx _ IHl]; intros vs vs' A B; inversion A; inversion B; subst; [reflexivity|]. f_equal; eauto.
      + f_equal. clear H1 H2. match goal with A : Forall2 _ m o, B : Forall2 _ m o0 |- _ => revert o o0 A B end. induction IH as [|[kx x] l Hx _ IHl]; intros vs vs' A B; inversion A as [|? [ka a] ? ? [A1 A2]]; inversion B as [|? [kb b] ? ? [B1 B2]]; subst; [reflexivity|].
        cbn [fst snd] in *. subst. f_equal; [|eauto]. f_equal. eauto.
    - split.
      + intros H. inversion H as [|? i w ? ? Hi Hw|? k w ? ? Hk Hw]; subst.
        * inversion Hr; subst; try discriminate. cbn [vindex] in Hi. replace (Z.of_nat i <? 0)%Z with false in Hi by (symmetry; apply Z.ltb_ge; lia). rewrite Nat2Z.id in Hi.
          pose proof (Forall2_nth _ _ _ _ _ H0 i) as X. destruct (nth_error vs i) as [y|]; [|discriminate]. injection Hi as ->.
          destruct (nth_error l i) as [gi|] eqn:El; [|contradiction]. inversion Hs; subst.
          assert (Sg : settled_value bytes gi) by (rewrite Forall_forall in *; match goal with A : forall x, In x l -> _ |- _ => apply A; eapply nth_error_In; eassumption end).
          apply (IH gi w Sg X) in Hw. destruct Hw as [g' [A B]]. exists g'. split; [econstructor; eassumption|assumption].
        * inversion Hr; subst; try discriminate. cbn [vmap_index] in Hk. injection Hk as Hk.
          pose proof (Forall2_get _ _ _ (fun x y (H : fst x = fst y /\ reads (snd x) (snd y)) => proj1 H) _ _ H0 k) as X. rewrite Hk in X.
          destruct (map_get k m) as [gi|] eqn:El; [|contradiction]. cbn [fst snd] in X. destruct X as [_ X]. inversion Hs as [| | | | |? Sm Fm]; subst.
          apply map_get_in in El; [|apply sorted_nodup; assumption].
          assert (Sg : settled_value bytes gi) by (rewrite Forall_forall in Fm; exact (proj2 (Fm _ El))).
          apply (IH gi w Sg X) in Hw. destruct Hw as [g' [A B]]. exists g'. split; [econstructor; eassumption|assumption].
      + intros [g' [H Hr']]. inversion H as [|l i gi ? ? Hi Hw|m k gi ? ? Hk Hw]; subst.
        * inversion Hr; subst. pose proof (Forall2_nth _ _ _ _ _ H1 i) as X. rewrite Hi in X. destruct (nth_error vs i) as [w|] eqn:Ev; [|contradiction].
          inversion Hs; subst. apply wk_index with w.
          -- cbn [vindex]. replace (Z.of_nat i <? 0)%Z with false by (symmetry; apply Z.ltb_ge; lia). rewrite Nat2Z.id, Ev. reflexivity.
          -- apply (IH gi w); [rewrite Forall_forall in *; match goal with A : forall x, In x l -> _ |- _ => apply A; eapply nth_error_In; eassumption end|assumption|]. exists g'. auto.
        * inversion Hr; subst. inversion Hs as [| | | | |? Sm Fm]; subst. pose proof Hk as Hin.
          apply map_get_in in Hk; [|apply sorted_nodup; assumption].
          pose proof (Forall2_get _ _ _ (fun x y (H : fst x = fst y /\ reads (snd x) (snd y)) => proj1 H) _ _ H1 k) as X. rewrite Hk in X.
          destruct (map_get k o) as [w|] eqn:Eo; [|contradiction]. destruct X as [_ X]. cbn [snd] in X.
          apply wk_key with w; [cbn; rewrite Eo; reflexivity|]. apply (IH gi w); [|assumption|exists g'; auto].
          rewrite Forall_forall in Fm. exact (proj2 (Fm _ Hin)).
  Qed.

  (** Two scans of the same text. *)
  Inductive valued : gval bytes -> gval F -> Prop :=
  | vd_nil : valued VNil VNil
  | vd_bool : forall b, valued (VBool b) (VBool b)
  | vd_num : forall t f, parse_float t = Some f -> valued (VFloat t) (VFloat f)
  | vd_str : forall s, valued (VStr s) (VStr s)
  | vd_arr : forall l l', Forall2 valued l l' -> valued (VArr l) (VArr l')
  | vd_map : forall m m', Forall2 (fun kv kv' => fst kv = fst kv' /\ valued (snd kv) (snd kv')) m m' -> valued (VMap m) (VMap m').
  Notation fscan := (std_value F parse_float).
  Lemma scan_both : forall f,
    (forall d s g r h r', scan f d s = Ok (g, r) -> fscan f d s = Ok (h, r') -> r = r' /\ valued g h) /\
    (forall d acc acc' s g r h r', Forall2 valued acc acc' -> std_rest bytes (@Some bytes) f d acc s = Ok (g, r) -> std_rest F parse_float f d acc' s = Ok (h, r') -> r = r' /\ valued g h) /\
    (forall d s k g r k' h r', std_pair bytes (@Some bytes) f d s = Ok (k, g, r) -> std_pair F parse_float f d s = Ok (k', h, r') -> r = r' /\ k = k' /\ valued g h) /\
    (forall d acc acc' s g r h r', Forall2 (fun kv kv' => fst kv = fst kv' /\ valued (snd kv) (snd kv')) acc acc' ->
       std_prest bytes (@Some bytes) f d acc s = Ok (g, r) -> std_prest F parse_float f d acc' s = Ok (h, r') -> r = r' /\ valued g h).
  Proof.
    induction f as [|f [IHv [IHr [IHp IHq]]]]; [repeat split; intros; discriminate|]. split; [|split; [|split]].
    - intros d s g r h r' H1 H2. rewrite std_value_S in H1, H2. destruct s as [|c t]; [discriminate|].
      destruct (N.eqb c 34).
      { destruct (std_string (length t) t) as [[x r0]|]; [|discriminate]. injection H1 as <- <-. injection H2 as <- <-. split; constructor. }
      destruct (N.eqb c 91).
      { destruct d as [|d]; [discriminate|]. destruct (drop_blank t) as [|x r0]; [discriminate|].
        destruct (N.eqb x 93); [injection H1 as <- <-; injection H2 as <- <-; split; constructor; constructor|].
        destruct (scan f d (x :: r0)) as [[v1 r1]|e| |] eqn:E1; try discriminate. destruct (fscan f d (x :: r0)) as [[v2 r2]|e| |] eqn:E2; try discriminate.
        destruct (IHv _ _ _ _ _ _ E1 E2) as [-> Hv]. eapply IHr; [|exact H1|exact H2]. constructor; [assumption|constructor]. }
      destruct (N.eqb c 123).
      { destruct d as [|d]; [discriminate|]. destruct (drop_blank t) as [|x r0]; [discriminate|].
        destruct (N.eqb x 125); [injection H1 as <- <-; injection H2 as <- <-; split; constructor; constructor|].
        destruct (std_pair bytes (@Some bytes) f d (x :: r0)) as [[[k1 v1] r1]|e| |] eqn:E1; try discriminate. destruct (std_pair F parse_float f d (x :: r0)) as [[[k2 v2] r2]|e| |] eqn:E2; try discriminate.
        destruct (IHp _ _ _ _ _ _ _ _ E1 E2) as [-> [-> Hv]]. eapply IHq; [|exact H1|exact H2]. constructor; [split; [reflexivity|assumption]|constructor]. }
      destruct (prefixb (bs "null") (c :: t)); [injection H1 as <- <-; injection H2 as <- <-; split; constructor|].
      destruct (prefixb (bs "true") (c :: t)); [injection H1 as <- <-; injection H2 as <- <-; split; constructor|].
      destruct (prefixb (bs "false") (c :: t)); [injection H1 as <- <-; injection H2 as <- <-; split; constructor|].
      destruct (scan_number (c :: t)) as [[n r0]|]; [|discriminate]. destruct (parse_float n) as [x|] eqn:E; [|discriminate].
      injection H1 as <- <-. injection H2 as <- <-. split; [reflexivity|constructor; assumption].
    - intros d acc acc' s g r h r' Ha H1 H2. rewrite std_rest_S in H1, H2. destruct (drop_blank s) as [|c t]; [discriminate|].
      destruct (N.eqb c 93); [injection H1 as <- <-; injection H2 as <- <-; split; [reflexivity|constructor; assumption]|].
      destruct (N.eqb c 44); [|discriminate].
      destruct (scan f d (drop_blank t)) as [[v1 r1]|e| |] eqn:E1; try discriminate. destruct (fscan f d (drop_blank t)) as [[v2 r2]|e| |] eqn:E2; try discriminate.
      destruct (IHv _ _ _ _ _ _ E1 E2) as [-> Hv]. eapply IHr; [|exact H1|exact H2]. apply Forall2_app; [assumption|constructor; [assumption|constructor]].
    - intros d s k g r k' h r' H1 H2. rewrite std_pair_S in H1, H2. destruct s as [|c t]; [discriminate|]. destruct (negb (N.eqb c 34)); [discriminate|].
      destruct (std_string (length t) t) as [[k0 r0]|]; [|discriminate]. destruct (drop_blank r0) as [|x r1]; [discriminate|]. destruct (negb (N.eqb x 58)); [discriminate|].
      destruct (scan f d (drop_blank r1)) as [[v1 r2]|e| |] eqn:E1; try discriminate. destruct (fscan f d (drop_blank r1)) as [[v2 r3]|e| |] eqn:E2; try discriminate.
      destruct (IHv _ _ _ _ _ _ E1 E2) as [-> Hv]. injection H1 as <- <- <-. injection H2 as <- <- <-. auto.
    - intros d acc acc' s g r h r' Ha H1 H2. rewrite std_prest_S in H1, H2. destruct (drop_blank s) as [|c t]; [discriminate|].
      destruct (N.eqb c 125); [injection H1 as <- <-; injection H2 as <- <-; split; [reflexivity|constructor; assumption]|].
      destruct (N.eqb c 44); [|discriminate].
      destruct (std_pair bytes (@Some bytes) f d (drop_blank t)) as [[[k1 v1] r1]|e| |] eqn:E1; try discriminate. destruct (std_pair F parse_float f d (drop_blank t)) as [[[k2 v2] r2]|e| |] eqn:E2; try discriminate.
      destruct (IHp _ _ _ _ _ _ _ _ E1 E2) as [-> [-> Hv]]. eapply IHq; [|exact H1|exact H2]. apply set_paired; [intros x y [E _]; exact E|split; [reflexivity|assumption]|assumption].
  Qed.
  Lemma unmarshal_both : forall d data g h, unmarshal bytes (@Some bytes) d data = Ok g -> unmarshal F parse_float d data = Ok h -> valued g h.
  Proof.
    intros d data g h H1 H2. unfold unmarshal in *.
    destruct (scan (S (length data)) d (drop_blank data)) as [[g1 r1]|e| |] eqn:E1; try discriminate.
    destruct (fscan (S (length data)) d (drop_blank data)) as [[h1 r2]|e| |] eqn:E2; try discriminate.
    destruct (proj1 (scan_both _) _ _ _ _ _ _ E1 E2) as [-> Hv]. destruct (drop_blank r2); [|discriminate]. congruence.
  Qed.
  Lemma mirror_exact : forall g v h w, reads g v -> valued g h -> settled_value bytes g -> converts F (as_decoded F h) w -> mirrors F parse_float v w.
  Proof.
    induction g as [|b|z|t|s|s|l IH|m IH] using gval_ind2; intros v h w Hr Hv Hs Hc; inversion Hr; subst; inversion Hv; subst; cbn [as_decoded] in Hc; inversion Hc; subst.
    - constructor.
    - constructor.
    - econstructor; eassumption.
    - match goal with A : parse_float t = Some ?x, B : parse_float t = Some ?y |- _ => rewrite A in B; injection B as -> end. constructor.
    - constructor.
    - constructor. inversion Hs; subst. clear Hr Hv Hs Hc. revert vs l' vs0 H0 H1 H2 H3. induction IH as [|x l Hx _ IHl]; intros vs l' vs0 A B C D; inversion A; subst; inversion B; subst; cbn [map] in C; inversion C; subst; [constructor|].
      inversion D; subst. constructor; eauto.
    - inversion Hs as [| | | | |? Sm Fm]; subst.
      assert (X : Forall2 (fun kv kv' => fst kv = fst kv' /\ mirrors F parse_float (snd kv) (snd kv')) o o0 /\ map fst m = map fst o0).
      { clear Hr Hv Hs Hc Sm. revert o m' o0 H0 H1 H2. induction IH as [|[k x] l Hx _ IHl]; intros vs l' vs0 A B C; inversion A as [|? [k1 y1] ? ? [E1 R1] A2]; subst; inversion B as [|? [k2 y2] ? ? [E2 R2] B2]; subst; cbn [map] in C; inversion C as [|? [k3 y3] ? ? [E3 R3] C2]; subst; [split; [constructor|reflexivity]|].
        cbn [fst snd] in *. subst. inversion Fm as [|? ? [_ Sx] Fm2]; subst. cbn [snd] in Sx. destruct (IHl Fm2 _ _ _ A2 B2 C2) as [X1 X2]. cbn [map fst]. split; [|f_equal; assumption].
        constructor; [cbn [fst snd]; split; [reflexivity|eauto]|assumption]. }
      destruct X as [X1 X2]. rewrite fold_any_sorted; [constructor; assumption|]. exact (sorted_by_keys _ _ _ _ X2 Sm).
  Qed.
End Walk.
