(** Documents and their texts: the reader accepts exactly the JSON texts.  The proofs are those of L_Unmarshal and
    L_UnmarshalInv with members kept in order. *)
From Coq Require Import ZArith Lia ZifyN ZifyBool.
From Verif Require Import Base M_Decimal L_Decimal M_Utf8 S_Utf8 L_Utf8 M_Json S_JsonText S_JsonBack M_Unmarshal S_NDJson L_JsonRead L_JsonMarshal L_Unmarshal L_UnmarshalInv M_Doc M_DocText S_DocText.

Lemma doc_value_S : forall f d s, doc_value (Datatypes.S f) d s =
      match s with
      | [] => Err err_json
      | c :: t =>
          if N.eqb c 34 then
            match std_string (length t) t with Some (x, r) => Ok (JStr x, r) | None => Err err_json end
          else if N.eqb c 91 then
            match d with
            | O => Err err_json
            | Datatypes.S d =>
                match drop_blank t with
                | [] => Err err_json
                | x :: r => if N.eqb x 93 then Ok (JArr [], r)
                            else match doc_value f d (x :: r) with
                                 | Ok (v, r) => doc_rest f d [v] r
                                 | Err e => Err e | Panic => Panic | OutOfFuel => OutOfFuel
                                 end
                end
            end
          else if N.eqb c 123 then
            match d with
            | O => Err err_json
            | Datatypes.S d =>
                match drop_blank t with
                | [] => Err err_json
                | x :: r => if N.eqb x 125 then Ok (JObj [], r)
                            else match doc_pair f d (x :: r) with
                                 | Ok (k, v, r) => doc_prest f d ([(k, v)]) r
                                 | Err e => Err e | Panic => Panic | OutOfFuel => OutOfFuel
                                 end
                end
            end
          else if prefixb (bs "null") s then Ok (JNull, skipn 4 s)
          else if prefixb (bs "true") s then Ok (JBool true, skipn 4 s)
          else if prefixb (bs "false") s then Ok (JBool false, skipn 5 s)
          else match scan_number s with
               | Some (n, r) => Ok (JReal n, r)
               | None => Err err_json
               end
      end.
Proof. reflexivity. Qed.
Lemma doc_rest_S : forall f d acc s, doc_rest (Datatypes.S f) d acc s =
      match drop_blank s with
      | [] => Err err_json
      | c :: t =>
          if N.eqb c 93 then Ok (JArr acc, t)
          else if N.eqb c 44 then
            match doc_value f d (drop_blank t) with
            | Ok (v, r) => doc_rest f d (acc ++ [v]) r
            | Err e => Err e | Panic => Panic | OutOfFuel => OutOfFuel
            end
          else Err err_json
      end.
Proof. reflexivity. Qed.
Lemma doc_pair_S : forall f d s, doc_pair (Datatypes.S f) d s =
      match s with
      | [] => Err err_json
      | c :: t =>
          if negb (N.eqb c 34) then Err err_json else
          match std_string (length t) t with
          | None => Err err_json
          | Some (k, r) =>
              match drop_blank r with
              | [] => Err err_json
              | x :: r =>
                  if negb (N.eqb x 58) then Err err_json else
                  match doc_value f d (drop_blank r) with
                  | Ok (v, r) => Ok (k, v, r)
                  | Err e => Err e | Panic => Panic | OutOfFuel => OutOfFuel
                  end
              end
          end
      end.
Proof. reflexivity. Qed.
Lemma doc_prest_S : forall f d acc s, doc_prest (Datatypes.S f) d acc s =
      match drop_blank s with
      | [] => Err err_json
      | c :: t =>
          if N.eqb c 125 then Ok (JObj acc, t)
          else if N.eqb c 44 then
            match doc_pair f d (drop_blank t) with
            | Ok (k, v, r) => doc_prest f d ((acc ++ [(k, v)])) r
            | Err e => Err e | Panic => Panic | OutOfFuel => OutOfFuel
            end
          else Err err_json
      end.
Proof. reflexivity. Qed.

Definition left_less {A} (s : bytes) (x : res (A * bytes)) : Prop :=
  match x with Ok (_, r) => (length r < length s)%nat | Err _ => True | _ => False end.
Lemma doc_total : forall f,
  (forall d s, (length s < f)%nat -> left_less s (doc_value f d s)) /\
  (forall d acc s, (length s < f)%nat -> left_less s (doc_rest f d acc s)) /\
  (forall d s, (length s < f)%nat -> left_less s (doc_pair f d s)) /\
  (forall d acc s, (length s < f)%nat -> left_less s (doc_prest f d acc s)).
Proof.
  induction f as [|f [IHv [IHr [IHp IHq]]]]; [repeat split; intros; lia|]. repeat split.
  - intros d s Hf. rewrite doc_value_S. destruct s as [|c t]; [exact I|]. cbn [length] in Hf.
    destruct (N.eqb c 34).
    { destruct (std_string (length t) t) as [[x r]|] eqn:E; [|exact I]. apply std_string_length in E. cbn. lia. }
    destruct (N.eqb c 91).
    { destruct d as [|d]; [exact I|]. pose proof (drop_blank_length t) as Hs. destruct (drop_blank t) as [|x r] eqn:E; [exact I|].
      destruct (N.eqb x 93); [cbn in *; lia|].
      specialize (IHv d (x :: r) ltac:(lia)). destruct (doc_value f d (x :: r)) as [[v r1]|e| |]; cbn in IHv; try contradiction; [|exact I].
      specialize (IHr d [v] r1 ltac:(cbn in *; lia)). destruct (doc_rest f d [v] r1) as [[v2 r2]|e| |]; cbn in *; auto. lia. }
    destruct (N.eqb c 123).
    { destruct d as [|d]; [exact I|]. pose proof (drop_blank_length t) as Hs. destruct (drop_blank t) as [|x r] eqn:E; [exact I|].
      destruct (N.eqb x 125); [cbn in *; lia|].
      specialize (IHp d (x :: r) ltac:(lia)). destruct (doc_pair f d (x :: r)) as [[[k v] r1]|e| |]; cbn in IHp; try contradiction; [|exact I].
      specialize (IHq d ([(k, v)]) r1 ltac:(cbn in *; lia)). destruct (doc_prest f d ([(k, v)]) r1) as [[v2 r2]|e| |]; cbn in *; auto. lia. }
    destruct (prefixb (bs "null") (c :: t)) eqn:P1; [apply (prefixb_length unit (fun _ => None)) in P1; unfold left_less; rewrite skipn_length; cbn in *; lia|].
    destruct (prefixb (bs "true") (c :: t)) eqn:P2; [apply (prefixb_length unit (fun _ => None)) in P2; unfold left_less; rewrite skipn_length; cbn in *; lia|].
    destruct (prefixb (bs "false") (c :: t)) eqn:P3; [apply (prefixb_length unit (fun _ => None)) in P3; unfold left_less; rewrite skipn_length; cbn in *; lia|].
    destruct (scan_number (c :: t)) as [[n r]|] eqn:E; [|exact I]. 
    apply scan_number_length in E. exact E.
  - intros d acc s Hf. rewrite doc_rest_S. pose proof (drop_blank_length s) as Hs. destruct (drop_blank s) as [|c t]; [exact I|].
    cbn [length] in Hs. destruct (N.eqb c 93); [cbn; lia|]. destruct (N.eqb c 44); [|exact I].
    pose proof (drop_blank_length t) as Ht. specialize (IHv d (drop_blank t) ltac:(lia)).
    destruct (doc_value f d (drop_blank t)) as [[v r1]|e| |]; cbn in IHv; try contradiction; [|exact I].
    specialize (IHr d (acc ++ [v]) r1 ltac:(lia)). destruct (doc_rest f d (acc ++ [v]) r1) as [[v2 r2]|e| |]; cbn in *; auto. lia.
  - intros d s Hf. rewrite doc_pair_S. destruct s as [|c t]; [exact I|]. cbn [length] in Hf.
    destruct (negb (N.eqb c 34)); [exact I|]. destruct (std_string (length t) t) as [[k r]|] eqn:E; [|exact I]. apply std_string_length in E.
    pose proof (drop_blank_length r) as Hr. destruct (drop_blank r) as [|x r1]; [exact I|]. cbn [length] in Hr.
    destruct (negb (N.eqb x 58)); [exact I|]. pose proof (drop_blank_length r1) as Hr1.
    specialize (IHv d (drop_blank r1) ltac:(lia)).
    destruct (doc_value f d (drop_blank r1)) as [[v r2]|e| |]; cbn in IHv; try contradiction; [|exact I]. cbn. lia.
  - intros d acc s Hf. rewrite doc_prest_S. pose proof (drop_blank_length s) as Hs. destruct (drop_blank s) as [|c t]; [exact I|].
    cbn [length] in Hs. destruct (N.eqb c 125); [cbn; lia|]. destruct (N.eqb c 44); [|exact I].
    pose proof (drop_blank_length t) as Ht. specialize (IHp d (drop_blank t) ltac:(lia)).
    destruct (doc_pair f d (drop_blank t)) as [[[k v] r1]|e| |]; cbn in IHp; try contradiction; [|exact I].
    specialize (IHq d ((acc ++ [(k, v)])) r1 ltac:(lia)). destruct (doc_prest f d ((acc ++ [(k, v)])) r1) as [[v2 r2]|e| |]; cbn in *; auto. lia.
Qed.
Lemma doc_of_total : forall d s, doc_of_text d s <> OutOfFuel /\ doc_of_text d s <> Panic.
Proof.
  intros d s. unfold doc_of_text. pose proof (drop_blank_length s) as Hs.
  destruct (doc_total (Datatypes.S (length s))) as [H _]. specialize (H d (drop_blank s) ltac:(lia)).
  destruct (doc_value _ d (drop_blank s)) as [[v r]|e| |]; cbn in H; try contradiction; [|split; discriminate].
  destruct (drop_blank r); split; discriminate.
Qed.
Lemma text_head : forall d v t, dtext d v t -> exists c u, t = c :: u /\ is_ws c = false /\ c <> 93%N.
Proof.
  intros d v t H. destruct H; try (eexists _, _; split; [reflexivity|split; [reflexivity|discriminate]]).
  destruct (number_head _ H) as [c [u [-> Hc]]]. exists c, u. split; [reflexivity|]. unfold is_ws. split; lia.
Qed.
Lemma pair_head : forall d kv t, dpair d kv t -> exists u, t = 34%N :: u.
Proof. intros d kv t H. destruct H. eauto. Qed.

Lemma doc_texts :
  (forall d v t, dtext d v t -> forall f r, (length t <= f)%nat -> ends r -> doc_value f d (t ++ r) = Ok (v, r)) /\
  (forall d vs t, dtail d vs t -> forall f acc r, (length t < f)%nat -> doc_rest f d acc (t ++ 93%N :: r) = Ok (JArr (acc ++ vs), r)) /\
  (forall d kv t, dpair d kv t -> forall f r, (length t <= f)%nat -> ends r -> doc_pair f d (t ++ r) = Ok (fst kv, snd kv, r)) /\
  (forall d kvs t, dptail d kvs t -> forall f acc r, (length t < f)%nat ->
     doc_prest f d acc (t ++ 125%N :: r) = Ok (JObj (acc ++ kvs), r)).
Proof.
  apply doc_text_ind; intros.
  - destruct f; [cbn in *; lia|]. reflexivity.
  - destruct f; [cbn in *; lia|]. reflexivity.
  - destruct f; [cbn in *; lia|]. reflexivity.
  - destruct (number_head _ H) as [c [u [E Hc]]].
    destruct f as [|f]; [subst t; cbn in *; lia|]. rewrite doc_value_S.
    pose proof (number_scan t r H H1) as Hsc. subst t. cbn [app] in *.
    rewrite (proj2 (N.eqb_neq c 34)), (proj2 (N.eqb_neq c 91)), (proj2 (N.eqb_neq c 123)) by lia.
    assert (P : forall a p, (102 <= a)%N -> prefixb (a :: p) (c :: u ++ r) = false).
    { intros a p Ha. cbn. rewrite (proj2 (N.eqb_neq a c)) by lia. reflexivity. }
    cbn [bs map list_ascii_of_string]. rewrite !P by (vm_compute; discriminate). rewrite Hsc. reflexivity.
  - destruct f as [|f]; [cbn in *; lia|]. rewrite doc_value_S. cbn [app N.eqb Pos.eqb]. rewrite <- app_assoc. cbn [app].
    rewrite (std_string_chars s t H); [reflexivity|]. rewrite app_length. cbn. lia.
  - destruct f as [|f]; [cbn in *; lia|]. rewrite doc_value_S. cbn [app N.eqb Pos.eqb]. rewrite <- app_assoc. cbn [app].
    rewrite drop_blank_app by assumption. reflexivity.
  - destruct f as [|f]; [cbn in *; lia|]. cbn [length] in H4. rewrite !app_length in H4. cbn [length] in H4.
    rewrite doc_value_S. cbn [app N.eqb Pos.eqb]. rewrite <- !app_assoc. cbn [app].
    rewrite drop_blank_app by assumption.
    destruct (text_head _ _ _ H0) as [c [u [E [E1 E2]]]].
    assert (X : drop_blank (t ++ r ++ 93%N :: r0) = t ++ r ++ 93%N :: r0) by (rewrite E; apply drop_blank_stop; assumption).
    assert (Y : doc_value f d (t ++ r ++ 93%N :: r0) = Ok (v, r ++ 93%N :: r0)).
    { apply H1; [lia|]. inversion H2; subst.
      - apply ends_blank; [assumption|]. cbn. auto 10.
      - rewrite <- app_assoc. apply ends_blank; [assumption|]. cbn. auto 10. }
    rewrite X. rewrite E in *. cbn [app] in *. rewrite (proj2 (N.eqb_neq c 93)) by assumption. rewrite Y.
    apply (H3 f [v] r0). cbn in *. lia.
  - destruct f as [|f]; [cbn in *; lia|]. rewrite doc_value_S. cbn [app N.eqb Pos.eqb]. rewrite <- app_assoc. cbn [app].
    rewrite drop_blank_app by assumption. reflexivity.
  - destruct f as [|f]; [cbn in *; lia|]. cbn [length] in H4. rewrite !app_length in H4. cbn [length] in H4.
    rewrite doc_value_S. cbn [app N.eqb Pos.eqb]. rewrite <- !app_assoc. cbn [app].
    rewrite drop_blank_app by assumption.
    destruct (pair_head _ _ _ H0) as [u E].
    assert (X : drop_blank (t ++ r ++ 125%N :: r0) = t ++ r ++ 125%N :: r0) by (rewrite E; apply drop_blank_stop; reflexivity).
    assert (Y : doc_pair f d (t ++ r ++ 125%N :: r0) = Ok (fst kv, snd kv, r ++ 125%N :: r0)).
    { apply H1; [lia|]. inversion H2; subst.
      - apply ends_blank; [assumption|]. cbn. auto 10.
      - rewrite <- app_assoc. apply ends_blank; [assumption|]. cbn. auto 10. }
    rewrite X. rewrite E in *. cbn [app] in *. cbn [N.eqb Pos.eqb]. rewrite Y.
    destruct kv as [kk vv]. apply (H3 f [(kk, vv)] r0). cbn in *. lia.
  - destruct f as [|f]; [lia|]. rewrite doc_rest_S, drop_blank_app by assumption.
    rewrite drop_blank_stop by reflexivity. cbn [N.eqb Pos.eqb]. rewrite app_nil_r. reflexivity.
  - destruct f as [|f]; [lia|]. rewrite !app_length in H5. cbn [length] in H5. rewrite !app_length in H5.
    rewrite doc_rest_S. rewrite <- app_assoc. rewrite drop_blank_app by assumption. cbn [app].
    rewrite drop_blank_stop by reflexivity. cbn [N.eqb Pos.eqb]. rewrite <- !app_assoc. rewrite drop_blank_app by assumption.
    destruct (text_head _ _ _ H1) as [c [u [E [E1 E2]]]].
    assert (X : drop_blank (t ++ r ++ 93%N :: r0) = t ++ r ++ 93%N :: r0) by (rewrite E; apply drop_blank_stop; assumption).
    rewrite X. rewrite H2; [|lia|].
    + rewrite H4 by (subst t; cbn in *; lia). rewrite <- app_assoc. reflexivity.
    + inversion H3; subst.
      * apply ends_blank; [assumption|]. cbn. auto 10.
      * rewrite <- app_assoc. apply ends_blank; [assumption|]. cbn. auto 10.
  - destruct f as [|f]; [cbn in *; lia|]. cbn [length] in H4. rewrite !app_length in H4. cbn [length] in H4. rewrite !app_length in H4. cbn [length] in H4. rewrite !app_length in H4.
    rewrite doc_pair_S. cbn [app N.eqb Pos.eqb negb]. rewrite <- !app_assoc. cbn [app].
    rewrite (std_string_chars k kt H) by (rewrite app_length; cbn; lia).
    rewrite <- !app_assoc. rewrite drop_blank_app by assumption. cbn [app]. rewrite drop_blank_stop by reflexivity. cbn [N.eqb Pos.eqb negb].
    rewrite <- !app_assoc. rewrite drop_blank_app by assumption.
    destruct (text_head _ _ _ H2) as [c [u [E [E1 E2]]]].
    assert (X : drop_blank (t ++ r) = t ++ r) by (rewrite E; apply drop_blank_stop; assumption).
    rewrite X, H3; [reflexivity|lia|assumption].
  - destruct f as [|f]; [lia|]. rewrite doc_prest_S, drop_blank_app by assumption.
    rewrite drop_blank_stop by reflexivity. cbn [N.eqb Pos.eqb]. rewrite app_nil_r. reflexivity.
  - destruct f as [|f]; [lia|]. rewrite !app_length in H5. cbn [length] in H5. rewrite !app_length in H5.
    rewrite doc_prest_S. rewrite <- app_assoc. rewrite drop_blank_app by assumption. cbn [app].
    rewrite drop_blank_stop by reflexivity. cbn [N.eqb Pos.eqb]. rewrite <- !app_assoc. rewrite drop_blank_app by assumption.
    destruct (pair_head _ _ _ H1) as [u E].
    assert (X : drop_blank (t ++ r ++ 125%N :: r0) = t ++ r ++ 125%N :: r0) by (rewrite E; apply drop_blank_stop; reflexivity).
    rewrite X. rewrite H2; [|lia|].
    + destruct kv as [kk vv]. rewrite H4 by (subst t; cbn in *; lia). rewrite <- app_assoc. reflexivity.
    + inversion H3; subst.
      * apply ends_blank; [assumption|]. cbn. auto 10.
      * rewrite <- app_assoc. apply ends_blank; [assumption|]. cbn. auto 10.
Qed.

Theorem doc_of_line : forall d v l, dline d v l -> doc_of_text d l = Ok v.
Proof.
  intros d v l [w1 [t [w2 [H1 [H2 [Ht ->]]]]]]. unfold doc_of_text.
  rewrite drop_blank_app by assumption. destruct (text_head _ _ _ Ht) as [c [u [E [E1 E2]]]].
  assert (X : drop_blank (t ++ w2) = t ++ w2) by (rewrite E; apply drop_blank_stop; assumption).
  rewrite X. destruct doc_texts as [S1 _]. rewrite (S1 _ _ _ Ht).
  - rewrite drop_blank_all by assumption. reflexivity.
  - rewrite !app_length. lia.
  - rewrite <- (app_nil_r w2). apply ends_blank; [assumption|exact I].
Qed.
Lemma doc_inv : forall f,
  (forall d s v r, doc_value f d s = Ok (v, r) -> exists t, dtext d v t /\ s = t ++ r) /\
  (forall d acc s v r, doc_rest f d acc s = Ok (v, r) -> exists vs t, v = JArr (acc ++ vs) /\ dtail d vs t /\ s = t ++ 93%N :: r) /\
  (forall d s k v r, doc_pair f d s = Ok (k, v, r) -> exists t, dpair d (k, v) t /\ s = t ++ r) /\
  (forall d acc s v r, doc_prest f d acc s = Ok (v, r) -> exists kvs t,
     v = JObj (acc ++ kvs) /\ dptail d kvs t /\ s = t ++ 125%N :: r).
Proof.
  induction f as [|f [IHv [IHr [IHp IHq]]]]; [repeat split; intros; discriminate|]. repeat split.
  - intros d s v r H. rewrite doc_value_S in H. destruct s as [|c t]; [discriminate|].
    destruct (N.eqb_spec c 34) as [->|_].
    { destruct (std_string (length t) t) as [[x r0]|] eqn:E; [|discriminate]. injection H as <- <-.
      destruct (std_string_inv _ _ _ _ E) as [t0 [H1 ->]]. exists (34%N :: t0 ++ [34%N]). split; [constructor; assumption|].
      cbn [app]. rewrite <- app_assoc. reflexivity. }
    destruct (N.eqb_spec c 91) as [->|_].
    { destruct d as [|d]; [discriminate|]. destruct (drop_blank_split t) as [w [Hw Ew]].
      destruct (drop_blank t) as [|x r0] eqn:E; [discriminate|].
      destruct (N.eqb_spec x 93) as [->|_].
      { injection H as <- <-. exists (91%N :: w ++ [93%N]). split; [constructor; assumption|]. rewrite Ew. cbn [app]. rewrite <- app_assoc. reflexivity. }
      destruct (doc_value f d (x :: r0)) as [[v1 r1]|e| |] eqn:E1; try discriminate.
      destruct (IHv _ _ _ _ E1) as [t1 [Ht1 Et1]]. destruct (IHr _ _ _ _ _ H) as [vs [t2 [-> [Ht2 Et2]]]].
      exists (91%N :: w ++ t1 ++ t2 ++ [93%N]). split; [apply dt_arr; assumption|]. rewrite Ew, Et1, Et2. cbn [app]. rewrite <- !app_assoc. reflexivity. }
    destruct (N.eqb_spec c 123) as [->|_].
    { destruct d as [|d]; [discriminate|]. destruct (drop_blank_split t) as [w [Hw Ew]].
      destruct (drop_blank t) as [|x r0] eqn:E; [discriminate|].
      destruct (N.eqb_spec x 125) as [->|_].
      { injection H as <- <-. exists (123%N :: w ++ [125%N]). split; [constructor; assumption|]. rewrite Ew. cbn [app]. rewrite <- app_assoc. reflexivity. }
      destruct (doc_pair f d (x :: r0)) as [[[k v1] r1]|e| |] eqn:E1; try discriminate.
      destruct (IHp _ _ _ _ _ E1) as [t1 [Ht1 Et1]]. destruct (IHq _ _ _ _ _ H) as [vs [t2 [-> [Ht2 Et2]]]].
      exists (123%N :: w ++ t1 ++ t2 ++ [125%N]). split; [apply (dt_obj d (k, v1)); assumption|]. rewrite Ew, Et1, Et2. cbn [app]. rewrite <- !app_assoc. reflexivity. }
    destruct (prefixb (bs "null") (c :: t)) eqn:P1.
    { apply prefixb_inv in P1. injection H as <- <-. exists (bs "null"). split; [constructor|exact P1]. }
    destruct (prefixb (bs "true") (c :: t)) eqn:P2.
    { apply prefixb_inv in P2. injection H as <- <-. exists (bs "true"). split; [constructor|exact P2]. }
    destruct (prefixb (bs "false") (c :: t)) eqn:P3.
    { apply prefixb_inv in P3. injection H as <- <-. exists (bs "false"). split; [constructor|exact P3]. }
    destruct (scan_number (c :: t)) as [[n r0]|] eqn:E; [|discriminate]. 
    injection H as <- <-. destruct (scan_number_inv _ _ _ E) as [H1 ->]. exists n. split; [constructor; assumption|reflexivity].
  - intros d acc s v r H. rewrite doc_rest_S in H. destruct (drop_blank_split s) as [w [Hw Ew]].
    destruct (drop_blank s) as [|c t]; [discriminate|]. destruct (N.eqb_spec c 93) as [->|_].
    { injection H as <- <-. exists [], w. rewrite app_nil_r. split; [reflexivity|]. split; [constructor; assumption|assumption]. }
    destruct (N.eqb_spec c 44) as [->|_]; [|discriminate]. destruct (drop_blank_split t) as [w2 [Hw2 Ew2]].
    destruct (doc_value f d (drop_blank t)) as [[v1 r1]|e| |] eqn:E1; try discriminate.
    destruct (IHv _ _ _ _ E1) as [t1 [Ht1 Et1]]. destruct (IHr _ _ _ _ _ H) as [vs [t2 [-> [Ht2 Et2]]]].
    exists (v1 :: vs), (w ++ 44%N :: w2 ++ t1 ++ t2). rewrite <- app_assoc. split; [reflexivity|]. split; [constructor; assumption|].
    rewrite Ew, Ew2, Et1, Et2. rewrite <- !app_assoc. cbn [app]. rewrite <- !app_assoc. reflexivity.
  - intros d s k v r H. rewrite doc_pair_S in H. destruct s as [|c t]; [discriminate|].
    destruct (N.eqb_spec c 34) as [->|_]; [|discriminate]. cbn [negb] in H.
    destruct (std_string (length t) t) as [[k0 r0]|] eqn:E; [|discriminate]. destruct (std_string_inv _ _ _ _ E) as [kt [Hkt ->]].
    destruct (drop_blank_split r0) as [w [Hw Ew]]. destruct (drop_blank r0) as [|x r1]; [discriminate|].
    destruct (N.eqb_spec x 58) as [->|_]; [|discriminate]. cbn [negb] in H. destruct (drop_blank_split r1) as [w2 [Hw2 Ew2]].
    destruct (doc_value f d (drop_blank r1)) as [[v1 r2]|e| |] eqn:E1; try discriminate.
    destruct (IHv _ _ _ _ E1) as [t1 [Ht1 Et1]]. injection H as <- <- <-.
    exists (34%N :: kt ++ 34%N :: w ++ 58%N :: w2 ++ t1). split; [constructor; assumption|].
    rewrite Ew, Ew2, Et1. cbn [app]. rewrite <- !app_assoc. cbn [app]. rewrite <- !app_assoc. cbn [app]. rewrite <- !app_assoc. reflexivity.
  - intros d acc s v r H. rewrite doc_prest_S in H. destruct (drop_blank_split s) as [w [Hw Ew]].
    destruct (drop_blank s) as [|c t]; [discriminate|]. destruct (N.eqb_spec c 125) as [->|_].
    { injection H as <- <-. exists [], w. rewrite app_nil_r. split; [reflexivity|]. split; [constructor; assumption|assumption]. }
    destruct (N.eqb_spec c 44) as [->|_]; [|discriminate]. destruct (drop_blank_split t) as [w2 [Hw2 Ew2]].
    destruct (doc_pair f d (drop_blank t)) as [[[k v1] r1]|e| |] eqn:E1; try discriminate.
    destruct (IHp _ _ _ _ _ E1) as [t1 [Ht1 Et1]]. destruct (IHq _ _ _ _ _ H) as [vs [t2 [-> [Ht2 Et2]]]].
    exists ((k, v1) :: vs), (w ++ 44%N :: w2 ++ t1 ++ t2). split; [now rewrite <- app_assoc|]. split; [constructor; assumption|].
    rewrite Ew, Ew2, Et1, Et2. rewrite <- !app_assoc. cbn [app]. rewrite <- !app_assoc. reflexivity.
Qed.

Theorem doc_exact : forall d v l, doc_of_text d l = Ok v <-> dline d v l.
Proof.
  intros d v l. split; [|apply doc_of_line]. unfold doc_of_text. intros H.
  destruct (drop_blank_split l) as [w1 [Hw1 E1]].
  destruct (doc_value _ d (drop_blank l)) as [[v1 r]|e| |] eqn:E; try discriminate.
  destruct (drop_blank r) as [|x y] eqn:Er; [|discriminate]. injection H as <-.
  destruct (doc_inv (S (length l))) as [IV _]. destruct (IV _ _ _ _ E) as [t [Ht Et]].
  exists w1, t, r. split; [assumption|]. split; [apply drop_blank_nil; assumption|]. split; [assumption|]. rewrite E1, Et. reflexivity.
Qed.
(** So a line has at most one meaning, and a line without one is an error. *)
Lemma dline_fun : forall d v w l, dline d v l -> dline d w l -> v = w.
Proof. intros d v w l H1 H2. apply doc_exact in H1, H2. congruence. Qed.
Lemma doc_bad : forall d l, (forall v, ~ dline d v l) -> exists e, doc_of_text d l = Err e.
Proof.
  intros d l H. destruct (doc_of_total d l) as [H1 H2]. destruct (doc_of_text d l) as [v|e| |] eqn:E; try contradiction.
  - exfalso. apply (H v). apply doc_exact. assumption.
  - eauto.
Qed.
