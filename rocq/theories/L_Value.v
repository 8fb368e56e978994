(** Lemmas about raw messages and the reading of Values. *)
From Coq Require Import ZArith Lia.
From Verif Require Import Base M_Decimal L_Decimal M_Utf8 S_Utf8 L_Utf8 S_JsonText M_JsonWrite M_Unmarshal S_NDJson L_Unmarshal L_UnmarshalInv L_NDJson M_Doc M_Vals S_Vals L_Vals P_Vals M_Value S_Value.

Section ValueInd.
  Variable F : Type.
  Variable P : value F -> Prop.
  Hypothesis Hnull : forall b, P (XNull b).
  Hypothesis Hbool : forall b, P (XBool b).
  Hypothesis Hint : forall z, P (XInt z).
  Hypothesis Hnum : forall f, P (XNum f).
  Hypothesis Hstr : forall s, P (XStr s).
  Hypothesis Harr : forall l, Forall P l -> P (XArr l).
  Hypothesis Hobj : forall m, Forall (fun kv => P (snd kv)) m -> P (XObj m).
  Hypothesis Hptr : forall v, P v -> P (XPtr v).
  Hypothesis Hkeyed : forall k v, P v -> P (XKeyed k v).
  Fixpoint value_ind2 (v : value F) : P v :=
    match v with
    | XNull b => Hnull b
    | XBool b => Hbool b
    | XInt z => Hint z
    | XNum f => Hnum f
    | XStr s => Hstr s
    | XArr l => Harr l ((fix go (l : list (value F)) : Forall P l :=
        match l with [] => Forall_nil _ | x :: l' => Forall_cons _ (value_ind2 x) (go l') end) l)
    | XObj m => Hobj m ((fix go (m : list (bytes * value F)) : Forall (fun kv => P (snd kv)) m :=
        match m with [] => Forall_nil _ | x :: m' => Forall_cons _ (value_ind2 (snd x)) (go m') end) m)
    | XPtr v => Hptr v (value_ind2 v)
    | XKeyed k v => Hkeyed k v (value_ind2 v)
    end.
End ValueInd.

(** Texts of trees. *)
Notation tree_tail := (stail bytes (@Some bytes)).
Notation tree_pair := (spair bytes (@Some bytes)).
Notation tree_ptail := (sptail bytes (@Some bytes)).
Notation scan := (std_value bytes (@Some bytes)).

Lemma text_mono : forall F pf d v t, stext F pf d v t -> forall d', (d <= d')%nat -> stext F pf d' v t.
Proof.
  intros F pf. apply (stext_mut F pf (fun d v t => forall d', (d <= d')%nat -> stext F pf d' v t)
    (fun d v t => forall d', (d <= d')%nat -> stail F pf d' v t) (fun d v t => forall d', (d <= d')%nat -> spair F pf d' v t)
    (fun d v t => forall d', (d <= d')%nat -> sptail F pf d' v t)); intros;
    try (match goal with H : (S _ <= ?x)%nat |- _ => destruct x as [|x]; [lia|]; assert (d <= x)%nat by lia end); try (constructor; auto; fail).
Qed.
Lemma span_app : forall t r, span (t ++ r) r = t.
Proof.
  intros t r. unfold span. rewrite app_length. replace (length t + length r - length r)%nat with (length t) by lia.
  rewrite firstn_app, Nat.sub_diag, firstn_all. cbn. apply app_nil_r.
Qed.
Lemma raw_rest_text : forall d vs r, tree_tail d vs r -> forall f acc rest, (length r < f)%nat ->
  exists ts, raw_rest f d acc (r ++ 93%N :: rest) = Ok (acc ++ ts, rest) /\ Forall2 (tree_text d) vs ts /\ Forall (fun t => (length t <= length r)%nat) ts.
Proof.
  intros d vs. induction vs as [|v vs IH]; intros r H f acc rest Hf; (destruct f as [|f]; [lia|]).
  - inversion H; subst. exists []. cbn [raw_rest]. rewrite drop_blank_app by assumption.
    rewrite drop_blank_stop by reflexivity. cbn [N.eqb Pos.eqb]. rewrite app_nil_r. auto.
  - inversion H as [|? ? ? w1 w2 t r0 Hw1 Hw2 Ht Hr]; subst. rewrite !app_length in Hf. cbn [length] in Hf. rewrite !app_length in Hf.
    cbn [raw_rest]. rewrite <- app_assoc. rewrite drop_blank_app by assumption. cbn [app].
    rewrite drop_blank_stop by reflexivity. cbn [N.eqb Pos.eqb]. rewrite <- !app_assoc. rewrite drop_blank_app by assumption.
    destruct (text_head _ _ _ _ _ Ht) as [c [u [E [E1 E2]]]].
    assert (X : drop_blank (t ++ r0 ++ 93%N :: rest) = t ++ r0 ++ 93%N :: rest) by (rewrite E; apply drop_blank_stop; assumption).
    rewrite X. destruct (std_text bytes (@Some bytes)) as [S1 _]. rewrite (S1 _ _ _ Ht); [|lia|].
    2:{ inversion Hr; subst.
        - apply ends_blank; [assumption|]. cbn. auto 10.
        - rewrite <- app_assoc. apply ends_blank; [assumption|]. cbn. auto 10. }
    rewrite span_app. destruct (IH r0 Hr f (acc ++ [t]) rest) as [ts [Hts [H1 H2]]]; [rewrite E in Hf; cbn in Hf; lia|].
    exists (t :: ts). rewrite Hts, <- app_assoc. split; [reflexivity|]. split; [constructor; assumption|].
    constructor; [rewrite !app_length; cbn [length]; rewrite !app_length; lia|].
    eapply Forall_impl; [|exact H2]. cbn. intros x Hx. rewrite !app_length. cbn [length]. rewrite !app_length. lia.
Qed.
Lemma raw_array_text : forall d l w1 t w2, tree_text (S d) (VArr l) t -> blank w1 -> blank w2 ->
  exists ts, raw_array (S d) (w1 ++ t ++ w2) = Ok ts /\ Forall2 (tree_text d) l ts /\ Forall (fun x => (length x < length t)%nat) ts.
Proof.
  intros d l w1 t w2 H Hw1 Hw2. unfold raw_array. rewrite drop_blank_app by assumption.
  inversion H as [| | | | |? w Hw|? v vs w t0 r Hw Ht Hr| |]; subst.
  - cbn [app]. rewrite drop_blank_stop by reflexivity. cbn [N.eqb Pos.eqb negb]. rewrite <- app_assoc, drop_blank_app by assumption.
    cbn [app]. rewrite drop_blank_stop by reflexivity. cbn [N.eqb Pos.eqb finish]. rewrite drop_blank_all by assumption. exists []. auto.
  - cbn [app]. rewrite drop_blank_stop by reflexivity. cbn [N.eqb Pos.eqb negb]. rewrite <- !app_assoc, drop_blank_app by assumption.
    destruct (text_head _ _ _ _ _ Ht) as [c [u [E [E1 E2]]]]. cbn [app].
    assert (X : drop_blank (t0 ++ r ++ 93%N :: w2) = t0 ++ r ++ 93%N :: w2) by (rewrite E; apply drop_blank_stop; assumption).
    destruct (std_text bytes (@Some bytes)) as [S1 _].
    set (n := length (w1 ++ 91%N :: w ++ t0 ++ r ++ 93%N :: w2)).
    assert (Hn : (length t0 + length r < n)%nat) by (unfold n; rewrite !app_length; cbn [length]; rewrite !app_length; lia).
    assert (Y : scan (S n) d (t0 ++ r ++ 93%N :: w2) = Ok (v, r ++ 93%N :: w2)).
    { apply S1; [assumption|lia|]. inversion Hr; subst.
      - apply ends_blank; [assumption|]. cbn. auto 10.
      - rewrite <- app_assoc. apply ends_blank; [assumption|]. cbn. auto 10. }
    rewrite X. destruct (raw_rest_text d vs r Hr (S n) [t0] w2) as [ts [Hts [H1 H2]]]; [lia|].
    assert (Z : span (t0 ++ r ++ 93%N :: w2) (r ++ 93%N :: w2) = t0) by apply span_app.
    rewrite E in *. cbn [app] in *. rewrite (proj2 (N.eqb_neq c 93)) by assumption. rewrite Y, Z, Hts. cbn [finish].
    rewrite drop_blank_all by assumption. eexists. split; [reflexivity|]. cbn [app]. split; [constructor; assumption|].
    constructor; [|eapply Forall_impl; [|exact H2]; cbn beta; intros x Hx]; clear - Hx || clear;
      cbn [length]; rewrite !app_length; cbn [length]; rewrite !app_length; cbn [length]; lia.
Qed.

Lemma raw_rest_inv : forall d f acc s ts rest, raw_rest f d acc s = Ok (ts, rest) ->
  exists vs us r, ts = acc ++ us /\ s = r ++ 93%N :: rest /\ tree_tail d vs r /\ Forall2 (tree_text d) vs us.
Proof.
  intros d. induction f as [|f IH]; intros acc s ts rest H; [discriminate|]. cbn [raw_rest] in H.
  destruct (drop_blank_split s) as [w [Hw Ew]]. destruct (drop_blank s) as [|c t]; [discriminate|].
  destruct (N.eqb_spec c 93) as [->|_].
  - injection H as <- <-. exists [], [], w. rewrite app_nil_r. repeat split; auto. constructor. assumption.
  - destruct (N.eqb_spec c 44) as [->|_]; [|discriminate]. destruct (drop_blank_split t) as [w2 [Hw2 Ew2]].
    destruct (scan f d (drop_blank t)) as [[v r1]|e| |] eqn:E; try discriminate.
    destruct (std_inv bytes (@Some bytes) f) as [I1 _]. destruct (I1 _ _ _ _ E) as [t1 [Ht1 Et1]].
    rewrite Et1, span_app in H. destruct (IH _ _ _ _ H) as [vs [us [r [-> [-> [H1 H2]]]]]].
    exists (v :: vs), (t1 :: us), (w ++ 44%N :: w2 ++ t1 ++ r). rewrite <- app_assoc. split; [reflexivity|].
    split; [rewrite Ew, Ew2, Et1; rewrite <- !app_assoc; cbn [app]; rewrite <- !app_assoc; reflexivity|].
    split; [constructor; assumption|constructor; assumption].
Qed.
Lemma finish_inv : forall A (r : res (A * bytes)) x, finish r = Ok x -> exists w, r = Ok (x, w) /\ blank w.
Proof.
  intros A [[y w]|e| |] x H; try discriminate. cbn in H. destruct (drop_blank_split w) as [u [Hu E]]. destruct (drop_blank w); [|discriminate].
  injection H as ->. exists w. rewrite app_nil_r in E. subst. auto.
Qed.
Lemma raw_array_inv : forall depth data ts, raw_array depth data = Ok ts ->
  exists w1 t w2 l, data = w1 ++ t ++ w2 /\ blank w1 /\ blank w2 /\ tree_text depth (VArr l) t.
Proof.
  intros depth data ts H. unfold raw_array in H. destruct (drop_blank_split data) as [w1 [Hw1 E1]].
  set (n := S (length data)) in *. destruct (drop_blank data) as [|c t]; [discriminate|].
  destruct (N.eqb_spec c 91) as [->|_]; [|discriminate]. cbn [negb] in H. destruct depth as [|d]; [discriminate|].
  destruct (drop_blank_split t) as [w [Hw Ew]]. destruct (drop_blank t) as [|x r]; [discriminate|].
  destruct (N.eqb_spec x 93) as [->|_].
  - apply finish_inv in H. destruct H as [w2 [E Hw2]]. injection E as <- ->.
    exists w1, (91%N :: w ++ [93%N]), w2, []. rewrite E1, Ew. cbn [app]. rewrite <- !app_assoc. repeat split; auto. constructor. assumption.
  - destruct (scan n d (x :: r)) as [[v r1]|e| |] eqn:E; try discriminate.
    destruct (std_inv bytes (@Some bytes) n) as [I1 _]. destruct (I1 _ _ _ _ E) as [t1 [Ht1 Et1]].
    apply finish_inv in H. destruct H as [w2 [H Hw2]]. apply raw_rest_inv in H. destruct H as [vs [us [r0 [-> [-> [H1 H2]]]]]].
    exists w1, (91%N :: w ++ t1 ++ r0 ++ [93%N]), w2, (v :: vs). rewrite E1, Ew, Et1. cbn [app]. rewrite <- !app_assoc. repeat split; auto.
    constructor; assumption.
Qed.

(** Objects. *)
Definition paired (d : nat) (kv : bytes * gval bytes) (kt : bytes * bytes) : Prop := fst kv = fst kt /\ tree_text d (snd kv) (snd kt).
Lemma set_paired : forall A B (Q : bytes * A -> bytes * B -> Prop), (forall x y, Q x y -> fst x = fst y) -> forall k v t m m', Q (k, v) (k, t) -> Forall2 Q m m' -> Forall2 Q (map_set k v m) (map_set k t m').
Proof.
  intros A B Q HQ k v t m m' H Hm. induction Hm as [|[k1 v1] [k2 t1] m m' H1 Hm IH]; [constructor; auto|].
  pose proof (HQ _ _ H1) as E. cbn in E. subst k2. cbn [map_set]. destruct (bcmp k k1); repeat (constructor; auto).
Qed.
Lemma fold_paired : forall A B (Q : bytes * A -> bytes * B -> Prop), (forall x y, Q x y -> fst x = fst y) -> forall kvs kts, Forall2 Q kvs kts -> forall m m', Forall2 Q m m' ->
  Forall2 Q (fold_left (fun m kv => map_set (fst kv) (snd kv) m) kvs m) (fold_left (fun m kv => map_set (fst kv) (snd kv) m) kts m').
Proof.
  intros A B Q HQ kvs kts H. induction H as [|[k v] [k' t] kvs kts H1 H IH]; intros m m' Hm; [assumption|]. cbn [fold_left]. apply IH.
  pose proof (HQ _ _ H1) as E. cbn in E. subst k'. apply set_paired; assumption.
Qed.
Lemma raw_pair_text : forall d k v p, tree_pair d (k, v) p -> forall f rest, (length p <= f)%nat -> ends rest ->
  exists t, raw_pair f d (p ++ rest) = Ok (k, t, rest) /\ tree_text d v t /\ (length t < length p)%nat.
Proof.
  intros d k v p H f rest Hf He. inversion H as [? ? kt ? t w1 w2 Hk Hw1 Hw2 Ht]; subst. cbn [length] in Hf. rewrite !app_length in Hf. cbn [length] in Hf.
  rewrite !app_length in Hf. cbn [length] in Hf. rewrite !app_length in Hf. exists t.
  unfold raw_pair. cbn [app N.eqb Pos.eqb negb]. rewrite <- !app_assoc. cbn [app].
  rewrite (std_string_chars k kt Hk) by (rewrite app_length; cbn; lia).
  rewrite <- !app_assoc. rewrite drop_blank_app by assumption. cbn [app]. rewrite drop_blank_stop by reflexivity. cbn [N.eqb Pos.eqb negb].
  rewrite <- !app_assoc. rewrite drop_blank_app by assumption.
  destruct (text_head _ _ _ _ _ Ht) as [c [u [E [E1 E2]]]].
  assert (X : drop_blank (t ++ rest) = t ++ rest) by (rewrite E; apply drop_blank_stop; assumption).
  destruct (std_text bytes (@Some bytes)) as [S1 _]. rewrite X, (S1 _ _ _ Ht); [|lia|assumption]. rewrite span_app.
  split; [reflexivity|]. split; [assumption|]. cbn [length]. rewrite !app_length. cbn [length]. rewrite !app_length. cbn [length]. rewrite !app_length. lia.
Qed.
Lemma raw_pair_inv : forall d f s k t rest, raw_pair f d s = Ok (k, t, rest) -> exists v p, s = p ++ rest /\ tree_pair d (k, v) p /\ tree_text d v t.
Proof.
  intros d f s k t0 rest H. unfold raw_pair in H. destruct s as [|c t]; [discriminate|].
  destruct (N.eqb_spec c 34) as [->|_]; [|discriminate]. cbn [negb] in H.
  destruct (std_string (length t) t) as [[k0 r0]|] eqn:E; [|discriminate]. destruct (std_string_inv _ _ _ _ E) as [kt [Hkt ->]].
  destruct (drop_blank_split r0) as [w [Hw Ew]]. destruct (drop_blank r0) as [|x r1]; [discriminate|].
  destruct (N.eqb_spec x 58) as [->|_]; [|discriminate]. cbn [negb] in H. destruct (drop_blank_split r1) as [w2 [Hw2 Ew2]].
  destruct (scan f d (drop_blank r1)) as [[v1 r2]|e| |] eqn:E1; try discriminate.
  destruct (std_inv bytes (@Some bytes) f) as [I1 _]. destruct (I1 _ _ _ _ E1) as [t1 [Ht1 Et1]].
  rewrite Et1, span_app in H. injection H as <- <- <-.
  exists v1, (34%N :: kt ++ 34%N :: w ++ 58%N :: w2 ++ t1). split; [|split; [constructor; assumption|assumption]].
  rewrite Ew, Ew2, Et1. cbn [app]. rewrite <- !app_assoc. cbn [app]. rewrite <- !app_assoc. cbn [app]. rewrite <- !app_assoc. reflexivity.
Qed.
Lemma ptail_ends : forall d kvs r rest, tree_ptail d kvs r -> ends (r ++ 125%N :: rest).
Proof.
  intros d kvs r rest H. inversion H; subst.
  - apply ends_blank; [assumption|]. cbn. auto 10.
  - rewrite <- app_assoc. apply ends_blank; [assumption|]. cbn. auto 10.
Qed.
Lemma raw_prest_text : forall d kvs r, tree_ptail d kvs r -> forall f acc rest, (length r < f)%nat ->
  exists kts, raw_prest f d acc (r ++ 125%N :: rest) = Ok (fold_left (fun m kv => map_set (fst kv) (snd kv) m) kts acc, rest) /\
    Forall2 (paired d) kvs kts /\ Forall (fun kt => (length (snd kt) <= length r)%nat) kts.
Proof.
  intros d kvs. induction kvs as [|[k v] kvs IH]; intros r H f acc rest Hf; (destruct f as [|f]; [lia|]).
  - inversion H; subst. exists []. cbn [raw_prest]. rewrite drop_blank_app by assumption.
    rewrite drop_blank_stop by reflexivity. cbn [N.eqb Pos.eqb]. auto.
  - inversion H as [|? ? ? w1 w2 t r0 Hw1 Hw2 Ht Hr]; subst. rewrite !app_length in Hf. cbn [length] in Hf. rewrite !app_length in Hf.
    cbn [raw_prest]. rewrite <- app_assoc. rewrite drop_blank_app by assumption. cbn [app].
    rewrite drop_blank_stop by reflexivity. cbn [N.eqb Pos.eqb]. rewrite <- !app_assoc. rewrite drop_blank_app by assumption.
    destruct (pair_head _ _ _ _ _ Ht) as [u E].
    assert (X : drop_blank (t ++ r0 ++ 125%N :: rest) = t ++ r0 ++ 125%N :: rest) by (rewrite E; apply drop_blank_stop; reflexivity).
    rewrite X. destruct (raw_pair_text _ _ _ _ Ht f (r0 ++ 125%N :: rest)) as [x [Ex [Hx Lx]]]; [lia|eapply ptail_ends; eassumption|].
    rewrite Ex. destruct (IH r0 Hr f (map_set k x acc) rest) as [ts [Hts [H1 H2]]]; [rewrite E in Hf; cbn in Hf; lia|].
    exists ((k, x) :: ts). cbn [fold_left fst snd]. rewrite Hts. split; [reflexivity|]. split; [constructor; [split; auto|assumption]|].
    constructor; [cbn [snd]; rewrite !app_length; cbn [length]; rewrite !app_length; lia|].
    eapply Forall_impl; [|exact H2]. cbn. intros y Hy. rewrite !app_length. cbn [length]. rewrite !app_length. lia.
Qed.
Lemma raw_prest_inv : forall d f acc s o rest, raw_prest f d acc s = Ok (o, rest) ->
  exists kvs r, s = r ++ 125%N :: rest /\ tree_ptail d kvs r.
Proof.
  intros d. induction f as [|f IH]; intros acc s ts rest H; [discriminate|]. cbn [raw_prest] in H.
  destruct (drop_blank_split s) as [w [Hw Ew]]. destruct (drop_blank s) as [|c t]; [discriminate|].
  destruct (N.eqb_spec c 125) as [->|_].
  - injection H as <- <-. exists [], w. split; [assumption|]. constructor. assumption.
  - destruct (N.eqb_spec c 44) as [->|_]; [|discriminate]. destruct (drop_blank_split t) as [w2 [Hw2 Ew2]].
    destruct (raw_pair f d (drop_blank t)) as [[[k x] r1]|e| |] eqn:E; try discriminate.
    apply raw_pair_inv in E. destruct E as [v [p [Ep [Hp _]]]]. apply IH in H. destruct H as [kvs [r [-> H]]].
    exists ((k, v) :: kvs), (w ++ 44%N :: w2 ++ p ++ r). split; [|constructor; assumption].
    rewrite Ew, Ew2, Ep. rewrite <- !app_assoc. cbn [app]. rewrite <- !app_assoc. reflexivity.
Qed.
Lemma sub_map_set : forall A (P : bytes * A -> Prop) k v m, P (k, v) -> Forall P m -> Forall P (map_set k v m).
Proof.
  intros A P k v m H Hm. induction Hm as [|[k1 v1] m H1 Hm IH]; [constructor; auto|]. cbn [map_set]. destruct (bcmp k k1); repeat (constructor; auto).
Qed.
Lemma sub_fold : forall A (P : bytes * A -> Prop) kvs, Forall P kvs -> forall m, Forall P m -> Forall P (fold_left (fun m kv => map_set (fst kv) (snd kv) m) kvs m).
Proof.
  intros A P kvs H. induction H as [|[k v] kvs H1 H IH]; intros m Hm; [assumption|]. cbn [fold_left]. apply IH. apply sub_map_set; assumption.
Qed.
Lemma raw_object_text : forall d m w1 t w2, tree_text (S d) (VMap m) t -> blank w1 -> blank w2 ->
  exists kts, raw_object (S d) (w1 ++ t ++ w2) = Ok kts /\ Forall2 (paired d) m kts /\ Forall (fun x => (length (snd x) < length t)%nat) kts.
Proof.
  intros d l w1 t w2 H Hw1 Hw2. unfold raw_object. rewrite drop_blank_app by assumption.
  inversion H as [| | | | | | |? w Hw|? [k v] kvs w t0 r Hw Ht Hr]; subst.
  - cbn [app]. rewrite drop_blank_stop by reflexivity. cbn [N.eqb Pos.eqb negb]. rewrite <- app_assoc, drop_blank_app by assumption.
    cbn [app]. rewrite drop_blank_stop by reflexivity. cbn [N.eqb Pos.eqb finish]. rewrite drop_blank_all by assumption. exists []. auto.
  - cbn [app]. rewrite drop_blank_stop by reflexivity. cbn [N.eqb Pos.eqb negb]. rewrite <- !app_assoc, drop_blank_app by assumption.
    destruct (pair_head _ _ _ _ _ Ht) as [u E]. cbn [app].
    assert (X : drop_blank (t0 ++ r ++ 125%N :: w2) = t0 ++ r ++ 125%N :: w2) by (rewrite E; apply drop_blank_stop; reflexivity).
    set (n := length (w1 ++ 123%N :: w ++ t0 ++ r ++ 125%N :: w2)).
    assert (Hn : (length t0 + length r < n)%nat) by (unfold n; rewrite !app_length; cbn [length]; rewrite !app_length; lia).
    destruct (raw_pair_text _ _ _ _ Ht (S n) (r ++ 125%N :: w2)) as [x [Ex [Hx Lx]]]; [lia|eapply ptail_ends; eassumption|].
    destruct (raw_prest_text d kvs r Hr (S n) (map_set k x []) w2) as [kts [Hts [H1 H2]]]; [lia|].
    rewrite X. rewrite E in *. cbn [app] in *. cbn [N.eqb Pos.eqb]. rewrite Ex, Hts. cbn [finish].
    rewrite drop_blank_all by assumption. eexists. split; [reflexivity|]. split.
    + apply fold_paired; [intros ? ? [? _]; assumption|assumption|]. constructor; [split; auto|constructor].
    + apply sub_fold.
      * eapply Forall_impl; [|exact H2]. cbn beta. intros y Hy. cbn [length]. rewrite !app_length. cbn [length]. rewrite !app_length. cbn [length]. lia.
      * apply sub_map_set; [|constructor]. cbn [snd]. clear - Lx. cbn [length] in *. rewrite !app_length. cbn [length]. rewrite !app_length. cbn [length]. lia.
Qed.
Lemma raw_object_inv : forall depth data o, raw_object depth data = Ok o ->
  exists w1 t w2 m, data = w1 ++ t ++ w2 /\ blank w1 /\ blank w2 /\ tree_text depth (VMap m) t.
Proof.
  intros depth data ts H. unfold raw_object in H. destruct (drop_blank_split data) as [w1 [Hw1 E1]].
  set (n := S (length data)) in *. destruct (drop_blank data) as [|c t]; [discriminate|].
  destruct (N.eqb_spec c 123) as [->|_]; [|discriminate]. cbn [negb] in H. destruct depth as [|d]; [discriminate|].
  destruct (drop_blank_split t) as [w [Hw Ew]]. destruct (drop_blank t) as [|x r]; [discriminate|].
  destruct (N.eqb_spec x 125) as [->|_].
  - apply finish_inv in H. destruct H as [w2 [E Hw2]]. injection E as <- ->.
    exists w1, (123%N :: w ++ [125%N]), w2, []. rewrite E1, Ew. cbn [app]. rewrite <- !app_assoc. repeat split; auto. constructor. assumption.
  - destruct (raw_pair n d (x :: r)) as [[[k y] r1]|e| |] eqn:E; try discriminate.
    apply raw_pair_inv in E. destruct E as [v [p [Ep [Hp _]]]].
    apply finish_inv in H. destruct H as [w2 [H Hw2]]. apply raw_prest_inv in H. destruct H as [kvs [r0 [-> H1]]].
    eexists w1, (123%N :: w ++ p ++ r0 ++ [125%N]), w2, _. split; [rewrite E1, Ew, Ep; cbn [app]; rewrite <- !app_assoc; reflexivity|].
    split; [assumption|]. split; [assumption|]. apply (st_obj _ _ d (k, v) kvs); assumption.
Qed.

Lemma mapM_iff : forall A B (f : A -> res B) l r, mapM f l = Ok r <-> Forall2 (fun x y => f x = Ok y) l r.
Proof.
  intros A B f. induction l as [|x l IH]; intros r; cbn [mapM].
  - split; [intros H; injection H as <-; constructor|intros H; inversion H; reflexivity].
  - split.
    + destruct (f x) as [y|e| |] eqn:E; try discriminate. destruct (mapM f l) as [ys|e| |] eqn:El; try discriminate.
      intros H. injection H as <-. constructor; [assumption|]. apply IH. reflexivity.
    + intros H. inversion H as [|? y ? ys Hy Hys]; subst. apply IH in Hys. rewrite Hy, Hys. reflexivity.
Qed.
Lemma mapM_total : forall A B (f : A -> res B) l, Forall (fun x => f x <> Panic /\ f x <> OutOfFuel) l -> mapM f l <> Panic /\ mapM f l <> OutOfFuel.
Proof.
  intros A B f l H. induction H as [|x l [H1 H2] _ [I1 I2]]; cbn [mapM]; [split; discriminate|].
  destruct (f x); [|split; discriminate|tauto|tauto]. destruct (mapM f l); [| |tauto|tauto]; split; discriminate.
Qed.
Lemma Forall2_compose : forall A B C (P : A -> B -> Prop) (Q : B -> C -> Prop) (R : A -> C -> Prop) l m n,
  (forall x y z, In y m -> P x y -> Q y z -> R x z) -> Forall2 P l m -> Forall2 Q m n -> Forall2 R l n.
Proof.
  intros A B C P Q R l m n H H1. revert n. induction H1 as [|x y l m Hxy _ IH]; intros n H2; inversion H2; subst; [constructor|].
  constructor; [eapply H; [left; reflexivity|eassumption|assumption]|]. apply IH; [|assumption]. intros. eapply H; [right|..]; eassumption.
Qed.
Lemma Forall2_lift : forall A B C (P : A -> B -> Prop) (R : A -> C -> Prop) (Q : B -> C -> Prop) l m n,
  (forall x y z, In y m -> P x y -> R x z -> Q y z) -> Forall2 P l m -> Forall2 R l n -> Forall2 Q m n.
Proof.
  intros A B C P R Q l m n H H1. revert n. induction H1 as [|x y l m Hxy _ IH]; intros n H2; inversion H2; subst; [constructor|].
  constructor; [eapply H; [left; reflexivity|eassumption|assumption]|]. apply IH; [|assumption]. intros. eapply H; [right|..]; eassumption.
Qed.

(** Reading. *)
Lemma spaces_blank : forall w, spaces w -> blank w.
Proof. intros w H. eapply Forall_impl; [|exact H]. cbn. tauto. Qed.
Lemma leads_spaces : forall w c r, spaces w -> c <> 32%N -> c <> 10%N -> leads c (w ++ c :: r).
Proof. intros w c r H H1 H2. induction H as [|b w Hb _ IH]; cbn [app]; [constructor; assumption|constructor 2; assumption]. Qed.
Lemma leads_one : forall s c d, leads c s -> leads d s -> c = d.
Proof. intros s c d H. revert d. induction H as [s H1 H2|b s Hb H IH]; intros d Hd; inversion Hd; subst; auto; tauto. Qed.
Lemma leads_inv : forall c s, leads c s -> exists w r, s = w ++ c :: r /\ spaces w.
Proof.
  intros c s H. induction H as [s H1 H2|b s Hb _ [w [r [-> Hw]]]]; [exists [], s; split; [reflexivity|constructor]|].
  exists (b :: w), r. split; [reflexivity|constructor; assumption].
Qed.

Section Read.
  Variable F : Type.
  Variable parse_float : bytes -> option F.
  Variable float32_ok : bytes -> bool.
  Variable of_int : Z -> F.
  Variable depth : nat.
  (** strconv.ParseFloat accepts no blanks. *)
  Hypothesis no_blank : forall s, float32_ok s = true -> Forall (fun c => c <> 32%N /\ c <> 10%N /\ c <> 13%N /\ c <> 9%N) s.
  Notation reads := (reads F parse_float float32_ok).
  Notation unmarshal_value := (unmarshal_value F parse_float float32_ok of_int depth).
  Notation parse_type := (parse_type float32_ok).
  Notation class := (class float32_ok).
  Notation into := (into F depth).

  Definition bareb (g : gval bytes) (v : value F) : value F := match g with VArr _ | VMap _ => v | _ => XPtr v end.
  Lemma settle_bareb : forall g v, reads g v -> settle F (bareb g v) = v.
  Proof. intros g v H. destruct H; reflexivity. Qed.

  Lemma type_of_class : forall s t, class s t -> parse_type s = t.
  Proof. intros s t H. apply (parse_type_exact F parse_float float32_ok). assumption. Qed.
  Lemma class_of_type : forall s, class s (parse_type s).
  Proof. intros s. apply (parse_type_exact F parse_float float32_ok). reflexivity. Qed.

  (** Elements of arrays and objects are read by [elem]. *)
  Definition elem (f : nat) (raw : bytes) : res (value F) :=
    match unmarshal_value f raw with Ok v => Ok (settle F v) | Err e => Err e | Panic => Panic | OutOfFuel => OutOfFuel end.
  Lemma unmarshal_value_S : forall f data, unmarshal_value (S f) data =
    let t := parse_type data in
    if N.eqb t tObject then
      match raw_object depth data with
      | Ok m => match mapM (fun kv => match elem f (snd kv) with Ok v => Ok (fst kv, v) | Err e => Err e | Panic => Panic | OutOfFuel => OutOfFuel end) m with
                | Ok o => Ok (XObj o) | Err e => Err e | Panic => Panic | OutOfFuel => OutOfFuel end
      | Err e => Err e | Panic => Panic | OutOfFuel => OutOfFuel
      end
    else if N.eqb t tArray then
      match raw_array depth data with
      | Ok l => match mapM (elem f) l with Ok vs => Ok (XArr vs) | Err e => Err e | Panic => Panic | OutOfFuel => OutOfFuel end
      | Err e => Err e | Panic => Panic | OutOfFuel => OutOfFuel
      end
    else if N.eqb t tString then into (XStr []) (take_string F) data
    else if N.eqb t tInteger then into (XInt 0) (take_integer F) data
    else if N.eqb t tNumber then into (XNum (of_int 0)) (take_number F parse_float) data
    else if N.eqb t tBoolean then into (XBool false) (take_boolean F) data
    else if N.eqb t tNull then into (XNull true) (take_null F) data
    else Err err_json.
  Proof. reflexivity. Qed.

  Lemma into_iff : forall init take data v, into init take data = Ok v <->
    (v = XPtr init /\ sline bytes (@Some bytes) depth VNil data) \/
    (exists g x, sline bytes (@Some bytes) depth g data /\ g <> VNil /\ take g = Some x /\ v = XPtr x).
  Proof.
    intros init take data v. unfold M_Value.into. split.
    - intros H. destruct (unmarshal bytes (@Some bytes) depth data) as [g|e| |] eqn:E; try discriminate. apply unmarshal_exact in E.
      destruct g; try (injection H as <-; left; auto; fail); right;
        (match type of H with context [take ?g] => exists g; destruct (take g) as [x|]; [|discriminate] end; injection H as <-; exists x; repeat split; auto; discriminate).
    - intros [[-> H]|[g [x [H [Hg [Ht ->]]]]]].
      + apply unmarshal_exact in H. rewrite H. reflexivity.
      + apply unmarshal_exact in H. rewrite H. destruct g; try rewrite Ht; try reflexivity. congruence.
  Qed.
  Lemma number_start_text : forall t w1 w2, strict_number t -> spaces w1 -> number_start (w1 ++ t ++ w2).
  Proof.
    intros t w1 w2 H Hw. destruct (number_head _ H) as [c [u [-> Hc]]]. exists c. cbn [app]. split; [apply leads_spaces; [assumption|lia|lia]|lia].
  Qed.
  Lemma float_plain : forall w1 t w2, blank w1 -> blank w2 -> float32_ok (w1 ++ t ++ w2) = true -> w1 = [] /\ w2 = [].
  Proof.
    intros w1 t w2 H1 H2 H. apply no_blank in H. apply Forall_app in H. destruct H as [A H]. apply Forall_app in H. destruct H as [_ B].
    assert (X : forall w, blank w -> Forall (fun c => c <> 32%N /\ c <> 10%N /\ c <> 13%N /\ c <> 9%N) w -> w = []).
    { intros [|c w] Hw HF; [reflexivity|]. inversion Hw; inversion HF; subst. lia. }
    auto.
  Qed.

  Definition text_ok (f : nat) : Prop := forall t g, tree_text depth g t -> (length t < f)%nat ->
    forall v, unmarshal_value f t = Ok v <-> exists v0, reads g v0 /\ v = bareb g v0.
  Lemma elem_iff : forall f, text_ok f -> forall t g v, tree_text depth g t -> (length t < f)%nat -> (elem f t = Ok v <-> reads g v).
  Proof.
    intros f IH t g v Ht Hl. unfold elem. split.
    - intros H. destruct (unmarshal_value f t) as [x|e| |] eqn:E; try discriminate. apply (IH t g Ht Hl) in E. destruct E as [v0 [Hv ->]].
      injection H as <-. rewrite settle_bareb; assumption.
    - intros H. assert (E : unmarshal_value f t = Ok (bareb g v)) by (apply (IH t g Ht Hl); exists v; auto).
      rewrite E, settle_bareb by assumption. reflexivity.
  Qed.
  Lemma container_iff : forall f, text_ok f -> forall w1 t w2 g, spaces w1 -> blank w2 -> tree_text depth g t -> container g -> (length t <= f)%nat ->
    forall v, unmarshal_value (S f) (w1 ++ t ++ w2) = Ok v <-> reads g v.
  Proof.
    intros f IH w1 t w2 g Hw1 Hw2 Ht Hg Hf v. rewrite unmarshal_value_S. pose proof (spaces_blank _ Hw1) as Bw1.
    destruct depth as [|d] eqn:Ed; [inversion Ht; subst; destruct Hg|].
    destruct g as [| | | | | |l|m]; try contradiction.
    - assert (Tt : parse_type (w1 ++ t ++ w2) = tArray).
      { apply type_of_class. constructor. inversion Ht; subst; cbn [app]; (apply leads_spaces; [assumption|discriminate|discriminate]). }
      rewrite Tt. cbn [N.eqb Pos.eqb tArray tObject].
      destruct (raw_array_text d l w1 t w2 Ht Bw1 Hw2) as [ts [-> [H1 H2]]].
      assert (X : forall vs, mapM (elem f) ts = Ok vs <-> Forall2 reads l vs).
      { intros vs. rewrite mapM_iff. rewrite Forall_forall in H2. split; intros H.
        - eapply Forall2_compose; [|exact H1|exact H]. cbn. intros x y z Hy Hxy Hyz.
          eapply elem_iff; [exact IH| | |exact Hyz]; [rewrite Ed; eapply text_mono; [exact Hxy|lia]|]. specialize (H2 _ Hy). lia.
        - eapply Forall2_lift; [|exact H1|exact H]. cbn. intros x y z Hy Hxy Hyz.
          eapply elem_iff; [exact IH| | |exact Hyz]; [rewrite Ed; eapply text_mono; [exact Hxy|lia]|]. specialize (H2 _ Hy). lia. }
      split.
      + intros H. destruct (mapM (elem f) ts) as [vs|e| |] eqn:E; try discriminate. injection H as <-. constructor. apply X. reflexivity.
      + intros H. inversion H; subst. rewrite (proj2 (X vs)) by assumption. reflexivity.
    - assert (Tt : parse_type (w1 ++ t ++ w2) = tObject).
      { apply type_of_class. constructor. inversion Ht; subst; cbn [app]; (apply leads_spaces; [assumption|discriminate|discriminate]). }
      rewrite Tt. cbn [N.eqb Pos.eqb tArray tObject].
      destruct (raw_object_text d m w1 t w2 Ht Bw1 Hw2) as [ts [-> [H1 H2]]]. cbv zeta.
      set (pick := fun kv : bytes * bytes => match elem f (snd kv) with Ok v => Ok (fst kv, v) | Err e => Err e | Panic => Panic | OutOfFuel => OutOfFuel end).
      assert (X : forall o, mapM pick ts = Ok o <-> Forall2 (fun kv kv' => fst kv = fst kv' /\ reads (snd kv) (snd kv')) m o).
      { intros vs. rewrite mapM_iff. rewrite Forall_forall in H2. split; intros H.
        - eapply Forall2_compose; [|exact H1|exact H]. cbn. intros x y z Hy [Hk Hxy] Hyz. unfold pick in Hyz.
          destruct (elem f (snd y)) as [v0|e| |] eqn:E; try discriminate. injection Hyz as <-. cbn [fst snd]. split; [assumption|].
          eapply elem_iff; [exact IH| | |exact E]; [rewrite Ed; eapply text_mono; [exact Hxy|lia]|]. specialize (H2 _ Hy). lia.
        - eapply Forall2_lift; [|exact H1|exact H]. cbn. intros x y [k z] Hy [Hk Hxy] [Hk' Hyz]. cbn [fst snd] in *. unfold pick.
          assert (E : elem f (snd y) = Ok z); [|rewrite E; congruence].
          eapply elem_iff; [exact IH| | |exact Hyz]; [rewrite Ed; eapply text_mono; [exact Hxy|lia]|]. specialize (H2 _ Hy). lia. }
      split.
      + intros H. destruct (mapM pick ts) as [vs|e| |] eqn:E; try discriminate. injection H as <-. constructor. apply X. reflexivity.
      + intros H. inversion H; subst. rewrite (proj2 (X o)) by assumption. reflexivity.
  Qed.
  Lemma scalar_type : forall t g, tree_text depth g t -> ~ container g ->
    parse_type t = match g with VNil => tNull | VBool _ => tBoolean
      | VFloat _ => if float32_ok t then (if is_integer t then tInteger else tNumber) else tString | _ => tString end.
  Proof.
    intros t g Ht Hg. apply type_of_class. inversion Ht; subst; try (cbn in Hg; tauto).
    - constructor. reflexivity.
    - constructor. vm_compute. tauto.
    - constructor. vm_compute. tauto.
    - injection H0 as ->. pose proof (number_start_text f [] [] H (Forall_nil _)) as N1. cbn [app] in N1. rewrite app_nil_r in N1.
      destruct (float32_ok f) eqn:Ef.
      + destruct (is_integer f) eqn:Ei.
        * apply (is_integer_iff) in Ei. destruct Ei as [z Hz]. eapply cl_integer; eassumption.
        * constructor; auto. intros z Hz. assert (X : is_integer f = true) by (apply (is_integer_iff); exists z; assumption). congruence.
      + destruct (number_head _ H) as [c [u [-> Hc]]]. assert (L : leads c (c :: u)) by (constructor; lia).
        constructor; try (intros X; apply (leads_one _ _ _ L) in X; lia).
        * intros X. unfold boolean_word in X. vm_compute in X. repeat (destruct X as [X|X]; [injection X as <- _; lia|]). destruct X.
        * intros X. injection X as -> _. lia.
        * intros [_ X]. congruence.
    - assert (L : leads 34 (34%N :: t0 ++ [34%N])) by (constructor; discriminate).
      constructor; try (intros X; apply (leads_one _ _ _ L) in X; discriminate).
      + intros X. unfold boolean_word in X. vm_compute in X. repeat (destruct X as [X|X]; [discriminate|]). destruct X.
      + discriminate.
      + intros [[c [Hc X]] _]. apply (leads_one _ _ _ L) in Hc. lia.
  Qed.
  Lemma text_line : forall g t, tree_text depth g t -> sline bytes (@Some bytes) depth g t.
  Proof. intros g t H. exists [], t, []. cbn [app]. rewrite app_nil_r. repeat split; auto; constructor. Qed.
  Lemma plain_iff : forall f t g, tree_text depth g t -> ~ container g ->
    forall v, unmarshal_value (S f) t = Ok v <-> exists v0, reads g v0 /\ v = XPtr v0.
  Proof.
    intros f t g Ht Hg v. pose proof (text_line _ _ Ht) as Hl. rewrite unmarshal_value_S, (scalar_type t g Ht Hg).
    assert (X : forall init take v, into init take t = Ok v <-> (v = XPtr init /\ g = VNil) \/ (g <> VNil /\ exists x, take g = Some x /\ v = XPtr x)).
    { intros init take v0. rewrite into_iff. split.
      - intros [[-> H]|[g' [x [H [Hn [Hx ->]]]]]]; [left; split; [reflexivity|eapply sline_fun; eassumption]|].
        assert (g' = g) by (eapply sline_fun; eassumption). subst. right. split; [assumption|]. exists x. auto.
      - intros [[-> ->]|[Hn [x [Hx ->]]]]; [left; auto|]. right. exists g, x. auto. }
    destruct g as [|b|z|u|u|s|l|m]; try (cbn in Hg; tauto).
    - cbn [N.eqb Pos.eqb tNull tObject tArray tString tInteger tNumber tBoolean]. rewrite X. split.
      + intros [[-> _]|[H _]]; [|congruence]. eexists. split; [constructor|reflexivity].
      + intros [v0 [H ->]]. inversion H; subst. left. auto.
    - cbn [N.eqb Pos.eqb tNull tObject tArray tString tInteger tNumber tBoolean]. rewrite X. cbn [take_boolean]. split.
      + intros [[_ H]|[_ [x [H ->]]]]; [discriminate|]. injection H as <-. eexists. split; [constructor|reflexivity].
      + intros [v0 [H ->]]. inversion H; subst. right. split; [discriminate|]. eauto.
    - inversion Ht.
    - assert (E : t = u) by (inversion Ht; subst; congruence). subst u. destruct (float32_ok t) eqn:Ef.
      + destruct (is_integer t) eqn:Ei; cbn [N.eqb Pos.eqb tNull tObject tArray tString tInteger tNumber tBoolean]; rewrite X; cbn [take_integer take_number].
        * split.
          -- intros [[_ H]|[_ [x [H ->]]]]; [discriminate|]. destruct (parse_int64 t) as [z|] eqn:E; [|discriminate]. injection H as <-.
             apply int64_parse in E. exists (XInt z). split; [apply rd_int; tauto|reflexivity].
          -- intros [v0 [H ->]]. right. split; [discriminate|]. inversion H; subst.
             ++ rewrite (proj2 (int64_parse t z)) by auto. eexists. split; reflexivity.
             ++ apply (is_integer_iff) in Ei. destruct Ei as [z Hz]. match goal with H : forall z, ~ _ |- _ => elim (H z Hz) end.
        * split.
          -- intros [[_ H]|[_ [x [H ->]]]]; [discriminate|]. destruct (parse_float t) as [z|] eqn:E; [|discriminate]. injection H as <-.
             exists (XNum z). split; [apply rd_num; auto|reflexivity]. intros z' Hz. assert (Y : is_integer t = true) by (apply (is_integer_iff); exists z'; assumption). congruence.
          -- intros [v0 [H ->]]. right. split; [discriminate|]. inversion H; subst.
             ++ assert (Y : is_integer t = true) by (apply (is_integer_iff); exists z; assumption). congruence.
             ++ match goal with H : parse_float t = Some _ |- _ => rewrite H end. eexists. split; reflexivity.
      + cbn [N.eqb Pos.eqb tNull tObject tArray tString tInteger tNumber tBoolean]; rewrite X; cbn [take_string]. split.
        * intros [[_ H]|[_ [x [H ->]]]]; discriminate.
        * intros [v0 [H ->]]. inversion H; subst; congruence.
    - cbn [N.eqb Pos.eqb tNull tObject tArray tString tInteger tNumber tBoolean]. rewrite X. cbn [take_string]. split.
      + intros [[_ H]|[_ [x [H ->]]]]; [discriminate|]. injection H as <-. eexists. split; [constructor|reflexivity].
      + intros [v0 [H ->]]. inversion H; subst. right. split; [discriminate|]. eauto.
    - inversion Ht.
  Qed.
  Lemma text_all : forall f, text_ok f.
  Proof.
    induction f as [|f IH]; [intros t g _ H; lia|]. intros t g Ht Hl v. destruct g as [| | | | | |l|m]; try (apply plain_iff; [assumption|tauto]).
    - pose proof (container_iff f IH [] t [] (VArr l) (Forall_nil _) (Forall_nil _) Ht I ltac:(lia) v) as H. cbn [app] in H. rewrite app_nil_r in H.
      rewrite H. cbn [bareb]. split; [intros X; exists v; auto|intros [v0 [X ->]]; assumption].
    - pose proof (container_iff f IH [] t [] (VMap m) (Forall_nil _) (Forall_nil _) Ht I ltac:(lia) v) as H. cbn [app] in H. rewrite app_nil_r in H.
      rewrite H. cbn [bareb]. split; [intros X; exists v; auto|intros [v0 [X ->]]; assumption].
  Qed.

  Theorem exact : forall data v, unmarshal_value (S (length data)) data = Ok v <->
    document F parse_float float32_ok depth data v \/ (exists v0, v = XPtr v0 /\ scalar_document F parse_float float32_ok depth data v0).
  Proof.
    intros data v. split.
    - intros H. pose proof H as H0. rewrite unmarshal_value_S in H. pose proof (class_of_type data) as HC.
      set (ty := parse_type data) in *. clearbody ty. cbv zeta in H.
      destruct HC as [Hb| -> |Hl|Hl|z Hn Hf Hz|Hn Hf Hz|Hb Hn Ho Ha Hnum];
        cbn [N.eqb Pos.eqb tNull tObject tArray tString tInteger tNumber tBoolean] in H.
      + right. apply into_iff in H. destruct H as [[-> H]|[g [x [H [Hg [Ht ->]]]]]].
        * exfalso. apply unmarshal_exact in H. unfold boolean_word in Hb. cbn [map In] in Hb.
          repeat (destruct Hb as [<-|Hb]; [discriminate H|]). destruct Hb.
        * destruct g; try discriminate. injection Ht as <-. exists (XBool b). split; [reflexivity|].
          destruct H as [w1 [t [w2 [Hw1 [Hw2 [Ht E]]]]]].
          assert (N0 : w1 = [] /\ w2 = []).
          { assert (X : forall c, In c data -> c <> 32%N /\ c <> 10%N /\ c <> 13%N /\ c <> 9%N).
            { intros c Hc. unfold boolean_word in Hb. vm_compute in Hb. clear - Hb Hc.
              repeat (destruct Hb as [<-|Hb]; [cbn in Hc; lia|]). destruct Hb. }
            subst data. destruct w1 as [|a w1]; [destruct w2 as [|a w2]; [auto|]|]; exfalso.
            - inversion Hw2; subst. specialize (X a). cbn [app] in X. rewrite in_app_iff in X. cbn [In] in X. specialize (X ltac:(auto)). lia.
            - inversion Hw1; subst. specialize (X a (or_introl eq_refl)). lia. }
          destruct N0 as [-> ->]. cbn [app] in E. rewrite app_nil_r in E. subst t. eapply sd_plain; [exact Ht|auto|constructor].
      + right. apply into_iff in H. destruct H as [[-> H]|[g [x [H [Hg [Ht ->]]]]]].
        * eexists. split; [reflexivity|]. apply (sd_plain F parse_float float32_ok depth (bs "null") VNil (XNull true)); [constructor|auto|constructor].
        * exfalso. assert (X : sline bytes (@Some bytes) depth VNil (bs "null")) by (apply text_line; constructor).
          pose proof (sline_fun _ _ _ _ _ _ H X). congruence.
      + left. destruct (raw_object depth data) as [m|e| |] eqn:E; try discriminate.
        apply raw_object_inv in E. destruct E as [w1 [t [w2 [m0 [-> [Hw1 [Hw2 Ht]]]]]]].
        assert (Sw : spaces w1).
        { destruct (leads_inv _ _ Hl) as [w [r [E Hw]]]. assert (Et : exists u, t = 123%N :: u) by (inversion Ht; subst; eauto). destruct Et as [u ->].
          clear - E Hw Hw1. revert w r E Hw. induction Hw1 as [|a w1 Hx Hw1 IH]; intros w r E Hw; [constructor|].
          destruct w as [|b w]; cbn in E; injection E as -> E; [lia|]. inversion Hw; subst. constructor; [assumption|]. eapply IH; eassumption. }
        exists w1, t, w2, (VMap m0). repeat split; auto. eapply container_iff; [apply text_all|exact Sw|exact Hw2|exact Ht|exact I| |exact H0].
        rewrite !app_length. lia.
      + left. destruct (raw_array depth data) as [m|e| |] eqn:E; try discriminate.
        apply raw_array_inv in E. destruct E as [w1 [t [w2 [m0 [-> [Hw1 [Hw2 Ht]]]]]]].
        assert (Sw : spaces w1).
        { destruct (leads_inv _ _ Hl) as [w [r [E Hw]]]. assert (Et : exists u, t = 91%N :: u) by (inversion Ht; subst; eauto). destruct Et as [u ->].
          clear - E Hw Hw1. revert w r E Hw. induction Hw1 as [|a w1 Hx Hw1 IH]; intros w r E Hw; [constructor|].
          destruct w as [|b w]; cbn in E; injection E as -> E; [lia|]. inversion Hw; subst. constructor; [assumption|]. eapply IH; eassumption. }
        exists w1, t, w2, (VArr m0). repeat split; auto. eapply container_iff; [apply text_all|exact Sw|exact Hw2|exact Ht|exact I| |exact H0].
        rewrite !app_length. lia.
      + right. apply into_iff in H. destruct H as [[-> H]|[g [x [H [Hg [Ht ->]]]]]].
        * exfalso. destruct H as [w1 [t [w2 [Hw1 [Hw2 [Ht ->]]]]]]. destruct (float_plain _ _ _ Hw1 Hw2 Hf) as [-> ->].
          inversion Ht; subst. cbn [app] in Hz. apply integer_parse in Hz. discriminate.
        * destruct g as [| | |u| | | |]; try discriminate. cbn [take_integer] in Ht. destruct (parse_int64 u) as [z0|] eqn:E; [|discriminate]. injection Ht as <-.
          destruct H as [w1 [t [w2 [Hw1 [Hw2 [Ht ->]]]]]]. destruct (float_plain _ _ _ Hw1 Hw2 Hf) as [-> ->].
          cbn [app] in *. rewrite app_nil_r in *. assert (u = t) by (inversion Ht; subst; congruence). subst u.
          exists (XInt z0). split; [reflexivity|]. apply int64_parse in E. eapply sd_plain; [exact Ht|auto|]. constructor; tauto.
      + right. apply into_iff in H. destruct H as [[-> H]|[g [x [H [Hg [Ht ->]]]]]].
        * exfalso. destruct H as [w1 [t [w2 [Hw1 [Hw2 [Ht ->]]]]]]. destruct (float_plain _ _ _ Hw1 Hw2 Hf) as [-> ->].
          inversion Ht; subst. cbn [app] in Hn. destruct Hn as [c [Hc Hn]].
          assert (L : leads 110 (bs "null")) by (constructor; discriminate). pose proof (leads_one _ _ _ Hc L). lia.
        * destruct g as [| | |u| | | |]; try discriminate. cbn [take_number] in Ht. destruct (parse_float u) as [z0|] eqn:E; [|discriminate]. injection Ht as <-.
          destruct H as [w1 [t [w2 [Hw1 [Hw2 [Ht ->]]]]]]. destruct (float_plain _ _ _ Hw1 Hw2 Hf) as [-> ->].
          cbn [app] in *. rewrite app_nil_r in *. assert (u = t) by (inversion Ht; subst; congruence). subst u.
          exists (XNum z0). split; [reflexivity|]. eapply sd_plain; [exact Ht|auto|]. constructor; auto.
      + right. apply into_iff in H. destruct H as [[-> H]|[g [x [H [Hg [Ht ->]]]]]].
        * eexists. split; [reflexivity|]. destruct H as [w1 [t [w2 [Hw1 [Hw2 [Ht ->]]]]]]. inversion Ht; subst. apply sd_null; auto.
          intros E. apply app_eq_nil in E. destruct E as [-> ->]. apply Hn. reflexivity.
        * destruct g as [| | | |s| | |]; try discriminate. injection Ht as <-. eexists. split; [reflexivity|].
          destruct H as [w1 [t [w2 [Hw1 [Hw2 [Ht ->]]]]]]. apply sd_string; assumption.
    - intros [H|[v0 [-> H]]].
      + destruct H as [w1 [t [w2 [g [Hw1 [Hw2 [-> [Ht [Hg Hr]]]]]]]]]. eapply container_iff; eauto using text_all. rewrite !app_length. lia.
      + destruct H as [t g v Ht Hg Hr|w1 w2 t s Hw1 Hw2 Ht|w1 w2 Hw1 Hw2 Hne].
        * apply (plain_iff (length t) t g Ht Hg). exists v. auto.
        * set (data := w1 ++ t ++ w2) in *. assert (HL : sline bytes (@Some bytes) depth (VStr s) data) by (exists w1, t, w2; auto).
          assert (Tt : parse_type data = tString).
          { apply type_of_class. inversion Ht as [| | | |? ? q Hq E1 E2| | | |]; subst.
            assert (Q : In 34%N data) by (unfold data; apply in_or_app; right; left; reflexivity).
            assert (L : forall c, leads c data -> (c = 34 \/ c = 13 \/ c = 9)%N).
            { intros c Hc. unfold data in Hc. clear - Hw1 Hc. revert Hc. induction Hw1 as [|a w1 Ha _ IH]; cbn [app]; intros Hc; inversion Hc; subst; auto; lia. }
            clearbody data. constructor; try (intros X; apply L in X; lia).
            - intros X. unfold boolean_word in X. vm_compute in X. repeat (destruct X as [X|X]; [rewrite <- X in Q; cbn in Q; lia|]). destruct X.
            - intros X. rewrite X in Q. cbn in Q. lia.
            - intros [[c [Hc X]] _]. apply L in Hc. lia. }
          rewrite unmarshal_value_S, Tt. cbn [N.eqb Pos.eqb tNull tObject tArray tString tInteger tNumber tBoolean].
          apply into_iff. right. exists (VStr s), (XStr s). repeat split; auto. discriminate.
        * set (data := w1 ++ bs "null" ++ w2) in *. assert (HL : sline bytes (@Some bytes) depth VNil data) by (exists w1, (bs "null"), w2; repeat split; auto; constructor).
          assert (Tt : parse_type data = tString).
          { apply type_of_class.
            assert (Q : In 110%N data) by (unfold data; apply in_or_app; right; left; reflexivity).
            assert (L : forall c, leads c data -> (c = 110 \/ c = 13 \/ c = 9)%N).
            { intros c Hc. unfold data in Hc. clear - Hw1 Hc. revert Hc. induction Hw1 as [|a w1 Ha _ IH]; cbn [app]; intros Hc; inversion Hc; subst; auto; lia. }
            assert (NN : data <> bs "null"); [|clearbody data; constructor; auto; try (intros X; apply L in X; lia)].
            { intros X. unfold data in X. apply Hne. assert (L4 : length (w1 ++ bs "null" ++ w2) = 4%nat) by (rewrite X; reflexivity).
              rewrite !app_length in L4. cbn in L4. destruct w1; [|cbn in L4; lia]. destruct w2; [reflexivity|cbn in L4; lia]. }
            - intros X. unfold boolean_word in X. vm_compute in X. repeat (destruct X as [X|X]; [rewrite <- X in Q; cbn in Q; lia|]). destruct X.
            - intros [[c [Hc X]] _]. apply L in Hc. lia. }
          rewrite unmarshal_value_S, Tt. cbn [N.eqb Pos.eqb tNull tObject tArray tString tInteger tNumber tBoolean].
          apply into_iff. left. auto.
  Qed.
End Read.
