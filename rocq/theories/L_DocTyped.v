(** Typed members of component documents: what they are read from. *)
From Coq Require Import ZArith Lia.
From Verif Require Import Base M_Decimal L_Decimal M_Utf8 S_Utf8 S_JsonText S_JsonBack S_NDJson M_Time S_Signing M_Doc M_Components M_Encode S_Encode M_DocText S_DocText L_DocParse L_DocTime L_DocText.

(** ** base64 *)
Lemma sextet_of_spec : forall c n, sextet_of c = Some n -> sextet n c /\ (n < 64)%N.
Proof.
  assert (A : forallb (fun k => match sextet_of (N.of_nat k) with
                                | Some n => match nth_error alphabet (N.to_nat n) with Some c => N.eqb c (N.of_nat k) | None => false end && (n <? 64)%N
                                | None => true end) (seq 0 123) = true) by (vm_compute; reflexivity).
  intros c n H. assert (B : (c < 123)%N).
  { unfold sextet_of in H.
    repeat match type of H with context [if ?b then _ else _] => destruct b eqn:?; [rewrite ?andb_true_iff, ?N.leb_le, ?N.eqb_eq in *; lia|] end. discriminate. }
  rewrite forallb_forall in A. specialize (A (N.to_nat c) ltac:(apply in_seq; lia)). rewrite N2Nat.id, H in A.
  destruct (nth_error alphabet (N.to_nat n)) as [c'|] eqn:E; [|discriminate]. rewrite andb_true_iff, N.eqb_eq, N.ltb_lt in A. destruct A as [-> A].
  split; assumption.
Qed.
Lemma groups_lax : forall k s b, (length s <= k)%nat -> (b64_groups s = Some b <-> base64_lax b s).
Proof.
  induction k as [|k IH]; intros s b L.
  { destruct s; [|cbn in L; lia]. split; [intros [= <-]; constructor|]. inversion 1; reflexivity. }
  split.
  - intros H. destruct s as [|a [|b1 [|c [|d t]]]]; try discriminate; [injection H as <-; constructor|].
    cbn [b64_groups] in H. destruct (sextet_of a) as [w|] eqn:Ea; [|discriminate]. destruct (sextet_of b1) as [x|] eqn:Eb; [|discriminate].
    apply sextet_of_spec in Ea, Eb.
    destruct (N.eqb c 61 && N.eqb d 61 && is_end t) eqn:P.
    + apply andb_true_iff in P. destruct P as [P P3]. apply andb_true_iff in P. destruct P as [P1 P2]. apply N.eqb_eq in P1, P2. subst. destruct t; [|discriminate].
      injection H as <-. apply bl_one with w x (x mod 16)%N; try tauto; lia.
    + destruct (sextet_of c) as [y|] eqn:Ec; [|discriminate]. apply sextet_of_spec in Ec.
      destruct (N.eqb d 61 && is_end t) eqn:Q.
      * apply andb_true_iff in Q. destruct Q as [Q1 Q2]. apply N.eqb_eq in Q1. subst. destruct t; [|discriminate].
        injection H as <-. apply bl_two with w x y (y mod 4)%N; try tauto; lia.
      * destruct (sextet_of d) as [z|] eqn:Ed; [|discriminate]. destruct (b64_groups t) as [r|] eqn:Et; [|discriminate]. apply sextet_of_spec in Ed.
        injection H as <-. apply bl_three with w x y z; try tauto; try lia. apply IH; [cbn in L; lia|assumption].
  - intros H. inversion H; subst; [reflexivity| | |];
      repeat match goal with H : sextet _ _ |- _ => apply sextet_read in H; destruct H as (? & ? & ? & ? & ?) end; cbn [b64_groups];
      repeat match goal with H : sextet_of _ = Some _ |- _ => rewrite H; clear H end.
    + cbn [N.eqb Pos.eqb andb is_end]. do 2 f_equal. lia.
    + rewrite (proj2 (N.eqb_neq cy 61)) by assumption. cbn [N.eqb Pos.eqb andb is_end]. do 2 f_equal; [lia|f_equal; lia].
    + rewrite (proj2 (N.eqb_neq cy 61)), (proj2 (N.eqb_neq cz 61)) by assumption. cbn [andb].
      match goal with H : base64_lax ?s ?t |- context [b64_groups ?t] => rewrite (proj2 (IH t s ltac:(cbn in L; lia)) H) end.
      do 2 f_equal; [lia|f_equal; [lia|f_equal; lia]].
Qed.
Lemma lax_plain : forall b s, base64_lax b s -> Forall (fun c => c <> 10%N /\ c <> 13%N) s.
Proof.
  induction 1; repeat match goal with H : sextet _ _ |- _ => apply sextet_read in H; destruct H as (? & ? & ? & ? & ?) end; repeat constructor; auto; discriminate.
Qed.
Lemma broken_filter : forall t, broken_up (filter (fun c => negb (N.eqb c 10 || N.eqb c 13)) t) t.
Proof.
  induction t as [|c t IH]; [constructor|]. cbn [filter]. destruct (N.eqb c 10) eqn:A; [apply N.eqb_eq in A; subst; now constructor|].
  destruct (N.eqb c 13) eqn:B; [apply N.eqb_eq in B; subst; now constructor|]. cbn [orb negb]. now constructor.
Qed.
Lemma filter_broken : forall s t, broken_up s t -> Forall (fun c => c <> 10%N /\ c <> 13%N) s -> filter (fun c => negb (N.eqb c 10 || N.eqb c 13)) t = s.
Proof.
  induction 1; intros F; [reflexivity| | |]; cbn [filter].
  - inversion F as [|? ? [A B] F']; subst. rewrite (proj2 (N.eqb_neq c 10)), (proj2 (N.eqb_neq c 13)) by assumption. cbn [orb negb]. now rewrite IHbroken_up.
  - cbn [N.eqb Pos.eqb orb negb]. auto.
  - cbn [N.eqb Pos.eqb orb negb]. auto.
Qed.
Lemma b64_iff : forall t b, b64_decode t = Some b <-> exists s, broken_up s t /\ base64_lax b s.
Proof.
  intros t b. unfold b64_decode. rewrite (groups_lax _ _ _ (le_n _)). split.
  - intros H. eexists. split; [apply broken_filter|exact H].
  - intros (s & B & H). rewrite (filter_broken s t B); [exact H|]. eapply lax_plain, H.
Qed.

(** ** Integers *)
Lemma int_literal : forall l z, strict_number l -> parse_int64 l = Some z -> (- 2 ^ 63 <= z < 2 ^ 63)%Z /\ (l = itoa z \/ l = bs "-0" /\ z = 0%Z).
Proof.
  intros l z S H. unfold parse_int64 in H. destruct (parse_signed l) as [y|] eqn:P; [|discriminate]. destruct (in_int64 y) eqn:R; [|discriminate]. injection H as ->.
  unfold in_int64, min_int64, max_int64 in R. apply andb_true_iff in R. rewrite !Z.leb_le in R. split; [lia|].
  destruct S as (g & i & f & e & -> & G & I0 & F & E).
  assert (DI : i <> [] /\ forallb is_digit i = true /\ (forall t, i = 48%N :: t -> t = [])).
  { destruct I0 as [->|(c & r & -> & C & D)]; [repeat split; [discriminate|]; intros t [= <-]; reflexivity|].
    split; [discriminate|]. split; [|intros t [= -> _]; lia]. apply forallb_forall. intros x Hx. unfold is_digit. apply andb_true_iff. rewrite !N.leb_le.
    destruct Hx as [<-|Hx]; [lia|]. unfold digits in D. rewrite Forall_forall in D. apply D in Hx. lia. }
  destruct DI as (I1 & I2 & I3).
  assert (NF : forall x, parse_digits (i ++ f ++ e) = Some x -> f ++ e = [] /\ x = dec_val i).
  { intros x Hx. unfold parse_digits in Hx. destruct (i ++ f ++ e) eqn:Q; [discriminate|]. rewrite <- Q in *. destruct (forallb is_digit (i ++ f ++ e)) eqn:D; [|discriminate]. injection Hx as <-.
    rewrite !forallb_app, !andb_true_iff in D. destruct D as (_ & D1 & D2).
    assert (f = []) as -> by (destruct F as [->|(r & -> & _)]; [reflexivity|discriminate]).
    assert (e = []) as -> by (destruct E as [->|(c & g' & r & -> & [ -> | -> ] & _)]; [reflexivity|discriminate|discriminate]).
    rewrite !app_nil_r. split; reflexivity. }
  destruct G as [->| ->].
  - cbn [app] in P |- *. destruct (i ++ f ++ e) as [|c r] eqn:Q; [discriminate|]. unfold parse_signed in P.
    assert (C : (48 <= c <= 57)%N) by (destruct i as [|c' i']; [congruence|]; cbn in Q; injection Q as -> _; cbn [forallb] in I2; apply andb_true_iff in I2; now apply digit_range).
    rewrite (proj2 (N.eqb_neq c 45)), (proj2 (N.eqb_neq c 43)) in P by lia. rewrite <- Q in *.
    destruct (parse_digits (i ++ f ++ e)) as [x|] eqn:PD; [|discriminate]. injection P as <-. destruct (NF x eq_refl) as [-> ->]. left.
    rewrite app_nil_r. unfold itoa. rewrite (proj2 (Z.ltb_ge _ _)) by lia. rewrite N2Z.id, dec_of_val; auto.
  - cbn [app] in P |- *. unfold parse_signed in P. cbn [N.eqb Pos.eqb] in P. destruct (parse_digits (i ++ f ++ e)) as [x|] eqn:PD; [|discriminate]. injection P as <-.
    destruct (NF x eq_refl) as [-> ->]. rewrite app_nil_r. pose proof (dec_of_val i I1 I2 I3) as V. destruct (N.eq_dec (dec_val i) 0) as [Z0|Z0].
    + right. rewrite Z0 in V |- *. rewrite <- V. split; reflexivity.
    + left. unfold itoa. rewrite (proj2 (Z.ltb_lt _ _)) by lia. f_equal. rewrite <- V at 1. f_equal. lia.
Qed.

(** ** The member that counts *)
Lemma beqb_same : forall a b, beqb a b = true <-> a = b.
Proof. intros. apply beqb_eq. Qed.
Lemma route_folds : forall names k n, route names k = Some n -> In n names /\ fold_name n = fold_name k.
Proof.
  intros names k n H. unfold route in H. destruct (existsb (beqb k) names) eqn:E.
  - injection H as <-. apply existsb_exists in E. destruct E as (x & I0 & Q). apply beqb_same in Q. now subst.
  - apply find_some in H. destruct H as [I0 Q]. apply beqb_same in Q. auto.
Qed.
Lemma fold_unique : forall names a b, NoDup (map fold_name names) -> In a names -> In b names -> fold_name a = fold_name b -> a = b.
Proof.
  induction names as [|x names IH]; intros a b D A B E; [contradiction|]. cbn [map] in D. inversion D as [|? ? D1 D2]; subst.
  destruct A as [->|A], B as [->|B]; auto; exfalso; apply D1; [rewrite E|rewrite <- E]; now apply in_map.
Qed.
Lemma route_same_fold : forall names k n, NoDup (map fold_name names) -> In n names -> fold_name k = fold_name n -> route names k = Some n.
Proof.
  intros names k n D I0 E. unfold route. destruct (existsb (beqb k) names) eqn:X.
  - apply existsb_exists in X. destruct X as (x & X1 & X2). apply beqb_same in X2. subst x. f_equal. eapply fold_unique; eauto.
  - destruct (find (fun m => beqb (fold_name m) (fold_name k)) names) as [m|] eqn:F.
    + apply find_some in F. destruct F as [F1 F2]. apply beqb_same in F2. f_equal. eapply fold_unique; eauto. congruence.
    + eapply find_none in F; [|exact I0]. cbv beta in F. rewrite E in F. rewrite (proj2 (beqb_same _ _) eq_refl) in F. discriminate.
Qed.
Lemma routed_last : forall renum names f n o v, NoDup (map fold_name names) -> In n names -> last_named n o v ->
  exists o', on_members renum names f (JObj o) = JObj o' /\ routed names n o' = Some (f n v).
Proof.
  intros renum names f n o v D I0 (pre & k & post & -> & E & P). eexists. split; [reflexivity|]. rewrite map_app. cbn [map fst snd].
  rewrite (route_same_fold names k n D I0 E).
  assert (T : forall post', Forall (fun kv => fold_name (fst kv) <> fold_name n) post' -> routed names n post' = None).
  { induction post' as [|[a x] post' IH]; intros F; [reflexivity|]. inversion F; subst. cbn [routed]. rewrite IH by assumption.
    destruct (route names a) as [m|] eqn:R; [|reflexivity]. destruct (beqb n m) eqn:B; [|reflexivity]. apply beqb_same in B. subst m. apply route_folds in R. cbn [fst] in *. destruct R. congruence. }
  assert (U : forall pre' x post', routed names n ((k, x) :: post') = Some x -> routed names n (pre' ++ (k, x) :: post') = Some x).
  { induction pre' as [|[a y] pre' IH]; intros x post' H; [exact H|]. cbn [app routed]. cbn [app] in IH. now rewrite (IH _ _ H). }
  apply U. cbn [routed]. rewrite T.
  - rewrite (route_same_fold names k n D I0 E), (proj2 (beqb_same n n) eq_refl). reflexivity.
  - rewrite Forall_map. exact P.
Qed.

(** What the reader makes of a text has strict numbers only. *)
Definition raw : jdoc -> Prop :=
  every (fun d => match d with JReal l => strict_number l | JInt _ | JTime _ | JB64 _ => False | _ => True end) (fun _ => True).
Lemma text_raw : 
  (forall d v t, dtext d v t -> raw v) /\ (forall d l t, dtail d l t -> Forall raw l) /\
  (forall d kv t, dpair d kv t -> raw (snd kv)) /\ (forall d o t, dptail d o t -> Forall (fun kv => raw (snd kv)) o).
Proof.
  assert (O : forall o, Forall (fun kv => raw (snd kv)) o -> raw (JObj o)).
  { intros o H. apply every_obj. split; [exact I|]. eapply Forall_impl; [|exact H]. cbn. tauto. }
  assert (A : forall l, Forall raw l -> raw (JArr l)) by (intros l H; apply every_arr; split; [exact I|exact H]).
  apply doc_text_ind; intros; auto; try (split; [exact I|exact I]); try (split; [assumption|exact I]).
Qed.
Lemma line_raw : forall d v l, dline d v l -> raw v.
Proof. intros d v l (w1 & t & w2 & _ & _ & H & _). eapply text_raw, H. Qed.
Lemma raw_last : forall o n v, raw (JObj o) -> last_named n o v -> raw v.
Proof.
  intros o n v R (pre & k & post & -> & _). apply every_obj in R. destruct R as [_ R]. apply Forall_app in R. destruct R as [_ R]. inversion R; subst. tauto.
Qed.

Section Typed.
  Variable renum : bytes -> jdoc.
  Hypothesis R : numeric renum.
  Lemma dynamic_plain : forall v, raw v -> match as_dynamic renum v with JTime _ | JB64 _ => False | _ => True end.
  Proof.
    intros v H. destruct v; try exact I; try (destruct H as [H _]; contradiction).
    cbn [as_dynamic]. destruct (R lit) as [[z ->]|[m ->]]; exact I.
  Qed.
  Lemma count_read : forall v z, raw v -> d_int (Some (as_number renum v)) = Ok z -> count_from v z.
  Proof.
    intros v z W H. destruct v; cbn [as_number as_dynamic d_int] in H; try discriminate; try (destruct W as [W _]; contradiction).
    - injection H as <-. left. auto.
    - destruct W as [W _]. destruct (parse_int64 lit) as [y|] eqn:P; [|discriminate]. injection H as ->. right. exists lit. split; [reflexivity|]. now apply int_literal.
  Qed.
  Lemma time_read_from : forall v z, raw v -> d_time (Some (as_time renum v)) = Ok z -> time_from v z.
  Proof.
    intros v z W H. destruct v; try (destruct W as [W _]; contradiction); cbn [as_time as_dynamic d_time] in H; try discriminate.
    - injection H as <-. left. auto.
    - destruct (R lit) as [[y E]|[m E]]; rewrite E in H; discriminate.
    - destruct (parse_time s) as [t|] eqn:P; [|discriminate]. injection H as ->. right. apply time_iff in P. destruct P as (f & zt & P). eauto 6.
  Qed.
  Lemma bytes_read_from : forall v z, raw v -> d_b64 (Some (as_bytes renum v)) = Ok z -> bytes_from v z.
  Proof.
    intros v z W H. destruct v; try (destruct W as [W _]; contradiction); cbn [as_bytes as_dynamic d_b64] in H; try discriminate.
    - injection H as <-. left. auto.
    - destruct (R lit) as [[y E]|[m E]]; rewrite E in H; discriminate.
    - destruct (b64_decode s) as [t|] eqn:P; [|discriminate]. injection H as <-. right. apply b64_iff in P. destruct P as (u & P). exists u, s, t. tauto.
  Qed.
  Lemma commit_typed : forall o c, raw (JObj o) -> commit_decode (read_commit renum (JObj o)) = Ok c -> commit_from o c.
  Proof.
    intros o c W H v L. assert (W' : raw v) by (eapply raw_last; eassumption).
    destruct (routed_last renum commit_names (fun n => if beqb n (bs "timestamp") then as_time renum else as_dynamic renum) (bs "timestamp") o v) as (o' & E & Q);
      [|cbn; tauto|exact L|].
    { repeat constructor; cbn; intuition discriminate. }
    unfold read_commit in H. rewrite E in H. cbn [commit_decode ref_or_object] in H. rewrite Q in H. change (beqb (bs "timestamp") (bs "timestamp")) with true in H. cbv iota in H.
    repeat match type of H with
           | rbind ?x _ = Ok _ => let y := fresh "y" in let E := fresh "E" in destruct x as [y| | |] eqn:E; cbn [rbind] in H; try discriminate
           end.
    injection H as <-. cbn [cm_timestamp]. now apply time_read_from.
  Qed.
  Ltac peel H := repeat match type of H with
           | rbind ?x _ = Ok _ => let y := fresh "y" in let E := fresh "E" in destruct x as [y| | |] eqn:E; cbn [rbind] in H; try discriminate
           end.
  Definition structure_typing (n : bytes) : jdoc -> jdoc :=
    if existsb (beqb n) [bs "depth"; bs "errCount"; bs "entries"; bs "length"] then as_number renum else as_dynamic renum.
  Lemma structure_typed : forall o s, raw (JObj o) -> structure_decode (read_structure renum (JObj o)) = Ok s -> structure_from o s.
  Proof.
    intros o s W H.
    assert (D : NoDup (map fold_name structure_names)) by (repeat constructor; cbn; intuition discriminate).
    assert (K : forall n v, last_named n o v -> In n structure_names -> exists o', read_structure renum (JObj o) = JObj o' /\ routed structure_names n o' = Some (structure_typing n v)).
    { intros n v L I0. exact (routed_last renum structure_names structure_typing n o v D I0 L). }
    assert (V : forall n v, last_named n o v -> raw v) by (intros n v L; eapply raw_last; eassumption).
    repeat split; intros v L; (destruct (K _ v L) as (o' & E & Q); [cbn; tauto|]); rewrite E in H; cbn [structure_decode ref_or_object] in H; rewrite Q in H;
      match type of Q with _ = Some (structure_typing ?n v) => change (structure_typing n v) with (as_number renum v) in H end; peel H; injection H as <-;
      cbn [st_depth st_err_count st_entries st_length]; apply count_read; eauto.
  Qed.
  Definition dataset_typing (n : bytes) : jdoc -> jdoc :=
    if beqb n (bs "commit") then read_commit renum
      else if beqb n (bs "structure") then read_structure renum
      else if beqb n (bs "numVersions") then as_number renum
      else if beqb n (bs "bodyBytes") then as_bytes renum else as_dynamic renum.
  Lemma dataset_typed : forall o d, raw (JObj o) -> dataset_decode (read_dataset renum (JObj o)) = Ok d -> dataset_from o d.
  Proof.
    intros o d W H.
    assert (D : NoDup (map fold_name dataset_names)) by (repeat constructor; cbn; intuition discriminate).
    assert (K : forall n v, last_named n o v -> In n dataset_names -> exists o', read_dataset renum (JObj o) = JObj o' /\ routed dataset_names n o' = Some (dataset_typing n v)).
    { intros n v L I0. exact (routed_last renum dataset_names dataset_typing n o v D I0 L). }
    assert (V : forall n v, last_named n o v -> raw v) by (intros n v L; eapply raw_last; eassumption).
    split; [|split; [|split]].
    - intros v L. destruct (K _ v L) as (o' & E & Q); [cbn; tauto|]. rewrite E in H. cbn [dataset_decode ref_or_object] in H. rewrite Q in H.
      change (dataset_typing (bs "numVersions") v) with (as_number renum v) in H. peel H. injection H as <-. cbn [ds_num_versions]. apply count_read; eauto.
    - intros v L. destruct (K _ v L) as (o' & E & Q); [cbn; tauto|]. rewrite E in H. cbn [dataset_decode ref_or_object] in H. rewrite Q in H.
      change (dataset_typing (bs "bodyBytes") v) with (as_bytes renum v) in H. peel H. injection H as <-. cbn [ds_body_bytes]. apply bytes_read_from; eauto.
    - intros v L. destruct (K _ (JObj v) L) as (o' & E & Q); [cbn; tauto|]. rewrite E in H. cbn [dataset_decode ref_or_object] in H. rewrite Q in H.
      change (dataset_typing (bs "structure") (JObj v)) with (read_structure renum (JObj v)) in H. 
      assert (X : forall r, d_ptr structure_decode (Some (read_structure renum (JObj v))) = Ok r -> exists s, r = Some s /\ structure_from v s).
      { clear H. intros r Hr. cbn [d_ptr] in Hr. change (read_structure renum (JObj v)) with (JObj (map (fun kv => (fst kv, match route structure_names (fst kv) with Some n => structure_typing n (snd kv) | None => as_dynamic renum (snd kv) end)) v)) in Hr.
        cbv iota in Hr. destruct (structure_decode _) as [s| | |] eqn:S; try discriminate. injection Hr as <-. exists s. split; [reflexivity|]. apply structure_typed; [eauto|exact S]. }
      peel H. injection H as <-. cbn [ds_structure]. exact (X _ eq_refl).
    - intros v L. destruct (K _ (JObj v) L) as (o' & E & Q); [cbn; tauto|]. rewrite E in H. cbn [dataset_decode ref_or_object] in H. rewrite Q in H.
      change (dataset_typing (bs "commit") (JObj v)) with (read_commit renum (JObj v)) in H. 
      assert (X : forall r, d_ptr commit_decode (Some (read_commit renum (JObj v))) = Ok r -> exists s, r = Some s /\ commit_from v s).
      { clear H. intros r Hr. cbn [d_ptr] in Hr. change (read_commit renum (JObj v)) with (JObj (map (fun kv => (fst kv, match route commit_names (fst kv) with Some n => (if beqb n (bs "timestamp") then as_time renum else as_dynamic renum) (snd kv) | None => as_dynamic renum (snd kv) end)) v)) in Hr.
        cbv iota in Hr. destruct (commit_decode _) as [s| | |] eqn:S; try discriminate. injection Hr as <-. exists s. split; [reflexivity|]. apply commit_typed; [eauto|exact S]. }
      peel H. injection H as <-. cbn [ds_commit]. exact (X _ eq_refl).
  Qed.
End Typed.
