(** Detecting the kind of a JSON or CBOR document. *)
From Coq Require Import ZArith Lia.
From Verif Require Import Base M_Bufio M_Doc M_Detect S_Detect L_Bufio L_Detect.

Lemma json_blank_dec : forall c, {json_blank c} + {~ json_blank c}.
Proof.
  intros c. unfold json_blank. destruct (N.eq_dec c 32); [left; auto|]. destruct (N.eq_dec c 9); [left; auto|].
  destruct (N.eq_dec c 10); [left; auto|]. destruct (N.eq_dec c 13); [left; auto|]. right. intuition.
Qed.
Lemma blank_test : forall c, (N.eqb c 32 || N.eqb c 9 || N.eqb c 10 || N.eqb c 13) = true <-> json_blank c.
Proof. intros c. unfold json_blank. rewrite !orb_true_iff, !N.eqb_eq. tauto. Qed.
Definition kind_of (c : N) : res (list (bytes * jdoc)) :=
  if N.eqb c 91 then Ok base_schema_array else if N.eqb c 123 then Ok base_schema_object else Err err_bad_json.
Lemma scan_blank : forall w r, Forall json_blank w -> scan_json (w ++ r) = scan_json r.
Proof.
  induction 1 as [|c w Hc Hw IH]; [reflexivity|]. cbn [app scan_json].
  destruct (N.eqb_spec c 91) as [->|]; [destruct Hc as [|[|[|]]]; discriminate|].
  destruct (N.eqb_spec c 123) as [->|]; [destruct Hc as [|[|[|]]]; discriminate|].
  apply blank_test in Hc. rewrite Hc. exact IH.
Qed.
Lemma scan_char : forall c r, ~ json_blank c -> scan_json (c :: r) = Some (kind_of c).
Proof.
  intros c r Hc. cbn [scan_json]. unfold kind_of. destruct (N.eqb c 91); [reflexivity|]. destruct (N.eqb c 123); [reflexivity|].
  destruct (N.eqb c 32 || N.eqb c 9 || N.eqb c 10 || N.eqb c 13) eqn:E; [apply blank_test in E; contradiction|reflexivity].
Qed.
Lemma blank_or_opens : forall T, Forall json_blank T \/ exists c, opens_with T c.
Proof.
  induction T as [|x T IH]; [left; constructor|]. destruct (json_blank_dec x) as [Hx|Hx].
  - destruct IH as [H|[c [w [r [E [H1 H2]]]]]]; [left; constructor; assumption|right]. exists c, (x :: w), r. subst T. split; [reflexivity|]. split; [constructor; assumption|assumption].
  - right. exists x, [], T. split; [reflexivity|]. split; [constructor|assumption].
Qed.
Lemma opens_app : forall w T c, Forall json_blank w -> opens_with T c -> opens_with (w ++ T) c.
Proof. intros w T c Hw [u [r [-> [H1 H2]]]]. exists (w ++ u), r. split; [apply app_assoc|]. split; [apply Forall_app; auto|assumption]. Qed.
Lemma opens_longer : forall T R c, opens_with T c -> opens_with (T ++ R) c.
Proof. intros T R c [u [r [-> [H1 H2]]]]. exists u, (r ++ R). split; [rewrite <- app_assoc; reflexivity|]. auto. Qed.
Lemma kind_is : forall T c, opens_with T c -> json_kind T (kind_of c).
Proof.
  intros T c H. unfold kind_of. destruct (N.eqb_spec c 91) as [->|]; [apply jk_array; assumption|].
  destruct (N.eqb_spec c 123) as [->|]; [apply jk_object; assumption|]. eapply jk_other; eassumption.
Qed.
Lemma kind_app : forall w T r, Forall json_blank w -> json_kind T r -> json_kind (w ++ T) r.
Proof.
  intros w T r Hw H. destruct H.
  - apply jk_array. apply opens_app; assumption.
  - apply jk_object. apply opens_app; assumption.
  - eapply jk_other; [apply opens_app; eassumption|assumption|assumption].
  - apply jk_blank. apply Forall_app. auto.
Qed.
Lemma scan_opens : forall d rest c, opens_with d c -> scan_json (d ++ rest) = Some (kind_of c).
Proof. intros d rest c [w [r [-> [H1 H2]]]]. rewrite <- app_assoc, scan_blank by assumption. apply scan_char. assumption. Qed.

(** What the loop says about the text T it still has to read. *)
Definition says (T : bytes) (fin : err) (r : res (list (bytes * jdoc))) : Prop :=
  (exists e, r = Err e /\ (fin = EOF -> json_kind T r)) \/ (exists m, r = Ok m /\ json_kind T r).
Lemma kind_says : forall T fin c, opens_with T c -> says T fin (kind_of c).
Proof.
  intros T fin c H. pose proof (kind_is _ _ H) as K. unfold kind_of in *.
  destruct (N.eqb c 91); [right; eauto|]. destruct (N.eqb c 123); [right; eauto|left; eauto].
Qed.
Lemma json_loop_says : forall fuel buf n s, (length (s_rem s) < fuel)%nat -> (0 < length buf)%nat -> Forall json_blank buf ->
  exists r s', json_loop fuel buf n s = (r, (n + Z.of_nat (length (s_rem s) - length (s_rem s')))%Z, s') /\ adv s s' /\ says (s_rem s) (s_fin s) r.
Proof.
  induction fuel as [|fuel IH]; intros buf n s Hf Hb Hbl; [lia|]. cbn [json_loop].
  destruct (src_progress (length buf) s Hb) as [d [e [s' [E [Ff [R P]]]]]]. rewrite E.
  assert (A : adv s s') by (split; [assumption|exists d; assumption]).
  assert (N1 : length (s_rem s) = (length d + length (s_rem s'))%nat) by (rewrite R; apply app_length).
  assert (Hd : Forall json_blank (skipn (length d) buf)).
  { rewrite <- (firstn_skipn (length d) buf) in Hbl. apply Forall_app in Hbl. apply Hbl. }
  assert (Go : d <> [] -> exists r s2,
    match scan_json (d ++ skipn (length d) buf) with
    | Some r => (r, (n + Z.of_nat (length d))%Z, s')
    | None => json_loop fuel (d ++ skipn (length d) buf) (n + Z.of_nat (length d)) s' end =
    (r, (n + Z.of_nat (length (s_rem s) - length (s_rem s2)))%Z, s2) /\ adv s s2 /\ says (s_rem s) (s_fin s) r).
  { intros Hne. destruct (blank_or_opens d) as [Hbd|[c Hc]].
    - rewrite scan_blank by assumption. rewrite <- (app_nil_r (skipn _ _)), scan_blank, app_nil_r by assumption. cbn [scan_json].
      destruct (IH (d ++ skipn (length d) buf) (n + Z.of_nat (length d))%Z s') as [r [s2 [E2 [A2 S2]]]].
      + destruct d; [congruence|]. cbn [length] in N1. lia.
      + rewrite app_length. destruct d; [congruence|]. cbn [length]. lia.
      + apply Forall_app. auto.
      + exists r, s2. rewrite E2. split.
        * f_equal. f_equal. destruct A2 as [_ [t Et]]. assert (length (s_rem s') = length t + length (s_rem s2))%nat by (rewrite Et; apply app_length). lia.
        * split; [eapply adv_trans; eassumption|]. rewrite R. destruct S2 as [[x [-> S2]]|[m [-> S2]]].
          -- left. exists x. split; [reflexivity|]. intros Hfin. apply kind_app; [assumption|]. apply S2. congruence.
          -- right. exists m. split; [reflexivity|]. apply kind_app; assumption.
    - rewrite (scan_opens d (skipn (length d) buf) c Hc). exists (kind_of c), s'. split; [f_equal; f_equal; lia|]. split; [assumption|].
      rewrite R. apply kind_says. apply opens_longer. assumption. }
  destruct e as [x|]; [|apply Go; assumption]. destruct P as [Ed [Ex Es]].
  destruct x as [|m|m z x].
  - destruct d as [|c d].
    + cbn [length]. change (0 <? 0)%nat with false. cbv iota. exists (Err err_bad_json), s'. split; [f_equal; f_equal; cbn in N1; lia|].
      split; [assumption|]. left. eexists. split; [reflexivity|]. intros _. rewrite <- Ed. apply jk_blank. constructor.
    + apply Go. discriminate.
  - exists (Err err_reading), s'. split; [f_equal; f_equal; lia|]. split; [assumption|]. left. eexists. split; [reflexivity|]. congruence.
  - exists (Err err_reading), s'. split; [f_equal; f_equal; lia|]. split; [assumption|]. left. eexists. split; [reflexivity|]. congruence.
Qed.
Lemma json_start_says : forall fuel s, (length (s_rem s) <= fuel)%nat -> exists r s',
  json_loop (S fuel) (repeat 0%N 100) 0 s = (r, Z.of_nat (length (s_rem s) - length (s_rem s')), s') /\ adv s s' /\
  ((exists e, r = Err e) \/ exists m, r = Ok m /\ json_kind (s_rem s) (Ok m)) /\
  forall d e s1, src_read 100 s = (d, e, s1) ->
    (s_fin s = EOF -> length d = 100%nat \/ Exists (fun c => ~ json_blank c) d -> json_kind (s_rem s) r) /\
    ((length d < 100)%nat -> Forall json_blank d -> exists e, r = Err e).
Proof.
  intros fuel s Hfuel.
  set (buf := repeat 0%N 100) in *. assert (Lb : length buf = 100%nat) by (unfold buf; apply repeat_length).
  assert (Hz : forall z, In z buf -> z = 0%N) by (intros z I; apply repeat_spec in I; assumption). clearbody buf.
  cbn [json_loop]. rewrite Lb. destruct (src_progress 100 s) as [d [e [s' [E [Ff [R P]]]]]]; [lia|]. rewrite E.
  assert (A : adv s s') by (split; [assumption|exists d; assumption]).
  assert (N1 : length (s_rem s) = (length d + length (s_rem s'))%nat) by (rewrite R; apply app_length).
  assert (Ld : (length d <= 100)%nat).
  { unfold src_read in E. destruct (s_rem s) as [|y l]; [injection E as <- _ _; cbn; lia|]. destruct (sched_head s 100) as [[m ea] sc].
    assert (Ed : d = firstn (Nat.min 100 m) (y :: l)) by congruence. rewrite Ed. rewrite firstn_length. pose proof (Nat.le_min_l 100 m). pose proof (Nat.le_min_l (Nat.min 100 m) (length (y :: l))). eapply Nat.le_trans; eassumption. }
  assert (Zero : (length d < 100)%nat -> exists t, skipn (length d) buf = 0%N :: t).
  { intros H. destruct (skipn (length d) buf) as [|z t] eqn:Es; [apply (f_equal (@length N)) in Es; rewrite skipn_length, Lb in Es; cbn [length] in Es; lia|].
    exists t. f_equal. assert (I : In z buf) by (rewrite <- (firstn_skipn (length d) buf), Es; apply in_or_app; right; left; reflexivity).
    apply Hz. assumption. }
  assert (Go : d <> [] -> exists r s2,
    match scan_json (d ++ skipn (length d) buf) with
    | Some r => (r, (0 + Z.of_nat (length d))%Z, s')
    | None => json_loop fuel (d ++ skipn (length d) buf) (0 + Z.of_nat (length d)) s' end =
    (r, Z.of_nat (length (s_rem s) - length (s_rem s2)), s2) /\ adv s s2 /\
    ((exists e, r = Err e) \/ exists m, r = Ok m /\ json_kind (s_rem s) (Ok m)) /\
    (s_fin s = EOF -> length d = 100%nat \/ Exists (fun c => ~ json_blank c) d -> json_kind (s_rem s) r) /\
    ((length d < 100)%nat -> Forall json_blank d -> exists e, r = Err e)).
  { intros Hne. destruct (blank_or_opens d) as [Hbd|[c Hc]].
    - rewrite scan_blank by assumption. destruct (Nat.eq_dec (length d) 100) as [L100|L100].
      + rewrite skipn_all2 by lia. cbn [scan_json]. rewrite app_nil_r.
        destruct (json_loop_says fuel d (0 + Z.of_nat (length d))%Z s') as [r [s2 [E2 [A2 S2]]]]; [lia|lia|assumption|].
        exists r, s2. rewrite E2. split.
        * f_equal. f_equal. destruct A2 as [_ [t Et]]. assert (length (s_rem s') = length t + length (s_rem s2))%nat by (rewrite Et; apply app_length). lia.
        * split; [eapply adv_trans; eassumption|]. destruct S2 as [[x [-> S2]]|[m [-> S2]]].
          -- split; [left; eauto|]. split; [|lia]. intros Hfin _. rewrite R. apply kind_app; [assumption|]. apply S2. congruence.
          -- split; [right; exists m; split; [reflexivity|]; rewrite R; apply kind_app; assumption|]. split; [|lia]. intros _ _. rewrite R. apply kind_app; assumption.
      + destruct Zero as [t Et]; [lia|]. rewrite Et, scan_char by (intros [|[|[|]]]; discriminate). exists (Err err_bad_json), s'.
        split; [change (kind_of 0) with (@Err (list (bytes * jdoc)) err_bad_json); f_equal; f_equal; lia|]. split; [assumption|].
        split; [left; eauto|]. split; [|eauto]. intros _ [X|X]; [contradiction|]. exfalso. apply Exists_exists in X. destruct X as [c [I X]].
        apply X. rewrite Forall_forall in Hbd. auto.
    - rewrite (scan_opens d (skipn (length d) buf) c Hc). exists (kind_of c), s'. split; [f_equal; f_equal; lia|]. split; [assumption|].
      assert (O : opens_with (s_rem s) c) by (rewrite R; apply opens_longer; assumption).
      split; [destruct (kind_says _ EOF _ O) as [[x [-> _]]|[m [-> K]]]; [left; eauto|right; eauto]|]. split; [intros _ _; apply kind_is; assumption|].
      intros _ X. exfalso. destruct Hc as [w [r [-> [_ Hc]]]]. apply Forall_app in X. destruct X as [_ X]. inversion X; contradiction. }
  assert (Fails : forall er, s_fin s <> EOF \/ d = [] -> exists r s2,
     (@Err (list (bytes * jdoc)) er, (0 + Z.of_nat (length d))%Z, s') = (r, Z.of_nat (length (s_rem s) - length (s_rem s2)), s2) /\ adv s s2 /\
    ((exists e, r = Err e) \/ exists m, r = Ok m /\ json_kind (s_rem s) (Ok m)) /\
    (s_fin s = EOF -> length d = 100%nat \/ Exists (fun c => ~ json_blank c) d -> json_kind (s_rem s) r) /\
    ((length d < 100)%nat -> Forall json_blank d -> exists e, r = Err e)).
  { intros er Hor. exists (Err er), s'. split; [f_equal; f_equal; lia|]. split; [assumption|]. split; [left; eauto|]. split; [|eauto].
    intros Hfin X. destruct Hor as [Hor|Hor]; [contradiction|]. rewrite Hor in X. destruct X as [X|X]; [discriminate|inversion X]. }
  assert (Fin : forall x : found, (exists r s2, x = (r, Z.of_nat (length (s_rem s) - length (s_rem s2)), s2) /\ adv s s2 /\
    ((exists e, r = Err e) \/ exists m, r = Ok m /\ json_kind (s_rem s) (Ok m)) /\
    (s_fin s = EOF -> length d = 100%nat \/ Exists (fun c => ~ json_blank c) d -> json_kind (s_rem s) r) /\
    ((length d < 100)%nat -> Forall json_blank d -> exists e, r = Err e)) ->
    exists r s2, x = (r, Z.of_nat (length (s_rem s) - length (s_rem s2)), s2) /\ adv s s2 /\
    ((exists e, r = Err e) \/ exists m, r = Ok m /\ json_kind (s_rem s) (Ok m)) /\
    forall d0 e0 s1, (d, e, s') = (d0, e0, s1) ->
    (s_fin s = EOF -> length d0 = 100%nat \/ Exists (fun c => ~ json_blank c) d0 -> json_kind (s_rem s) r) /\
    ((length d0 < 100)%nat -> Forall json_blank d0 -> exists e, r = Err e)).
  { intros x [r [s2 [X1 [X2 [X3 X4]]]]]. exists r, s2. split; [assumption|]. split; [assumption|]. split; [assumption|].
    intros d0 e0 s1 X. injection X as <- _ _. assumption. }
  apply Fin. destruct e as [x|]; [|apply Go; assumption]. destruct P as [Ed [Ex Es]].
  destruct x as [|m|m z x].
  - destruct d as [|c d]; [apply Fails; right; reflexivity|]. cbn [length]. change (0 <? S (length d))%nat with true. cbv iota. apply Go. discriminate.
  - apply Fails. left. congruence.
  - apply Fails. left. congruence.
Qed.

Lemma json_schema_says : forall s, exists r s', json_schema s = (r, Z.of_nat (length (s_rem s) - length (s_rem s')), s') /\ adv s s' /\
  ((exists e, r = Err e) \/ exists m, r = Ok m /\ json_kind (s_rem s) (Ok m)) /\
  forall d e s1, src_read 100 s = (d, e, s1) ->
    (s_fin s = EOF -> length d = 100%nat \/ Exists (fun c => ~ json_blank c) d -> json_kind (s_rem s) r) /\
    ((length d < 100)%nat -> Forall json_blank d -> exists e, r = Err e).
Proof. intros s. apply json_start_says. reflexivity. Qed.

Lemma major_type : forall c, (128 <=? c)%N && (c <? 160)%N || (c =? 159)%N = true <-> (c / 32 = 4)%N.
Proof.
  intros c. rewrite orb_true_iff, andb_true_iff, N.leb_le, N.ltb_lt, N.eqb_eq. pose proof (N.div_mod c 32). pose proof (N.mod_lt c 32). lia.
Qed.
Lemma major_type5 : forall c, (160 <=? c)%N && (c <? 192)%N || (c =? 191)%N = true <-> (c / 32 = 5)%N.
Proof.
  intros c. rewrite orb_true_iff, andb_true_iff, N.leb_le, N.ltb_lt, N.eqb_eq. pose proof (N.div_mod c 32). pose proof (N.mod_lt c 32). lia.
Qed.
Lemma cbor_schema_says : forall s, exists r s', cbor_schema s = (r, 1%Z, s') /\ adv s s' /\ cbor_kind (s_rem s) r /\
  ((exists m, r = Ok m) \/ exists e, r = Err e).
Proof.
  intros s. unfold cbor_schema. destruct (read_byte (new_bufr bufsize s)) as [r b] eqn:E. pose proof (read_byte_adv _ _ _ E) as A. cbn [b_src new_bufr] in A.
  assert (V : (s_rem s = [] /\ r = Err (s_fin s)) \/ exists c t, s_rem s = c :: t /\ r = Ok c).
  { unfold read_byte in E. cbn [b_buf b_err new_bufr] in E. unfold fill in E. cbn [b_buf b_cap b_err b_src new_bufr app length] in E.
    destruct (src_progress (Nat.max 16 bufsize - 0) s) as [d [e [s' [E1 [Ff [R P]]]]]]; [unfold bufsize; lia|]. rewrite E1 in E. cbn [b_buf] in E.
    destruct d as [|c d].
    - destruct e as [x|]; [|congruence]. destruct P as [P1 [-> P3]]. cbn [b_err] in E. injection E as <- _. left. split; [symmetry; assumption|reflexivity].
    - injection E as <- _. right. exists c, (d ++ s_rem s'). split; [assumption|reflexivity]. }
  eexists. exists (b_src b). split; [reflexivity|]. split; [assumption|]. destruct V as [[-> ->]|[c [t [-> ->]]]].
  - split; [destruct (s_fin s); constructor|]. destruct (s_fin s); right; eexists; reflexivity.
  - destruct ((128 <=? c)%N && (c <? 160)%N || (c =? 159)%N) eqn:E4; [apply major_type in E4; split; [constructor; assumption|left; eauto]|].
    destruct ((160 <=? c)%N && (c <? 192)%N || (c =? 191)%N) eqn:E5; [apply major_type5 in E5; split; [constructor; assumption|left; eauto]|].
    split; [|right; eauto]. constructor; intros X; [apply major_type in X|apply major_type5 in X]; congruence.
Qed.
