(** C59: generated rows. *)
From Coq Require Import ZArith Lia.
From Verif Require Import Base M_Stream S_Stream L_Stream M_Tabular M_Generate S_Generate.
Notation length := List.length.

Section Gen.
  Variables F R : Type.
  Variable intn : Z -> R -> Z * R.
  Variable norm_float : R -> F * R.
  (** rand.Rand.Intn returns a number in [0,n). *)
  Definition intn_range : Prop := forall n r, (0 < n)%Z -> (0 <= fst (intn n r) < n)%Z.
  Hypothesis range : intn_range.
  Notation gval := (gval F).
  Notation gen_type := (gen_type F R intn norm_float).
  Notation gen_value := (gen_value F R intn norm_float).
  Notation gen_read := (gen_read F R intn norm_float).
  Notation generated := (generated F).

  Lemma runes_ok : forall n r, let '(t, _) := gen_runes R intn n r in length t = n /\
    forall c, In c t -> (97 <= c <= 122 \/ 65 <= c <= 90 \/ 48 <= c <= 57)%N.
  Proof.
    assert (A : Forall (fun c => (97 <= c <= 122 \/ 65 <= c <= 90 \/ 48 <= c <= 57)%N) alpha_numeric).
    { apply Forall_forall. intros c I. assert (X : forallb (fun c => ((97 <=? c) && (c <=? 122)) || ((65 <=? c) && (c <=? 90)) || ((48 <=? c) && (c <=? 57)))%N alpha_numeric = true) by (vm_compute; reflexivity).
      rewrite forallb_forall in X. specialize (X c I). rewrite !orb_true_iff, !andb_true_iff, !N.leb_le in X. tauto. }
    induction n as [|n IH]; intros r; [split; [reflexivity|intros c []]|]. cbn [gen_runes].
    change (Z.of_nat (Datatypes.length alpha_numeric)) with 62%Z.
    pose proof (range 62%Z r ltac:(lia)) as X. destruct (intn 62%Z r) as [i r'] eqn:Ei. specialize (IH r'). destruct (gen_runes R intn n r') as [t r'']. destruct IH as [L C].
    split; [cbn [length]; congruence|]. intros c [<-|I]; [|auto]. rewrite Forall_forall in A. apply A. apply nth_In. change (length alpha_numeric) with 62%nat.
    cbn [fst] in X. lia.
  Qed.
  Lemma string_ok : forall max r, (0 < max)%Z -> exists v r', gen_string F R intn max r = (Ok v, r') /\ generated max (bs "string") v.
  Proof.
    intros max r H. unfold gen_string, rand_intn. destruct (Z.leb_spec max 0); [lia|].
    pose proof (range max r H) as X. destruct (intn max r) as [n r']. cbn [fst] in X. pose proof (runes_ok (Z.to_nat n) r') as Y.
    destruct (gen_runes R intn (Z.to_nat n) r') as [t r'']. destruct Y as [L C]. exists (VStr t), r''. split; [reflexivity|]. constructor. split; [lia|exact C].
  Qed.
  Lemma bool_ok : forall max r, exists v r', gen_bool F R intn r = (Ok v, r') /\ generated max (bs "boolean") v.
  Proof.
    intros max r. unfold gen_bool. pose proof (range 1%Z r ltac:(lia)) as X. destruct (intn 1%Z r) as [i r']. cbn [fst] in X.
    replace i with 0%Z by lia. exists (VBool true), r'. split; [reflexivity|constructor].
  Qed.
  Lemma float_ok : forall max r, exists v r', gen_float F R norm_float r = (Ok v, r') /\ generated max (bs "number") v.
  Proof. intros max r. unfold gen_float. destruct (norm_float r) as [x r']. exists (VFloat x), r'. split; [reflexivity|constructor]. Qed.
  Lemma int_ok : forall max r, exists v r', gen_int F R intn r = (Ok v, r') /\ generated max (bs "integer") v.
  Proof.
    intros max r. unfold gen_int. pose proof (range max_int64 r ltac:(unfold max_int64; lia)) as X. destruct (intn max_int64 r) as [i r']. cbn [fst] in X.
    exists (VInt i), r'. split; [reflexivity|constructor]. change (2 ^ 63 - 1)%Z with max_int64. exact X.
  Qed.
  Lemma value_ok : forall max r, (0 < max)%Z -> exists u v r', gen_value max r = (Ok v, r') /\
    In u [bs "string"; bs "boolean"; bs "number"; bs "integer"; bs "null"] /\ generated max u v.
  Proof.
    intros max r H. unfold M_Generate.gen_value. destruct (intn 40%Z r) as [i r'].
    assert (N0 : exists (u : bytes) (v : gval) (r'' : R), (Ok (@VNil F), r') = (Ok v, r'') /\ In u [bs "string"; bs "boolean"; bs "number"; bs "integer"; bs "null"] /\ generated max u v).
    { exists (bs "null"), VNil, r'. split; [reflexivity|]. split; [cbn; tauto|constructor]. }
    destruct (Z.eqb i 0); [exact N0|].
    destruct ((0 <? i)%Z && (i <? 10)%Z); [destruct (int_ok max r') as [v [r'' [E G]]]; exists (bs "integer"), v, r''; split; [exact E|]; split; [cbn; tauto|exact G]|].
    destruct ((10 <? i)%Z && (i <? 20)%Z); [destruct (string_ok max r' H) as [v [r'' [E G]]]; exists (bs "string"), v, r''; split; [exact E|]; split; [cbn; tauto|exact G]|].
    destruct ((20 <? i)%Z && (i <? 30)%Z); [destruct (float_ok max r') as [v [r'' [E G]]]; exists (bs "number"), v, r''; split; [exact E|]; split; [cbn; tauto|exact G]|].
    destruct ((30 <? i)%Z && (i <? 40)%Z); [destruct (bool_ok max r') as [v [r'' [E G]]]; exists (bs "boolean"), v, r''; split; [exact E|]; split; [cbn; tauto|exact G]|].
    exact N0.
  Qed.
  (** C59: a value of a type ... *)
  Lemma type_ok : forall max t r, (0 < max)%Z -> exists v r', gen_type max t r = (Ok v, r') /\ generated max t v.
  Proof.
    intros max t r H. unfold M_Generate.gen_type.
    destruct (beqb t (bs "string")) eqn:E1; [apply beqb_eq in E1; subst t; apply string_ok; exact H|].
    destruct (beqb t (bs "boolean")) eqn:E2; [apply beqb_eq in E2; subst t; apply bool_ok|].
    destruct (beqb t (bs "number")) eqn:E3; [apply beqb_eq in E3; subst t; apply float_ok|].
    destruct (beqb t (bs "integer")) eqn:E4; [apply beqb_eq in E4; subst t; apply int_ok|].
    destruct (beqb t (bs "object")) eqn:E5; [apply beqb_eq in E5; subst t; exists (VMap []), r; split; [reflexivity|constructor]|].
    destruct (beqb t (bs "array")) eqn:E6; [apply beqb_eq in E6; subst t; exists (VArr []), r; split; [reflexivity|constructor]|].
    destruct (beqb t (bs "null")) eqn:E7; [apply beqb_eq in E7; subst t; exists VNil, r; split; [reflexivity|constructor]|].
    destruct (value_ok max r H) as [u [v [r' [E [I G]]]]]. exists v, r'. split; [exact E|]. apply (ge_any _ _ _ u); [|exact I|exact G].
    assert (NE : forall s, beqb t s = false -> s <> t) by (intros s X <-; rewrite (proj2 (beqb_eq s s) eq_refl) in X; discriminate).
    intros J. cbn [In] in J. repeat (destruct J as [J|J]; [revert J; apply NE; assumption|]). exact J.
  Qed.
  Lemma row_ok : forall max cols r, (0 < max)%Z -> Forall (fun c => c_type c <> []) cols ->
    exists row r', gen_row F R intn norm_float max cols r = (Ok row, r') /\ generated_row F max (map c_type cols) row.
  Proof.
    intros max cols. induction cols as [|c cols IH]; intros r H Hc; [exists [], r; split; [reflexivity|constructor]|].
    pose proof (Forall_inv Hc) as H1. pose proof (Forall_inv_tail Hc) as H2. cbn [gen_row map].
    destruct (c_type c) as [|t ts] eqn:Et; [congruence|].
    destruct (type_ok max t r H) as [v [r1 [E1 G1]]]. rewrite E1. destruct (IH r1 H H2) as [row [r2 [E2 G2]]]. rewrite E2.
    exists (v :: row), r2. split; [reflexivity|]. constructor; [exists t, ts; auto|exact G2].
  Qed.
  Lemma row_panics : forall max cols r, Exists (fun c => c_type c = []) cols -> fst (gen_row F R intn norm_float max cols r) = Panic.
  Proof.
    intros max cols. induction cols as [|c cols IH]; intros r H; [inversion H|]. cbn [gen_row].
    destruct (c_type c) as [|t ts] eqn:Et; [reflexivity|].
    destruct (gen_type max t r) as [[v| | |] r1]; try reflexivity.
    assert (X : Exists (fun c => c_type c = []) cols) by (inversion H; subst; [congruence|assumption]).
    specialize (IH r1 X). destruct (gen_row F R intn norm_float max cols r1) as [[vs| | |] r2]; cbn [fst] in *; congruence.
  Qed.

  (** The entries are numbered from [i]. *)
  Inductive numbered (P : gval -> Prop) : Z -> list (entry F) -> Prop :=
  | nu_nil : forall i, numbered P i []
  | nu_cons : forall i v es, P v -> numbered P (i + 1) es -> numbered P i (mkEntry i [] v :: es).
  Definition is_row (max : Z) (types : list (list bytes)) (v : gval) : Prop := exists row, v = VArr row /\ generated_row F max types row.

  (** C59: as often as ReadEntry is called it returns a row with a value of the first type of each column,
      numbered consecutively, and never an error; it panics if a column has an empty list of types. *)
  Theorem generator_rows : forall order sch now options g, new_generator F R order sch now options = Ok g ->
    (forall o, In o options -> exists s, o = assign_seed R s \/ o = assign_max_len R \/ o = assign_use_random_type R) ->
    exists cols ps max, columns_from_schema order sch = Ok (cols, ps) /\
    (In (assign_max_len R) options -> max = 8%Z) /\ (~ In (assign_max_len R) options -> max = 64%Z) /\
    (Forall (fun c => c_type c <> []) cols -> forall n, exists es g', reads gen_read g es g' /\ length es = n /\
       numbered (is_row max (map c_type cols)) 0 es) /\
    (Exists (fun c => c_type c = []) cols -> fst (gen_read g) = Panic).
  Proof.
    intros order sch now options g Hg Ho. unfold new_generator in Hg. destruct (columns_from_schema order sch) as [[cols ps]| | |]; try discriminate.
    injection Hg as <-. exists cols, ps, (cf_max_len R (fold_left (fun c opt => opt c) options (default_config R now))). split; [reflexivity|].
    assert (M : cf_max_len R (fold_left (fun c opt => opt c) options (default_config R now)) =
      (if existsb (fun c => Z.eqb (cf_max_len R (c (default_config R now))) 8) options then 8 else 64)%Z).
    { assert (G : forall os c, (forall o, In o os -> exists s, o = assign_seed R s \/ o = assign_max_len R \/ o = assign_use_random_type R) ->
        cf_max_len R (fold_left (fun c opt => opt c) os c) =
        (if existsb (fun c => Z.eqb (cf_max_len R (c (default_config R now))) 8) os then 8 else cf_max_len R c)%Z).
      { induction os as [|o os IH]; intros c X; [reflexivity|]. cbn [fold_left existsb]. rewrite IH by (intros o' I; apply X; right; exact I).
        destruct (X o ltac:(left; reflexivity)) as [s [->|[->| ->]]]; cbn [cf_max_len assign_seed assign_max_len assign_use_random_type default_config Z.eqb Pos.eqb orb].
        - reflexivity.
        - destruct (existsb _ os); reflexivity.
        - reflexivity. }
      apply (G options (default_config R now) Ho). }
    assert (MI : existsb (fun c => Z.eqb (cf_max_len R (c (default_config R now))) 8) options = true <-> In (assign_max_len R) options).
    { rewrite existsb_exists. split.
      - intros [o [I X]]. destruct (Ho o I) as [s [->|[->| ->]]]; [discriminate|exact I|discriminate].
      - intros I. exists (assign_max_len R). split; [exact I|reflexivity]. }
    split; [intros I; rewrite M, (proj2 MI I); reflexivity|].
    split; [intros I; rewrite M; destruct (existsb _ options); [destruct (I (proj1 MI eq_refl))|reflexivity]|].
    set (max := cf_max_len R (fold_left (fun c opt => opt c) options (default_config R now))) in *.
    assert (Hm : (0 < max)%Z) by (rewrite M; destruct (existsb _ options); lia).
    split.
    - intros Hc n. generalize (cf_random R (fold_left (fun c opt => opt c) options (default_config R now))). intros r.
      assert (G : forall n i r, exists es g', reads gen_read (mkGen F R cols r max i) es g' /\ length es = n /\ numbered (is_row max (map c_type cols)) i es).
      { clear n r. induction n as [|n IH]; intros i r; [exists [], (mkGen F R cols r max i); repeat constructor|].
        destruct (row_ok max cols r Hm Hc) as [row [r' [E G]]]. destruct (IH (i + 1)%Z r') as [es [g' [A [B C]]]].
        exists (mkEntry i [] (VArr row) :: es), g'. split; [|split; [cbn [length]; congruence|constructor; [exists row; auto|exact C]]].
        econstructor; [|exact A]. unfold M_Generate.gen_read. cbn [g_max g_cols g_rand g_count]. rewrite E. reflexivity. }
      apply G.
    - intros Hx. unfold M_Generate.gen_read. cbn [g_max g_cols g_rand g_count].
      match goal with |- context [gen_row F R intn norm_float max cols ?r] => pose proof (row_panics max cols r Hx) as X; destruct (gen_row F R intn norm_float max cols r) as [[vs| | |] r2] end; cbn [fst] in *; congruence.
  Qed.
  (** With a PagedReader around it there are exactly as many rows as asked for. *)
  Theorem generator_paged : forall g limit es g', (0 <= limit)%Z -> reads gen_read g es g' -> Z.of_nat (length es) = limit ->
    exists p, yields (paged_read gen_read) (mkPaged g limit 0) es EOF p.
  Proof.
    intros g limit es g' Hl Hr Hn. destruct (paged_limit0 gen_read _ _ _ Hr limit 0 ltac:(lia) ltac:(lia)) as [p [Y _]]. exists p. exact Y.
  Qed.
  (** The option that asks for random types changes nothing. *)
  Theorem random_type_ignored : forall order sch now before after,
    (forall o, In o after -> exists s, o = assign_seed R s \/ o = assign_max_len R \/ o = assign_use_random_type R) ->
    new_generator F R order sch now (before ++ assign_use_random_type R :: after) = new_generator F R order sch now (before ++ after).
  Proof.
    intros order sch now before after Ho. unfold new_generator. rewrite !fold_left_app. cbn [fold_left].
    set (c := fold_left (fun c opt => opt c) before (default_config R now)). clearbody c.
    assert (G : forall os c d, (forall o, In o os -> exists s, o = assign_seed R s \/ o = assign_max_len R \/ o = assign_use_random_type R) ->
      cf_max_len R c = cf_max_len R d -> cf_random R c = cf_random R d ->
      cf_max_len R (fold_left (fun c opt => opt c) os c) = cf_max_len R (fold_left (fun c opt => opt c) os d) /\
      cf_random R (fold_left (fun c opt => opt c) os c) = cf_random R (fold_left (fun c opt => opt c) os d)).
    { induction os as [|o os IH]; intros x y X A B; [auto|]. cbn [fold_left]. apply IH; [intros o' I; apply X; right; exact I| |];
      destruct (X o ltac:(left; reflexivity)) as [s [->|[->| ->]]]; cbn; congruence. }
    destruct (G after (assign_use_random_type R c) c Ho eq_refl eq_refl) as [A B]. rewrite A, B. reflexivity.
  Qed.
End Gen.
Print Assumptions generator_rows.
Print Assumptions generator_paged.
Print Assumptions random_type_ignored.

(** So a schema that is accepted may still make ReadEntry panic. *)
Theorem generator_never_panics_refuted : exists (F R : Type) (intn : Z -> R -> Z * R) norm_float order sch now g,
  intn_range R intn /\ new_generator F R order sch now [] = Ok g /\ fst (gen_read F R intn norm_float g) = Panic.
Proof.
  exists unit, unit, (fun n r => (0%Z, r)), (fun r => (tt, r)), (fun l => l).
  exists [(bs "items", VMap [(bs "items", VArr [VMap [(bs "type", VArr [])]])]); (bs "type", VStr (bs "array"))], tt.
  eexists. split; [intros n r H; cbn; lia|]. split; [vm_compute; reflexivity|reflexivity].
Qed.
Print Assumptions generator_never_panics_refuted.

(** Example: a counter for a source of numbers, three columns. *)
Definition ex_intn (n r : Z) : Z * Z := (Z.modulo r n, r + 7)%Z.
Definition ex_schema : list (bytes * gval Z) :=
  [(bs "items", VMap [(bs "items", VArr [VMap [(bs "type", VStr (bs "string"))]; VMap [(bs "type", VStr (bs "boolean"))]; VMap [(bs "type", VStr (bs "other"))]])]);
   (bs "type", VStr (bs "array"))].
Example ex_range : intn_range Z ex_intn.
Proof. intros n r H. cbn. apply Z.mod_pos_bound. exact H. Qed.
Example generator_ex : exists g es g', new_generator Z Z (fun l => l) ex_schema 0%Z [assign_seed Z 3%Z; assign_max_len Z] = Ok g /\
  reads (gen_read Z Z ex_intn (fun r => (r, (r + 1)%Z))) g es g' /\
  es = [mkEntry 0%Z [] (VArr [VStr (bs "kry"); VBool true; VBool true]); mkEntry 1%Z [] (VArr [VStr (bs "7els"); VBool true; VStr (bs "U18fm")])].
Proof.
  eexists. eexists. eexists. split; [vm_compute; reflexivity|]. split; [|reflexivity].
  econstructor; [vm_compute; reflexivity|]. econstructor; [vm_compute; reflexivity|]. constructor.
Qed.
