(** Lemmas on components. *)
From Verif Require Import Base M_Doc M_Components S_Components.

(** ** Fields under Assign *)
Lemma last_set_step : forall A (set : A -> Prop) (dec : forall x, set x \/ ~ set x) old m srcs c' r,
  (set m /\ c' = m) \/ (~ set m /\ c' = old) -> last_set set c' srcs r -> last_set set old (m :: srcs) r.
Proof.
  intros A set dec old m srcs c' r H [(b & a & E & S & F)|[-> F]].
  - left. exists (m :: b), a. subst. auto.
  - destruct H as [[S ->]|[S ->]].
    + left. exists [], srcs. auto.
    + right. split; auto.
Qed.

Lemma assign_field : forall C A (assign1 : C -> option C -> C) (f : C -> A) (set : A -> Prop),
  (forall x, set x \/ ~ set x) -> (forall c, assign1 c None = c) ->
  (forall c m, (set (f m) /\ f (assign1 c (Some m)) = f m) \/ (~ set (f m) /\ f (assign1 c (Some m)) = f c)) ->
  forall srcs c, last_set set (f c) (map f (present srcs)) (f (fold_left assign1 srcs c)).
Proof.
  intros C A assign1 f set dec Hn Hs. induction srcs as [|[m|] srcs IH]; intros c; simpl.
  - right. split; auto.
  - eapply last_set_step; [exact dec| |apply IH]. apply Hs.
  - rewrite Hn. apply IH.
Qed.

Lemma str_set_dec : forall x, str_set x \/ ~ str_set x.
Proof. unfold str_set. intros [|]; [right|left]; congruence. Qed.
Lemma int_set_dec : forall x, int_set x \/ ~ int_set x.
Proof. unfold int_set. intros x. lia. Qed.
Lemma flag_set_dec : forall x, flag_set x \/ ~ flag_set x.
Proof. unfold flag_set. intros [|]; [left|right]; congruence. Qed.
Lemma ptr_set_dec : forall A (x : option A), ptr_set x \/ ~ ptr_set x.
Proof. unfold ptr_set. intros A [|]; [left|right]; congruence. Qed.
Lemma dyn_set_dec : forall x, dyn_set x \/ ~ dyn_set x.
Proof. unfold dyn_set. intros []; [right|left..]; congruence. Qed.

Lemma as_str_spec : forall m c, (str_set m /\ as_str m c = m) \/ (~ str_set m /\ as_str m c = c).
Proof. unfold str_set. intros [|]; simpl; intros; [right|left]; split; congruence. Qed.
Lemma as_int_spec : forall m c, (int_set m /\ as_int m c = m) \/ (~ int_set m /\ as_int m c = c).
Proof. unfold int_set, as_int. intros m c. destruct (Z.eqb_spec m 0); [right|left]; auto. Qed.
Lemma as_bool_spec : forall m c, (flag_set m /\ as_bool m c = m) \/ (~ flag_set m /\ as_bool m c = c).
Proof. unfold flag_set. intros [|] c; simpl; [left|right]; split; congruence. Qed.
Lemma as_opt_spec : forall A (m c : option A), (ptr_set m /\ as_opt m c = m) \/ (~ ptr_set m /\ as_opt m c = c).
Proof. unfold ptr_set. intros A [|] c; simpl; [left|right]; split; congruence. Qed.
Lemma as_dyn_spec : forall m c, (dyn_set m /\ as_dyn m c = m) \/ (~ dyn_set m /\ as_dyn m c = c).
Proof. unfold dyn_set. intros [] c; simpl; [right|left..]; split; congruence. Qed.

(** ** Merged maps *)
Lemma merge_get : forall V (m acc : list (bytes * V)) k, sorted m ->
  map_get k (fold_left (fun a kv => map_set (fst kv) (snd kv) a) m acc) =
  match map_get k m with Some v => Some v | None => map_get k acc end.
Proof.
  induction m as [|[k1 v1] m IH]; intros acc k Hs; [reflexivity|].
  simpl in *. destruct Hs as [Ha Hs]. rewrite IH by assumption.
  destruct (beqb_spec k k1).
  - subst. rewrite (map_get_above m k1 Ha). apply map_get_set_eq.
  - destruct (map_get k m); auto. now apply map_get_set_neq.
Qed.

Lemma merge_sorted : forall V (m acc : list (bytes * V)), sorted acc ->
  sorted (fold_left (fun a kv => map_set (fst kv) (snd kv) a) m acc).
Proof. induction m as [|[k v] m IH]; simpl; intros; auto. apply IH. now apply sorted_set. Qed.

Lemma merge_nil : forall V (m : list (bytes * V)), sorted m -> fold_left (fun a kv => map_set (fst kv) (snd kv) a) m [] = m.
Proof.
  intros V m Hs. apply sorted_ext; auto; [now apply merge_sorted|].
  intros k. rewrite merge_get by assumption. now destruct (map_get k m).
Qed.

Lemma merge_self : forall V (m : list (bytes * V)), sorted m -> fold_left (fun a kv => map_set (fst kv) (snd kv) a) m m = m.
Proof.
  intros V m Hs. apply sorted_ext; auto; [now apply merge_sorted|].
  intros k. rewrite merge_get by assumption. now destruct (map_get k m).
Qed.

Lemma to_map_sorted : forall V (m : list (bytes * V)), sorted (to_map m).
Proof. intros. apply merge_sorted. exact I. Qed.
Lemma to_map_id : forall V (m : list (bytes * V)), sorted m -> to_map m = m.
Proof. intros. now apply merge_nil. Qed.

Lemma as_merge_get : forall V (m c : gomap V) k, gomap_wf m ->
  gomap_get k (as_merge m c) = as_opt (gomap_get k m) (gomap_get k c).
Proof.
  intros V [m|] c k Hw; simpl; [|reflexivity]. rewrite merge_get by assumption.
  destruct (map_get k m); simpl; auto. destruct c; reflexivity.
Qed.
Lemma as_merge_wf : forall V (m c : gomap V), gomap_wf c -> gomap_wf (as_merge m c).
Proof. intros V [m|] [c|] H; simpl; auto; apply merge_sorted; simpl; auto. Qed.
Lemma as_merge_self : forall V (m : gomap V), gomap_wf m -> as_merge m m = m.
Proof. intros V [m|] H; simpl; auto. f_equal. now apply merge_self. Qed.
Lemma as_merge_nil : forall V (m c : gomap V), as_merge m c = None <-> m = None /\ c = None.
Proof. intros V [m|] [c|]; simpl; split; try tauto; try discriminate; intros [? ?]; discriminate. Qed.

(** As assign_field, for one key of a merged map. *)
Lemma assign_field_inv : forall C A (assign1 : C -> option C -> C) (f : C -> A) (set : A -> Prop) (inv : C -> Prop),
  (forall x, set x \/ ~ set x) -> (forall c, assign1 c None = c) ->
  (forall c m, inv m -> (set (f m) /\ f (assign1 c (Some m)) = f m) \/ (~ set (f m) /\ f (assign1 c (Some m)) = f c)) ->
  forall srcs c, Forall inv (present srcs) -> last_set set (f c) (map f (present srcs)) (f (fold_left assign1 srcs c)).
Proof.
  intros C A assign1 f set inv dec Hn Hs. induction srcs as [|[m|] srcs IH]; intros c Hi; simpl.
  - right. split; auto.
  - simpl in Hi. inversion Hi; subst. eapply last_set_step; [exact dec| |apply IH; assumption]. now apply Hs.
  - rewrite Hn. apply IH. exact Hi.
Qed.

(** ** Idempotence *)
Lemma as_str_self : forall s, as_str s s = s. Proof. intros [|]; reflexivity. Qed.
Lemma as_int_self : forall s, as_int s s = s. Proof. intros. unfold as_int. destruct (Z.eqb s 0); reflexivity. Qed.
Lemma as_bool_self : forall s, as_bool s s = s. Proof. intros [|]; reflexivity. Qed.
Lemma as_opt_self : forall A (s : option A), as_opt s s = s. Proof. intros A [|]; reflexivity. Qed.
Lemma as_dyn_self : forall s, as_dyn s s = s. Proof. intros []; reflexivity. Qed.

Lemma as_str_twice : forall m c, as_str m (as_str m c) = as_str m c. Proof. intros [|]; reflexivity. Qed.
Lemma as_int_twice : forall m c, as_int m (as_int m c) = as_int m c. Proof. intros. unfold as_int. destruct (Z.eqb m 0); reflexivity. Qed.
Lemma as_opt_twice : forall A (m c : option A), as_opt m (as_opt m c) = as_opt m c. Proof. intros A [|]; reflexivity. Qed.
Lemma commit_assign1_twice : forall c m, commit_assign1 (commit_assign1 c m) m = commit_assign1 c m.
Proof.
  intros c [m|]; [|reflexivity]. simpl. rewrite !as_str_twice, as_int_twice, as_opt_twice. reflexivity.
Qed.

(** ** Datasets *)
Lemma collapse_assign : forall D A (get : D -> option A) (assign1 : A -> option A -> A) (step : D -> option D -> D),
  (forall c, assign1 c None = c) -> (forall d, step d None = d) ->
  (forall d s, get (step d (Some s)) = as_comp assign1 (get s) (get d)) ->
  forall ss d, get (fold_left step ss d) = collapse (fun c ms => fold_left assign1 ms c) (get d :: map get (present ss)).
Proof.
  intros D A get assign1 step Hn Hd Hs.
  assert (N : forall (l : list (option A)) c, fold_left assign1 (map Some (present l)) c = fold_left assign1 l c).
  { induction l as [|[x|] l IH]; intros c; simpl; auto. rewrite Hn. apply IH. }
  induction ss as [|[s|] ss IH]; intros d.
  - simpl. unfold collapse. simpl. destruct (get d); reflexivity.
  - simpl fold_left. rewrite IH, Hs. simpl map. unfold collapse. simpl.
    destruct (get d) as [c|]; simpl; [|reflexivity]. 
    destruct (get s) as [m|]; simpl; [reflexivity|]. rewrite Hn. reflexivity.
  - simpl fold_left. rewrite Hd. apply IH.
Qed.

Lemma first_set_step : forall D A (get : D -> A) (set : A -> Prop) (step : D -> option D -> D),
  (forall x, set x \/ ~ set x) -> (forall d, step d None = d) ->
  (forall d s, (set (get d) /\ get (step d (Some s)) = get d) \/ (~ set (get d) /\ set (get s) /\ get (step d (Some s)) = get s) \/
               (~ set (get d) /\ ~ set (get s) /\ get (step d (Some s)) = get d)) ->
  forall ss d, first_set set (get d) (map get (present ss)) (get (fold_left step ss d)).
Proof.
  intros D A get set step dec Hd Hs. induction ss as [|[s|] ss IH]; intros d; simpl.
  - destruct (dec (get d)); [left; auto|right; right; auto].
  - specialize (IH (step d (Some s))). destruct (Hs d s) as [[S E]|[(S & S' & E)|(S & S' & E)]]; rewrite E in IH.
    + destruct IH as [[_ IH]|[[C _]|[C _]]]; [left; auto|contradiction..].
    + right; left. split; auto. exists [], (map get (present ss)).
      destruct IH as [[_ IH]|[[C _]|[C _]]]; [|contradiction..]. rewrite IH. auto.
    + destruct IH as [[C _]|[[_ (b & a & E' & S2 & F)]|[_ [E' F]]]]; [contradiction|..].
      * right; left. split; auto. exists (get s :: b), a. rewrite E'. auto.
      * right; right. auto.
  - rewrite Hd. apply IH.
Qed.

(** ** Equality tests *)
Section JdocInd.
  Context (P : jdoc -> Prop).
  Hypothesis (Hnull : P JNull) (Hb : forall b, P (JBool b)) (Hi : forall z, P (JInt z)) (Hr : forall l, P (JReal l))
    (Hs : forall s, P (JStr s)) (Ht : forall t, P (JTime t)) (H64 : forall b, P (JB64 b))
    (Ha : forall l, Forall P l -> P (JArr l)) (Ho : forall m, Forall (fun kv => P (snd kv)) m -> P (JObj m)).
  Fixpoint jdoc_ind2 (d : jdoc) : P d :=
    match d with
    | JNull => Hnull | JBool b => Hb b | JInt z => Hi z | JReal l => Hr l | JStr s => Hs s | JTime t => Ht t | JB64 b => H64 b
    | JArr l => Ha l ((fix go l : Forall P l := match l with [] => Forall_nil _ | x :: l' => Forall_cons _ (jdoc_ind2 x) (go l') end) l)
    | JObj m => Ho m ((fix go m : Forall (fun kv => P (snd kv)) m :=
        match m with [] => Forall_nil _ | x :: m' => Forall_cons _ (jdoc_ind2 (snd x)) (go m') end) m)
    end.
End JdocInd.

Lemma jdoc_eqb_eq : forall a b, jdoc_eqb a b = true <-> a = b.
Proof.
  induction a using jdoc_ind2; intros c; destruct c; simpl; split; intros E; try discriminate; try reflexivity;
    try (injection E as ->); try (f_equal; first [now apply Bool.eqb_prop in E | now apply Z.eqb_eq in E | now apply beqb_eq in E]);
    try apply Bool.eqb_reflx; try apply Z.eqb_refl; try apply beqb_refl.
  - f_equal. revert l0 E. induction H as [|x l Hx Hl IH]; intros [|y l0] E; try discriminate; auto.
    apply andb_prop in E as [E1 E2]. f_equal; [now apply Hx|]. now apply IH.
  - induction H as [|x l Hx Hl IH]; auto. apply andb_true_intro. split; [now apply Hx|apply IH].
  - f_equal. revert m0 E. induction H as [|[k x] l Hx Hl IH]; intros [|[k' y] l0] E; try discriminate; auto.
    apply andb_prop in E as [E1 E2]. apply andb_prop in E1 as [E0 E1]. apply beqb_eq in E0. subst.
    f_equal; [f_equal; now apply Hx|now apply IH].
  - induction H as [|[k x] l Hx Hl IH]; auto. rewrite beqb_refl. simpl. apply andb_true_intro. split; [now apply Hx|apply IH].
Qed.

Lemma opt_eqb_eq : forall A (eqb : A -> A -> bool), (forall a b, eqb a b = true <-> a = b) ->
  forall a b, opt_eqb eqb a b = true <-> a = b.
Proof.
  intros A eqb H [a|] [b|]; simpl; split; intros E; try discriminate; auto.
  - f_equal; now apply H. - injection E as ->. now apply H.
Qed.
Lemma list_eqb_eq : forall A (eqb : A -> A -> bool), (forall a b, eqb a b = true <-> a = b) ->
  forall a b, list_eqb eqb a b = true <-> a = b.
Proof.
  intros A eqb H. induction a as [|x a IH]; intros [|y b]; simpl; split; intros E; try discriminate; auto.
  - apply andb_prop in E as [E1 E2]. f_equal; [now apply H|now apply IH].
  - injection E as -> ->. apply andb_true_intro. split; [now apply H|now apply IH].
Qed.
Lemma map_eqb_eq : forall V (eqb : V -> V -> bool), (forall a b, eqb a b = true <-> a = b) ->
  forall a b, map_eqb eqb a b = true <-> a = b.
Proof.
  intros V eqb H. unfold map_eqb. apply opt_eqb_eq. apply list_eqb_eq. intros [k v] [k' v']; simpl. split; intros E.
  - apply andb_prop in E as [E1 E2]. apply beqb_eq in E1. apply H in E2. congruence.
  - injection E as -> ->. rewrite beqb_refl. now apply H.
Qed.
Lemma step_eqb_eq : forall a b, step_eqb a b = true <-> a = b.
Proof.
  intros [a1 a2 a3 a4 a5] [b1 b2 b3 b4 b5]. unfold step_eqb; simpl. rewrite !andb_true_iff, !beqb_eq, jdoc_eqb_eq.
  split; [intros ((((-> & ->) & ->) & ->) & ->); reflexivity|]. intros E; injection E as -> -> -> -> ->. auto.
Qed.
