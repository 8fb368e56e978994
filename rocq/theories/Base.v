(** Common definitions: bytes, Go values, results, sorted maps. *)
From Coq Require Export String Ascii.
From Coq Require Export List NArith ZArith Lia Bool.
From Coq Require Import Permutation.
Export ListNotations.
Open Scope list_scope.

(** A Go byte is an [N]; strings and byte slices are lists of bytes. *)
Notation byte := N (only parsing).
Notation bytes := (list N) (only parsing).

(** Byte literals from text, e.g. [bs "null"]. *)
Definition bs (s : string) : bytes := map N_of_ascii (list_ascii_of_string s).

Definition cTAB : N := 9%N.
Definition cLF : N := 10%N.
Definition cCR : N := 13%N.
Definition cSP : N := 32%N.
Definition cQUOTE : N := 34%N.
Definition cCOMMA : N := 44%N.
Definition cDOT : N := 46%N.
Definition cBSL : N := 92%N.

(** Go errors. [EOF] is the value io.EOF itself, every other error is its text.
    Some callers compare identity with io.EOF, others compare the text with "EOF". *)
Inductive err : Type :=
| EOF
| EMsg (msg : string)
| EWrap (what : string) (n : Z) (inner : err).   (* fmt.Errorf("<what> <n>: ...", inner) *)

(** err.Error() == "EOF" *)
Definition is_eof_text (e : err) : bool :=
  match e with EOF => true | EMsg s => String.eqb s "EOF" | EWrap _ _ _ => false end.

(** Outcome of a Go call: a value, an error value, a run-time panic, or (model only)
    exhausted recursion fuel. *)
Inductive res (A : Type) : Type :=
| Ok (a : A)
| Err (e : err)
| Panic
| OutOfFuel.
Arguments Ok {A} _.
Arguments Err {A} _.
Arguments Panic {A}.
Arguments OutOfFuel {A}.

(** Equality and lexicographic order of byte strings. *)
Fixpoint beqb (a b : bytes) : bool :=
  match a, b with
  | [], [] => true
  | x :: a', y :: b' => N.eqb x y && beqb a' b'
  | _, _ => false
  end.

Fixpoint bcmp (a b : bytes) : comparison :=
  match a, b with
  | [], [] => Eq
  | [], _ :: _ => Lt
  | _ :: _, [] => Gt
  | x :: a', y :: b' =>
      match N.compare x y with Eq => bcmp a' b' | c => c end
  end.

Lemma beqb_eq : forall a b, beqb a b = true <-> a = b.
Proof.
  induction a as [|x a IH]; destruct b as [|y b]; simpl; split; intro H;
    try discriminate; try reflexivity.
  - apply andb_true_iff in H. destruct H as [H1 H2].
    apply N.eqb_eq in H1. apply IH in H2. congruence.
  - injection H as -> ->. apply andb_true_iff. split.
    + apply N.eqb_refl. + apply IH. reflexivity.
Qed.

Lemma beqb_refl : forall a, beqb a a = true.
Proof. intro a. apply beqb_eq. reflexivity. Qed.

Lemma beqb_spec : forall a b, reflect (a = b) (beqb a b).
Proof.
  intros a b. destruct (beqb a b) eqn:E; constructor.
  - apply beqb_eq; assumption.
  - intro H. apply beqb_eq in H. congruence.
Qed.

Lemma beqb_neq : forall a b, beqb a b = false <-> a <> b.
Proof. intros a b. destruct (beqb_spec a b); split; congruence. Qed.

Lemma beqb_sym : forall a b, beqb a b = beqb b a.
Proof. intros. destruct (beqb_spec a b); destruct (beqb_spec b a); congruence. Qed.

Lemma bcmp_refl : forall a, bcmp a a = Eq.
Proof. induction a; simpl; [reflexivity|]. rewrite N.compare_refl. assumption. Qed.

Lemma bcmp_eq : forall a b, bcmp a b = Eq <-> a = b.
Proof.
  intros a b. split; [|intros ->; apply bcmp_refl].
  revert b. induction a as [|x a IH]; destruct b as [|y b]; simpl; try discriminate; auto.
  destruct (N.compare_spec x y); try discriminate. intro H0. subst. f_equal. auto.
Qed.

Lemma bcmp_antisym : forall a b, bcmp b a = CompOpp (bcmp a b).
Proof.
  induction a as [|x a IH]; destruct b as [|y b]; simpl; try reflexivity.
  rewrite (N.compare_antisym x y). destruct (N.compare x y); simpl; auto.
Qed.

Lemma bcmp_lt_trans : forall a b c, bcmp a b = Lt -> bcmp b c = Lt -> bcmp a c = Lt.
Proof.
  induction a as [|x a IH]; destruct b as [|y b]; destruct c as [|z c]; simpl; try discriminate; auto.
  destruct (N.compare_spec x y) as [E1|E1|E1]; destruct (N.compare_spec y z) as [E2|E2|E2];
    try discriminate; intros H1 H2.
  - subst. rewrite N.compare_refl. eauto.
  - rewrite (proj2 (N.compare_lt_iff x z)) by lia. reflexivity.
  - rewrite (proj2 (N.compare_lt_iff x z)) by lia. reflexivity.
  - rewrite (proj2 (N.compare_lt_iff x z)) by lia. reflexivity.
Qed.

(** Go map[string]V as an association list sorted by key: canonical, so equality is Leibniz. *)
Section Maps.
  Context {V : Type}.
  Notation gmap := (list (list N * V)).

  Fixpoint map_get (k : bytes) (m : gmap) : option V :=
    match m with
    | [] => None
    | (k', v) :: m' => if beqb k k' then Some v else map_get k m'
    end.

  Fixpoint map_set (k : bytes) (v : V) (m : gmap) : gmap :=
    match m with
    | [] => [(k, v)]
    | (k', v') :: m' =>
        match bcmp k k' with
        | Lt => (k, v) :: m
        | Eq => (k, v) :: m'
        | Gt => (k', v') :: map_set k v m'
        end
    end.

  Fixpoint map_del (k : bytes) (m : gmap) : gmap :=
    match m with
    | [] => []
    | (k', v) :: m' => if beqb k k' then map_del k m' else (k', v) :: map_del k m'
    end.

  (** Keys strictly ascending. *)
  Fixpoint key_above (k : bytes) (m : gmap) : Prop :=
    match m with
    | [] => True
    | (k', _) :: m' => bcmp k k' = Lt /\ key_above k m'
    end.
  Fixpoint sorted (m : gmap) : Prop :=
    match m with
    | [] => True
    | (k, _) :: m' => key_above k m' /\ sorted m'
    end.

  Lemma key_above_trans : forall m k k', bcmp k k' = Lt -> key_above k' m -> key_above k m.
  Proof.
    induction m as [|[k1 v1] m IH]; simpl; auto. intros k k' H [H1 H2]. split.
    - eapply bcmp_lt_trans; eauto. - eauto.
  Qed.

  Lemma map_get_above : forall m k, key_above k m -> map_get k m = None.
  Proof.
    induction m as [|[k1 v1] m IH]; simpl; auto. intros k [H1 H2].
    destruct (beqb_spec k k1). - subst. rewrite bcmp_refl in H1. discriminate. - auto.
  Qed.

  Lemma map_get_set_eq : forall m k v, map_get k (map_set k v m) = Some v.
  Proof.
    induction m as [|[k1 v1] m IH]; simpl; intros.
    - rewrite beqb_refl. reflexivity.
    - destruct (bcmp k k1) eqn:E; simpl; try (rewrite beqb_refl; reflexivity).
      destruct (beqb_spec k k1); [|auto]. subst. rewrite bcmp_refl in E. discriminate.
  Qed.

  Lemma map_get_set_neq : forall m k k' v, k <> k' -> map_get k (map_set k' v m) = map_get k m.
  Proof.
    induction m as [|[k1 v1] m IH]; simpl; intros k k' v H.
    - destruct (beqb_spec k k'); congruence.
    - destruct (bcmp k' k1) eqn:E; simpl.
      + apply bcmp_eq in E. subst. destruct (beqb_spec k k1); congruence.
      + destruct (beqb_spec k k'); congruence.
      + rewrite IH by assumption. reflexivity.
  Qed.

  Lemma key_above_set : forall m k k' v, bcmp k k' = Lt -> key_above k m -> key_above k (map_set k' v m).
  Proof.
    induction m as [|[k1 v1] m IH]; simpl; intros k k' v H Ha; auto.
    destruct Ha as [H1 H2]. destruct (bcmp k' k1) eqn:E; simpl; auto.
  Qed.

  Lemma sorted_set : forall m k v, sorted m -> sorted (map_set k v m).
  Proof.
    induction m as [|[k1 v1] m IH]; simpl; intros k v Hs; auto.
    destruct Hs as [Ha Hs]. destruct (bcmp k k1) eqn:E; simpl.
    - apply bcmp_eq in E. subst. auto.
    - split; auto. split; auto. eapply key_above_trans; eauto.
    - split; auto. apply key_above_set; auto. rewrite bcmp_antisym, E. reflexivity.
  Qed.

  Lemma sorted_del : forall m k, sorted m -> sorted (map_del k m).
  Proof.
    assert (Ha : forall m k k', key_above k m -> key_above k (map_del k' m)).
    { induction m as [|[k1 v1] m IH]; simpl; auto. intros k k' [H1 H2].
      destruct (beqb k' k1); simpl; auto. }
    induction m as [|[k1 v1] m IH]; simpl; auto. intros k [H1 H2].
    destruct (beqb k k1); simpl; auto.
  Qed.

  Lemma map_get_del_eq : forall m k, map_get k (map_del k m) = None.
  Proof.
    induction m as [|[k1 v1] m IH]; simpl; auto. intros k.
    destruct (beqb k k1) eqn:E; simpl; auto. rewrite E. auto.
  Qed.

  Lemma map_get_del_neq : forall m k k', k <> k' -> map_get k (map_del k' m) = map_get k m.
  Proof.
    induction m as [|[k1 v1] m IH]; simpl; auto. intros k k' H.
    destruct (beqb_spec k' k1); simpl.
    - subst. destruct (beqb_spec k k1); [congruence|]. auto.
    - rewrite IH by assumption. reflexivity.
  Qed.

  (** Two sorted maps with the same bindings are equal. *)
  Lemma sorted_ext : forall m m', sorted m -> sorted m' ->
    (forall k, map_get k m = map_get k m') -> m = m'.
  Proof.
    induction m as [|[k v] m IH]; intros [|[k' v'] m'] Hs Hs' H.
    - reflexivity.
    - specialize (H k'). simpl in H. rewrite beqb_refl in H. discriminate.
    - specialize (H k). simpl in H. rewrite beqb_refl in H. discriminate.
    - simpl in Hs, Hs'. destruct Hs as [Ha Hs], Hs' as [Ha' Hs'].
      assert (k = k').
      { pose proof (H k) as H1. pose proof (H k') as H2. simpl in H1, H2.
        rewrite beqb_refl in H1, H2. destruct (beqb_spec k k'); auto.
        destruct (beqb_spec k' k); [congruence|].
        assert (E1 : bcmp k' k = Lt).
        { symmetry in H1. revert H1 Ha'. clear. revert k k' v.
          induction m' as [|[a b] m' IH]; simpl; intros; [discriminate|].
          destruct Ha' as [A B]. destruct (beqb_spec k a); [subst; assumption|]. eauto. }
        assert (E2 : bcmp k k' = Lt).
        { revert H2 Ha. clear. revert k k' v'.
          induction m as [|[a b] m IH]; simpl; intros; [discriminate|].
          destruct Ha as [A B]. destruct (beqb_spec k' a); [subst; assumption|]. eauto. }
        rewrite bcmp_antisym, E2 in E1. discriminate. }
      subst k'.
      assert (v = v').
      { specialize (H k). simpl in H. rewrite beqb_refl in H. congruence. }
      subst v'. f_equal. apply IH; auto.
      intro k0. specialize (H k0). simpl in H. destruct (beqb_spec k0 k); auto.
      subst. rewrite !map_get_above; auto.
  Qed.
End Maps.

(** Dynamically typed Go values (interface{}) that the readers and writers handle.
    [F] is the representation of float64 (see DESIGN.md), integers stand for int and int64. *)
Inductive gval (F : Type) : Type :=
| VNil
| VBool (b : bool)
| VInt (z : Z)
| VFloat (f : F)
| VStr (s : bytes)
| VBytes (s : bytes)
| VArr (l : list (gval F))
| VMap (m : list (bytes * gval F)).
Arguments VNil {F}.
Arguments VBool {F} _.
Arguments VInt {F} _.
Arguments VFloat {F} _.
Arguments VStr {F} _.
Arguments VBytes {F} _.
Arguments VArr {F} _.
Arguments VMap {F} _.

Section GvalInd.
  Context {F : Type} (P : gval F -> Prop).
  Hypothesis Hnil : P VNil.
  Hypothesis Hbool : forall b, P (VBool b).
  Hypothesis Hint : forall z, P (VInt z).
  Hypothesis Hfloat : forall f, P (VFloat f).
  Hypothesis Hstr : forall s, P (VStr s).
  Hypothesis Hbytes : forall s, P (VBytes s).
  Hypothesis Harr : forall l, Forall P l -> P (VArr l).
  Hypothesis Hmap : forall m, Forall (fun kv => P (snd kv)) m -> P (VMap m).
  Fixpoint gval_ind2 (v : gval F) : P v :=
    match v with
    | VNil => Hnil
    | VBool b => Hbool b
    | VInt z => Hint z
    | VFloat f => Hfloat f
    | VStr s => Hstr s
    | VBytes s => Hbytes s
    | VArr l => Harr l ((fix go (l : list (gval F)) : Forall P l :=
        match l with [] => Forall_nil _ | x :: l' => Forall_cons _ (gval_ind2 x) (go l') end) l)
    | VMap m => Hmap m ((fix go (m : list (bytes * gval F)) : Forall (fun kv => P (snd kv)) m :=
        match m with [] => Forall_nil _ | x :: m' => Forall_cons _ (gval_ind2 (snd x)) (go m') end) m)
    end.
End GvalInd.

(** dsio/entry.go:9-19, type Entry. *)
Record entry (F : Type) : Type := mkEntry {
  e_index : Z;
  e_key : bytes;
  e_val : gval F
}.
Arguments mkEntry {F} _ _ _.
Arguments e_index {F} _.
Arguments e_key {F} _.
Arguments e_val {F} _.

(** Generic list lemmas. *)
Lemma skipn_skipn' : forall A (l : list A) a b, skipn a (skipn b l) = skipn (b + a) l.
Proof.
  intros A l a b. revert l. induction b as [|b IH]; intros l; [reflexivity|].
  destruct l as [|x l]; simpl; [apply skipn_nil|apply IH].
Qed.

Lemma firstn_app_le : forall {A} n (l1 l2 : list A), (n <= length l1)%nat -> firstn n (l1 ++ l2) = firstn n l1.
Proof.
  intros. rewrite firstn_app. replace (n - length l1)%nat with O by lia. simpl. apply app_nil_r.
Qed.

Lemma skipn_app_le : forall {A} n (l1 l2 : list A), (n <= length l1)%nat -> skipn n (l1 ++ l2) = skipn n l1 ++ l2.
Proof.
  intros. rewrite skipn_app. replace (n - length l1)%nat with O by lia. reflexivity.
Qed.

Lemma nth_error_nil' : forall A n, @nth_error A [] n = None.
Proof. intros A [|n]; reflexivity. Qed.

Lemma Forall2_impl : forall A B (P Q : A -> B -> Prop), (forall a b, P a b -> Q a b) ->
  forall l l', Forall2 P l l' -> Forall2 Q l l'.
Proof. intros A B P Q H l l'. induction 1; constructor; auto. Qed.

Lemma firstn_add : forall A (l : list A) a b, firstn (a + b) l = firstn a l ++ firstn b (skipn a l).
Proof.
  intros A l a. revert l. induction a as [|a IH]; intros l b; [reflexivity|].
  destruct l as [|x l]; simpl; [rewrite firstn_nil; reflexivity|]. f_equal. apply IH.
Qed.
