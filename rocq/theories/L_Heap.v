(** Lemmas about Assign on the heap: one component slot at a time. *)
From Verif Require Import Base M_Doc M_Components M_Heap S_Components S_Heap L_Components.

Lemma upd_eq : forall A (st : N -> A) a v, upd st a v a = v.
Proof. intros. unfold upd. now rewrite N.eqb_refl. Qed.
Lemma upd_neq : forall A (st : N -> A) a v x, x <> a -> upd st a v x = st x.
Proof. intros. unfold upd. destruct (N.eqb_spec x a); congruence. Qed.

(** A slot of the heap which one step of Assign treats by [slot], up to pointwise equality of the store. *)
Definition is_slot {A} (getp : pdataset -> option N) (geth : heap -> N -> A) (assign1 : A -> option A -> A) : Prop :=
  (forall c, assign1 c None = c) /\
  forall r h s,
    let sl := slot assign1 (getp (h_ds h r)) (getp (h_ds h s)) (geth h) in
    getp (h_ds (heap_assign1 r h (Some s)) r) = fst sl /\
    (forall x, geth (heap_assign1 r h (Some s)) x = snd sl x).

Lemma heap_assign1_ds : forall r h s x, x <> r -> h_ds (heap_assign1 r h (Some s)) x = h_ds h x.
Proof.
  intros r h s x Hx. unfold heap_assign1.
  repeat match goal with |- context[slot ?f ?a ?b ?c] => destruct (slot f a b c) end. now apply upd_neq.
Qed.

Ltac slot_tac := split; [reflexivity|]; intros r h s; unfold heap_assign1;
  repeat match goal with |- context[let '(_, _) := slot ?f ?a ?b ?c in _] => destruct (slot f a b c) eqn:? end; simpl;
  rewrite upd_eq; simpl; repeat split.

Lemma slot_meta : is_slot pd_meta h_meta meta_assign1. Proof. slot_tac. Qed.
Lemma slot_readme : is_slot pd_readme h_readme sc_assign1. Proof. slot_tac. Qed.
Lemma slot_viz : is_slot pd_viz h_viz sc_assign1. Proof. slot_tac. Qed.
Lemma slot_structure : is_slot pd_structure h_structure structure_assign1. Proof. slot_tac. Qed.
Lemma slot_stats : is_slot pd_stats h_stats stats_assign1. Proof. slot_tac. Qed.
Lemma slot_transform : is_slot pd_transform h_transform transform_assign1. Proof. slot_tac. Qed.

Lemma commit_assign1_self : forall c, commit_assign1 c (Some c) = c.
Proof. intros []; cbn. now rewrite !as_str_self, as_int_self, as_opt_self. Qed.

(** The second commit assignment (dataset.go:427) has no effect. *)
Lemma slot_commit : is_slot pd_commit h_commit commit_assign1.
Proof.
  split; [reflexivity|]; intros r h s. unfold heap_assign1.
  destruct (slot commit_assign1 (pd_commit (h_ds h r)) (pd_commit (h_ds h s)) (h_commit h)) as [cm hcm] eqn:E.
  repeat match goal with |- context[let '(_, _) := slot ?f ?a ?b ?c in _] => destruct (slot f a b c) end; simpl.
  rewrite upd_eq; simpl. split; [reflexivity|]. intros x.
  unfold slot in E. destruct (pd_commit (h_ds h r)) as [a|] eqn:Er.
  - injection E as <- <-. set (st := h_commit h). set (v := commit_assign1 (st a) (option_map st (pd_commit (h_ds h s)))).
    destruct (N.eqb_spec x a) as [->|n]; [|now rewrite upd_neq]. rewrite !upd_eq.
    assert (Q : (if N.eqb s r then Some a else pd_commit (h_ds h s)) = pd_commit (h_ds h s)).
    { destruct (N.eqb_spec s r); [|reflexivity]. now subst s. }
    rewrite Q. destruct (pd_commit (h_ds h s)) as [b|] eqn:Eb; [|reflexivity]. cbn [option_map].
    destruct (N.eqb_spec b a) as [->|nb].
    + rewrite upd_eq. apply commit_assign1_self.
    + rewrite upd_neq by assumption. unfold v. cbn [option_map]. apply commit_assign1_twice.
  - injection E as <- <-. destruct (pd_commit (h_ds h s)) as [b|] eqn:Eb; [|reflexivity].
    assert (Q : (if N.eqb s r then Some b else Some b) = Some b) by now destruct (N.eqb s r).
    rewrite Q. cbn [option_map snd]. rewrite commit_assign1_self.
    unfold upd. destruct (N.eqb_spec x b); congruence.
Qed.

Local Arguments heap_assign1 : simpl never.

Lemma present_cons : forall A (o : option A) l, present (o :: l) = match o with Some a => a :: present l | None => present l end.
Proof. intros A [a|] l; reflexivity. Qed.

(** The pointer the receiver ends up with, and the only object that can change. *)
Lemma slot_owner : forall A getp geth (assign1 : A -> option A -> A), is_slot getp geth assign1 ->
  forall srcs r h,
    getp (h_ds (heap_assign r srcs h) r) = owner (slot_ptrs getp h r srcs) /\
    (forall x, owner (slot_ptrs getp h r srcs) <> Some x -> geth (heap_assign r srcs h) x = geth h x).
Proof.
  intros A getp geth assign1 [Hn Hs]. unfold slot_ptrs, owner. induction srcs as [|[s|] srcs IH]; intros r h.
  - rewrite present_cons. simpl. destruct (getp (h_ds h r)); auto.
  - change (heap_assign r (Some s :: srcs) h) with (heap_assign r srcs (heap_assign1 r h (Some s))).
    destruct (IH r (heap_assign1 r h (Some s))) as [I1 I2]. destruct (Hs r h s) as [E1 E2].
    assert (P : hd_error (present (getp (h_ds (heap_assign1 r h (Some s)) r) ::
                  map (fun s0 => getp (h_ds (heap_assign1 r h (Some s)) s0)) (present srcs))) =
                hd_error (present (getp (h_ds h r) :: map (fun s0 => getp (h_ds h s0)) (present (Some s :: srcs))))).
    { rewrite (present_cons _ (Some s)). cbn [map]. rewrite E1, !present_cons. unfold slot.
      destruct (getp (h_ds h r)) as [a|] eqn:Er; [reflexivity|]. simpl.
      destruct (getp (h_ds h s)) as [b|] eqn:Es; [reflexivity|].
      simpl. f_equal. f_equal. apply map_ext. intros s0. destruct (N.eqb_spec s0 r) as [->|n0].
      - now rewrite E1, Er.
      - now rewrite heap_assign1_ds. }
    rewrite I1, P. split; [reflexivity|]. rewrite P in I2. intros x Hx. rewrite (I2 x Hx), E2.
    unfold slot. destruct (getp (h_ds h r)) as [a|] eqn:Er; simpl; [|reflexivity].
    apply upd_neq. intros ->. apply Hx. rewrite present_cons. reflexivity.
  - apply IH.
Qed.

Lemma slot_value : forall A getp geth (assign1 : A -> option A -> A), is_slot getp geth assign1 ->
  forall srcs r h, ~ In (Some r) srcs -> NoDup (present (slot_ptrs getp h r srcs)) ->
    option_map (geth (heap_assign r srcs h)) (getp (h_ds (heap_assign r srcs h) r)) =
    collapse (fun c ms => fold_left assign1 ms c) (map (option_map (geth h)) (slot_ptrs getp h r srcs)).
Proof.
  intros A getp geth assign1 [Hn Hs]. unfold slot_ptrs. induction srcs as [|[s|] srcs IH]; intros r h Hr Hd.
  - unfold collapse. cbn [map]. rewrite present_cons. simpl. destruct (getp (h_ds h r)); reflexivity.
  - change (heap_assign r (Some s :: srcs) h) with (heap_assign r srcs (heap_assign1 r h (Some s))).
    assert (Nr : ~ In (Some r) srcs) by (intros F; apply Hr; now right).
    assert (Ns : s <> r) by (intros ->; apply Hr; now left).
    destruct (Hs r h s) as [E1 E2].
    assert (M : map (fun s0 => getp (h_ds (heap_assign1 r h (Some s)) s0)) (present srcs) = map (fun s0 => getp (h_ds h s0)) (present srcs)).
    { apply map_ext_in. intros s0 Hin. rewrite heap_assign1_ds; [reflexivity|]. intros ->.
      apply Nr. unfold present in Hin. apply in_flat_map in Hin as ([u|] & Hin & F); simpl in F; [|contradiction].
      destruct F as [->|[]]; assumption. }
    rewrite (present_cons _ (Some s)) in Hd |- *. cbn [map] in Hd |- *.
    specialize (IH r (heap_assign1 r h (Some s)) Nr). rewrite M, E1 in IH.
    set (ptrs := map (fun s0 => getp (h_ds h s0)) (present srcs)) in *.
    unfold slot in IH, E2. destruct (getp (h_ds h r)) as [a|] eqn:Er.
    + simpl fst in IH; simpl snd in E2. rewrite !present_cons in *. inversion Hd as [|? ? Ha Hd']; subst.
      rewrite IH.
      * unfold collapse. cbn [map option_map]. rewrite !present_cons. f_equal. rewrite E2, upd_eq.
        assert (X : map (option_map (geth (heap_assign1 r h (Some s)))) ptrs = map (option_map (geth h)) ptrs).
        { apply map_ext_in. intros [p|] Hp; [|reflexivity]. simpl. f_equal. rewrite E2. apply upd_neq. intros ->.
          apply Ha. destruct (getp (h_ds h s)); [right|]; apply in_flat_map; exists (Some a); simpl; auto. }
        rewrite X. destruct (getp (h_ds h s)) as [b|]; simpl; [reflexivity|]. now rewrite Hn.
      * constructor.
        -- intros F. apply Ha. destruct (getp (h_ds h s)); [right|]; assumption.
        -- destruct (getp (h_ds h s)); [now inversion Hd'|assumption].
    + simpl fst in IH; simpl snd in E2. rewrite !present_cons in *. rewrite IH.
      * unfold collapse. cbn [map option_map]. rewrite !present_cons.
        assert (X : map (option_map (geth (heap_assign1 r h (Some s)))) ptrs = map (option_map (geth h)) ptrs).
        { apply map_ext. intros [p|]; [|reflexivity]. simpl. now rewrite E2. }
        rewrite X. destruct (getp (h_ds h s)) as [b|]; simpl; [|reflexivity]. now rewrite E2.
      * exact Hd.
  - apply IH; [intros F; apply Hr; now right|exact Hd].
Qed.

Lemma heap_assign_ds : forall srcs r h x, x <> r -> h_ds (heap_assign r srcs h) x = h_ds h x.
Proof.
  induction srcs as [|[s|] srcs IH]; intros r h x Hx; [reflexivity| |now apply IH].
  change (heap_assign r (Some s :: srcs) h) with (heap_assign r srcs (heap_assign1 r h (Some s))).
  rewrite IH by assumption. now apply heap_assign1_ds.
Qed.

Lemma heap_assign1_scalars : forall r h s,
  pd_scalars (h_ds (heap_assign1 r h (Some s)) r) = scalars_assign1 (pd_scalars (h_ds h r)) (pd_scalars (h_ds h s)).
Proof.
  intros. unfold heap_assign1.
  repeat match goal with |- context[let '(_, _) := slot ?f ?a ?b ?c in _] => destruct (slot f a b c) end; simpl. now rewrite upd_eq.
Qed.
