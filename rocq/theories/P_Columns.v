(** C28, C29: column names. *)
From Verif Require Import Base M_Columns S_Columns L_Columns.
Open Scope Z_scope.

(** C28: below 17576 the name is the standard spreadsheet name of the column. *)
Theorem col_letters_correct : forall x, 0 <= x < 17576 ->
  exists w, col_index_to_letters x = Some w /\ w <> [] /\ Forall upper w /\ col_number w = x + 1.
Proof.
  intros x Hx. apply letters_ok_spec. apply (letters_upto_all _ _ letters_small). 
  change (Z.of_nat (26 * 26 * 26)) with 17576. lia.
Qed.
Print Assumptions col_letters_correct.
Example col_letters_correct_ex : col_index_to_letters 16383 = Some (bs "XFD") /\ col_number (bs "XFD") = 16384.
Proof. split; reflexivity. Qed.

Theorem col_letters_injective : forall x y, 0 <= x < 17576 -> 0 <= y < 17576 ->
  col_index_to_letters x = col_index_to_letters y -> x = y.
Proof.
  intros x y Hx Hy E.
  destruct (col_letters_correct x Hx) as (w & E1 & _ & _ & N1).
  destruct (col_letters_correct y Hy) as (w' & E2 & _ & _ & N2).
  rewrite E1, E2 in E. injection E as ->. lia.
Qed.
Print Assumptions col_letters_injective.
Example col_letters_injective_ex : 0 <= 676 < 17576 /\ col_index_to_letters 676 = Some (bs "ZA").
Proof. split; [lia|reflexivity]. Qed.

(** For every index, however large, the result is a well formed column name. *)
Theorem col_letters_wellformed : forall x, 0 <= x ->
  exists w, col_index_to_letters x = Some w /\ w <> [] /\ Forall upper w.
Proof. exact letters_every. Qed.
Print Assumptions col_letters_wellformed.
Example col_letters_wellformed_ex : col_index_to_letters 18278 = Some (bs "AAAA").
Proof. reflexivity. Qed.

(** The unbounded claim is false. *)
Theorem col_letters_correct_refuted :
  exists x y, 0 <= x < y /\ col_index_to_letters x = col_index_to_letters y.
Proof. exists 676, 17576. split; [lia|reflexivity]. Qed.
Print Assumptions col_letters_correct_refuted.

(** C29 *)
Definition lower_ok (d : Z) : bool :=
  match abstract_column_name d with
  | Ok w => Z.eqb (fold_left (fun v c => v * 26 + (Z.of_N c - 96)) w 0) (if d <? 676 then d + 1 else d + 27)
  | _ => false
  end.
Fixpoint lower_upto (n : nat) (x : Z) : bool :=
  match n with O => true | S n' => lower_ok x && lower_upto n' (x + 1) end.
Lemma lower_upto_all : forall n x, lower_upto n x = true ->
  forall y, x <= y < x + Z.of_nat n -> lower_ok y = true.
Proof.
  induction n; intros x H y Hy; [lia|]. simpl in H. apply andb_prop in H as [H1 H2].
  destruct (Z.eq_dec x y); [subst; auto|]. eapply IHn; eauto. lia.
Qed.

Lemma abstract_name_number : forall d, 0 <= d < 702 ->
  exists w, abstract_column_name d = Ok w /\
    col_number (map (fun c => c - 32)%N w) = if d <? 676 then d + 1 else d + 27.
Proof.
  intros d Hd.
  assert (H : lower_ok d = true).
  { apply (lower_upto_all 702 0); [vm_compute; reflexivity|lia]. }
  unfold lower_ok in H.
  assert (L : exists w, abstract_column_name d = Ok w /\ Forall lower w).
  { unfold abstract_column_name. destruct (Z.eqb_spec d 0).
    - eexists. split; [reflexivity|]. repeat constructor; unfold lower; simpl; lia.
    - destruct (digits_repr d ltac:(lia)) as [(_ & F & _) _].
      destruct (b26_string_ok _ F) as (s & E & L & _). exists s. split; auto. }
  destruct L as (w & E & L). rewrite E in H. exists w. split; [exact E|].
  apply Z.eqb_eq in H. rewrite <- H. unfold col_number.
  generalize 0. clear - L. induction w as [|c w IH]; intros v; simpl; [reflexivity|].
  inversion L; subst. rewrite IH by assumption. f_equal. unfold lower in *. lia.
Qed.

(** Below 676 the name is the spreadsheet name in lower case. *)
Theorem abstract_name_standard : forall d, 0 <= d < 676 ->
  exists w, abstract_column_name d = Ok w /\ col_number (map (fun c => c - 32)%N w) = d + 1.
Proof.
  intros d Hd. destruct (abstract_name_number d ltac:(lia)) as (w & E & N).
  exists w. split; auto. destruct (Z.ltb_spec d 676); lia.
Qed.
Print Assumptions abstract_name_standard.
Example abstract_name_standard_ex : abstract_column_name 675 = Ok (bs "yz").
Proof. reflexivity. Qed.

(** 676 should be "za" but is "aaa". *)
Theorem abstract_name_standard_refuted : exists d w, 0 <= d /\ abstract_column_name d = Ok w /\
  col_number (map (fun c => c - 32)%N w) <> d + 1.
Proof. exists 676, (bs "aaa"). split; [lia|]. split; [reflexivity|]. vm_compute. discriminate. Qed.
Print Assumptions abstract_name_standard_refuted.

(** Names are distinct on 0..701. *)
Theorem abstract_name_injective : forall d e, 0 <= d < 702 -> 0 <= e < 702 ->
  abstract_column_name d = abstract_column_name e -> d = e.
Proof.
  intros d e Hd He E.
  destruct (abstract_name_number d Hd) as (w & E1 & N1).
  destruct (abstract_name_number e He) as (w' & E2 & N2).
  rewrite E1, E2 in E. injection E as ->.
  destruct (Z.ltb_spec d 676), (Z.ltb_spec e 676); lia.
Qed.
Print Assumptions abstract_name_injective.
Example abstract_name_injective_ex : 0 <= 701 < 702 /\ abstract_column_name 701 = Ok (bs "aaz").
Proof. split; [lia|reflexivity]. Qed.

(** Every non-negative index has a non-empty lower case name. *)
Theorem abstract_name_lowercase : forall d, 0 <= d ->
  exists w, abstract_column_name d = Ok w /\ w <> [] /\ Forall lower w.
Proof.
  intros d Hd. unfold abstract_column_name. destruct (Z.eqb_spec d 0).
  - eexists. split; [reflexivity|]. split; [discriminate|]. repeat constructor; unfold lower; simpl; lia.
  - destruct (digits_repr d ltac:(lia)) as [(_ & F & _) N].
    destruct (b26_string_ok _ F) as (s & E & L & Len). exists s. split; auto. split; auto.
    intros ->. simpl in Len. fold (digits_of d) in Len. destruct (digits_of d); [congruence|discriminate].
Qed.
Print Assumptions abstract_name_lowercase.
Example abstract_name_lowercase_ex : abstract_column_name 1000000 = Ok (bs "bdwgo").
Proof. reflexivity. Qed.

(** Exactly which indexes share a name: those whose base 26 digits differ only in 0/1 before the last place. *)
Theorem abstract_name_collisions : forall d e ds es, 0 < d -> 0 < e -> base26_repr ds d -> base26_repr es e ->
  (abstract_column_name d = abstract_column_name e <-> same_name_digits ds es).
Proof.
  intros d e ds es Hd He Rd Re. unfold abstract_column_name.
  destruct (Z.eqb_spec d 0); [lia|]. destruct (Z.eqb_spec e 0); [lia|].
  fold (digits_of d). fold (digits_of e).
  destruct (digits_repr d Hd) as [Rd' _]. destruct (digits_repr e He) as [Re' _].
  rewrite (repr_unique d _ _ Rd Rd'), (repr_unique e _ _ Re Re').
  apply b26_string_eq; [apply Rd'|apply Re'].
Qed.
Print Assumptions abstract_name_collisions.
Example abstract_name_collisions_ex : base26_repr [1; 0; 0] 676 /\ base26_repr [1; 1; 0] 702 /\
  same_name_digits [1; 0; 0] [1; 1; 0].
Proof.
  split; [|split].
  - split; [reflexivity|]. split; [repeat constructor; lia|]. intros c t E; injection E as <- _; lia.
  - split; [reflexivity|]. split; [repeat constructor; lia|]. intros c t E; injection E as <- _; lia.
  - simpl. repeat split; lia.
Qed.

Theorem abstract_name_injective_refuted :
  exists d e, 0 <= d < e /\ abstract_column_name d = abstract_column_name e.
Proof. exists 676, 702. split; [lia|reflexivity]. Qed.
Print Assumptions abstract_name_injective_refuted.

(** Every negative index panics. *)
Theorem abstract_name_negative_panics : forall d, d < 0 -> abstract_column_name d = Panic.
Proof.
  intros d Hd. unfold abstract_column_name. destruct (Z.eqb_spec d 0); [lia|].
  fold (digits_of d). destruct (digits_neg d Hd) as (c & t & -> & N). now apply b26_string_neg_head.
Qed.
Print Assumptions abstract_name_negative_panics.
Example abstract_name_negative_panics_ex : abstract_column_name (-26) = Panic.
Proof. reflexivity. Qed.
