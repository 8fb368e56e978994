(** Lemmas on spreadsheets. *)
From Verif Require Import Base M_Decimal L_Decimal M_Columns S_Columns P_Columns M_Xlsx S_Xlsx.
Notation length := List.length.

Lemma same_cell_true : forall a b, same_cell a b = true <-> a = b.
Proof.
  intros [a1 a2] [b1 b2]. unfold same_cell. cbn [fst snd]. rewrite andb_true_iff, !Nat.eqb_eq. split; [intros [-> ->]; reflexivity|].
  intros E. injection E as -> ->. auto.
Qed.
Lemma cell_at_in : forall sh p t, cell_at sh p = Some t -> In (p, t) sh.
Proof.
  induction sh as [|[q u] sh IH]; intros p t H; [discriminate|]. cbn [cell_at] in H. destruct (same_cell q p) eqn:E.
  - apply same_cell_true in E. subst. injection H as ->. left. reflexivity.
  - right. apply IH. exact H.
Qed.
Lemma in_cell_at : forall sh p t, In (p, t) sh -> exists u, cell_at sh p = Some u.
Proof.
  induction sh as [|[q u] sh IH]; intros p t H; [destruct H|]. cbn [cell_at]. destruct (same_cell q p) eqn:E; [eauto|].
  destruct H as [H|H]; [|eapply IH; exact H]. injection H as -> ->. rewrite (proj2 (same_cell_true p p) eq_refl) in E. discriminate.
Qed.
Lemma filter_all : forall A (f : A -> bool) l, forallb f l = true -> filter f l = l.
Proof. intros A f l. induction l as [|x l IH]; intros H; [reflexivity|]. cbn in *. apply andb_true_iff in H. destruct H as [-> H]. rewrite (IH H). reflexivity. Qed.
Lemma filter_none : forall A (f : A -> bool) l, forallb (fun x => negb (f x)) l = true -> filter f l = [].
Proof. intros A f l. induction l as [|x l IH]; intros H; [reflexivity|]. cbn in *. apply andb_true_iff in H. destruct H as [H0 H]. apply negb_true_iff in H0. rewrite H0. exact (IH H). Qed.
Lemma axis_place : forall rows i, (0 <= rows)%Z -> (Z.of_nat i < 17576)%Z ->
  parse_axis (axis rows i) = Some (S i, S (Z.to_nat rows)).
Proof.
  intros rows i Hr Hi. unfold axis. destruct (col_letters_correct (Z.of_nat i) ltac:(lia)) as (w & -> & _ & Hw & Hn).
  unfold parse_axis. unfold itoa. replace (rows + 1 <? 0)%Z with false by (symmetry; apply Z.ltb_ge; lia).
  rewrite !filter_app.
  assert (U : forallb is_letter w = true).
  { apply forallb_forall. intros c Hc. rewrite Forall_forall in Hw. specialize (Hw c Hc). unfold upper in Hw. unfold is_letter.
    apply andb_true_iff. split; apply N.leb_le; lia. }
  assert (V : forallb (fun c => negb (is_digit c)) w = true).
  { apply forallb_forall. intros c Hc. rewrite Forall_forall in Hw. specialize (Hw c Hc). unfold upper in Hw. unfold is_digit.
    apply negb_true_iff, andb_false_iff. right. apply N.leb_gt. lia. }
  assert (D : forallb (fun c => negb (is_letter c)) (dec (Z.to_N (rows + 1))) = true).
  { apply forallb_forall. intros c Hc. apply dec_in in Hc. unfold is_letter. apply negb_true_iff, andb_false_iff. left. apply N.leb_gt. lia. }
  rewrite (filter_all _ _ _ U), (filter_none _ _ _ V), (filter_none _ _ _ D), (filter_all _ _ _ (dec_digits _)).
  rewrite app_nil_r. cbn [app]. rewrite parse_digits_dec, Hn. f_equal. f_equal; lia.
Qed.

Section Keep.
  Variable sheet_key : bytes -> bytes.
  Variable keep : bytes -> bytes.
  Notation set_cells := (set_cells sheet_key keep).
  Lemma set_cells_at : forall rows name strs i b sh, (0 <= rows)%Z -> (Z.of_nat (i + length strs) <= 17576)%Z ->
    map_get (sheet_key name) b = Some sh ->
    exists sh', map_get (sheet_key name) (set_cells rows name i strs b) = Some sh' /\
      forall c r, cell_at sh' (c, r) =
        match (if Nat.eqb r (S (Z.to_nat rows)) && Nat.ltb i c then nth_error strs (c - S i) else None) with
        | Some t => Some (keep t) | None => cell_at sh (c, r) end.
  Proof.
    intros rows name. induction strs as [|s strs IH]; intros i b sh Hr Hi Hb; cbn [M_Xlsx.set_cells].
    - exists sh. split; [exact Hb|]. intros c r. destruct (Nat.eqb r _ && Nat.ltb i c); [|reflexivity]. destruct (c - S i)%nat; reflexivity.
    - cbn [length] in Hi. destruct (IH (S i) (set_cell sheet_key keep b name (axis rows i) s) (((S i, S (Z.to_nat rows)), keep s) :: sh)) as (sh' & E & P); [exact Hr|lia| |].
      + unfold set_cell. rewrite Hb, axis_place by lia. apply map_get_set_eq.
      + exists sh'. split; [exact E|]. intros c r. rewrite P. cbn [cell_at]. unfold same_cell. cbn [fst snd].
        destruct (Nat.eqb_spec r (S (Z.to_nat rows))) as [->|Hne]; cbn [andb].
        * destruct (Nat.ltb_spec (S i) c) as [L|L].
          -- replace (Nat.ltb i c) with true by (symmetry; apply Nat.ltb_lt; lia).
             replace (c - S i)%nat with (S (c - S (S i))) by lia. cbn [nth_error].
             destruct (nth_error strs (c - S (S i))); [reflexivity|]. replace (Nat.eqb (S i) c) with false by (symmetry; apply Nat.eqb_neq; lia). reflexivity.
          -- destruct (Nat.ltb_spec i c) as [L2|L2].
             ++ replace c with (S i) by lia. rewrite Nat.sub_diag, !Nat.eqb_refl. reflexivity.
             ++ replace (Nat.eqb (S i) c) with false by (symmetry; apply Nat.eqb_neq; lia). reflexivity.
        * replace (Nat.eqb (S (Z.to_nat rows)) r) with false by (symmetry; apply Nat.eqb_neq; lia). rewrite andb_false_r. reflexivity.
  Qed.

  (** A sheet that holds a table. *)
  Definition holds (sh : sheet) (rows : list (list bytes)) : Prop :=
    forall c r, cell_at sh (c, r) = match c, r with S c, S r => option_map keep (at_cell rows c r) | _, _ => None end.

  Lemma greatest_is : forall l n, (forall x, In x l -> (x <= n)%nat) -> (n = 0%nat \/ In n l) -> greatest l = n.
  Proof.
    intros l n Hb Hn. assert (A : (greatest l <= n)%nat).
    { clear Hn. induction l as [|x l IH]; [cbn; lia|]. cbn. specialize (IH (fun y Hy => Hb y (or_intror Hy))). specialize (Hb x (or_introl eq_refl)). unfold greatest in IH. lia. }
    destruct Hn as [->|Hn]; [lia|]. enough (n <= greatest l)%nat by lia. clear A Hb.
    induction l as [|x l IH]; [destruct Hn|]. destruct Hn as [->|Hn]; cbn; [lia|]. specialize (IH Hn). unfold greatest in IH. lia.
  Qed.
  Lemma in_row_cells : forall sh r p t, In (p, t) (row_cells sh r) <-> In (p, t) sh /\ snd p = r.
  Proof. intros. unfold row_cells. rewrite filter_In. cbn [fst]. rewrite Nat.eqb_eq. reflexivity. Qed.

  Lemma nth_map_seq : forall A (g : nat -> A) (l : list A), (forall i x, nth_error l i = Some x -> g (S i) = x) -> map g (seq 1 (length l)) = l.
  Proof.
    intros A g l. assert (G : forall l k, (forall i x, nth_error l i = Some x -> g (k + i)%nat = x) -> map g (seq k (length l)) = l).
    { induction l0 as [|y l0 IH]; intros k H; [reflexivity|]. cbn [length seq map]. f_equal.
      - specialize (H 0%nat y eq_refl). rewrite Nat.add_0_r in H. exact H.
      - apply IH. intros i x Hx. specialize (H (S i) x Hx). rewrite <- H. f_equal. lia. }
    intros H. apply G. intros i x Hx. exact (H i x Hx).
  Qed.
  Lemma at_cell_some : forall rows c r t, at_cell rows c r = Some t -> exists row, nth_error rows r = Some row /\ nth_error row c = Some t.
  Proof. intros rows c r t H. unfold at_cell in H. destruct (nth_error rows r) eqn:E; [eauto|discriminate]. Qed.
  Lemma holds_in : forall sh rows, holds sh rows -> forall c r t, In ((c, r), t) sh -> exists c' r' u, c = S c' /\ r = S r' /\ at_cell rows c' r' = Some u.
  Proof.
    intros sh rows H c r t Hin. apply in_cell_at in Hin. destruct Hin as (u & Hu). rewrite H in Hu. destruct c as [|c]; [discriminate|]. destruct r as [|r]; [discriminate|].
    exists c, r. destruct (at_cell rows c r) as [v|] eqn:E; [|discriminate]. exists v. auto.
  Qed.
  Lemma holds_out : forall sh rows, holds sh rows -> forall c r u, at_cell rows c r = Some u -> exists t, In ((S c, S r), t) sh.
  Proof. intros sh rows H c r u Hu. exists (keep u). apply cell_at_in. rewrite H, Hu. reflexivity. Qed.
  Lemma row_is_back : forall sh rows r row, holds sh rows -> nth_error rows r = Some row -> row_texts sh (S r) = map keep row.
  Proof.
    intros sh rows r row H Hr. unfold row_texts.
    assert (W : greatest (map (fun x => fst (fst x)) (row_cells sh (S r))) = length row).
    { apply greatest_is.
      - intros x Hx. apply in_map_iff in Hx. destruct Hx as ([[c' r'] t] & <- & Hin). apply in_row_cells in Hin. cbn [fst snd] in *. destruct Hin as [Hin ->].
        destruct (holds_in _ _ H _ _ _ Hin) as (c & r2 & u & -> & E & Hu). injection E as <-. apply at_cell_some in Hu. destruct Hu as (row' & E1 & E2).
        rewrite Hr in E1. injection E1 as <-. apply nth_error_Some. rewrite E2. discriminate.
      - destruct (length row) as [|n] eqn:E; [left; reflexivity|right]. assert (Hn : exists u, nth_error row n = Some u).
        { destruct (nth_error row n) eqn:X; [eauto|]. apply nth_error_None in X. lia. }
        destruct Hn as (u & Hu). destruct (holds_out _ _ H n r u) as (t & Ht); [unfold at_cell; rewrite Hr; exact Hu|].
        apply in_map_iff. exists ((S n, S r), t). split; [reflexivity|]. apply in_row_cells. split; [exact Ht|reflexivity]. }
    rewrite W. rewrite <- (map_length keep row). apply nth_map_seq. intros i x Hx. rewrite H. unfold at_cell. rewrite Hr.
    rewrite nth_error_map in Hx. rewrite Hx. reflexivity.
  Qed.
  Lemma holds_rows : forall sh rows, holds sh rows -> Forall (fun row => row <> []) rows -> sheet_rows sh = map (map keep) rows.
  Proof.
    intros sh rows H Hne. unfold sheet_rows.
    assert (G : greatest (map (fun x => snd (fst x)) sh) = length rows).
    { apply greatest_is.
      - intros x Hx. apply in_map_iff in Hx. destruct Hx as ([[c' r'] t] & <- & Hin). cbn [fst snd].
        destruct (holds_in _ _ H _ _ _ Hin) as (c & r & u & -> & -> & Hu). apply at_cell_some in Hu. destruct Hu as (row & E1 & _).
        apply nth_error_Some. rewrite E1. discriminate.
      - destruct (length rows) as [|n] eqn:E; [left; reflexivity|right]. assert (Hn : exists row, nth_error rows n = Some row).
        { destruct (nth_error rows n) eqn:X; [eauto|]. apply nth_error_None in X. lia. }
        destruct Hn as (row & Hr). assert (row <> []) by (rewrite Forall_forall in Hne; apply Hne; eapply nth_error_In; exact Hr).
        destruct row as [|u row]; [congruence|]. destruct (holds_out _ _ H 0%nat n u) as (t & Ht); [unfold at_cell; rewrite Hr; reflexivity|].
        apply in_map_iff. exists ((1%nat, S n), t). split; [reflexivity|exact Ht]. }
    rewrite G, filter_all.
    - rewrite <- (map_length (map keep) rows). apply nth_map_seq. intros i x Hx. rewrite nth_error_map in Hx. destruct (nth_error rows i) as [row|] eqn:E; [|discriminate].
      injection Hx as <-. apply row_is_back with (rows := rows); assumption.
    - apply forallb_forall. intros r Hr. apply in_seq in Hr. destruct r as [|r]; [lia|].
      destruct (nth_error rows r) as [row|] eqn:E; [|apply nth_error_None in E; lia].
      assert (row <> []) by (rewrite Forall_forall in Hne; apply Hne; eapply nth_error_In; exact E).
      destruct row as [|u row]; [congruence|]. destruct (holds_out _ _ H 0%nat r u) as (t & Ht); [unfold at_cell; rewrite E; reflexivity|].
      assert (Hin : In ((1%nat, S r), t) (row_cells sh (S r))) by (apply in_row_cells; split; [exact Ht|reflexivity]).
      destruct (row_cells sh (S r)); [destruct Hin|reflexivity].
  Qed.
  Lemma at_cell_app : forall rows row c r, at_cell (rows ++ [row]) c r = if Nat.eqb r (length rows) then nth_error row c else at_cell rows c r.
  Proof.
    intros rows row c r. unfold at_cell. destruct (Nat.eqb_spec r (length rows)) as [->|Hne].
    - rewrite nth_error_app2 by lia. rewrite Nat.sub_diag. reflexivity.
    - destruct (Nat.lt_ge_cases r (length rows)) as [L|L]; [rewrite nth_error_app1 by exact L; reflexivity|].
      rewrite nth_error_app2 by lia. replace (nth_error [row] (r - length rows)) with (@None (list bytes)); [|symmetry; apply nth_error_None; cbn; lia].
      replace (nth_error rows r) with (@None (list bytes)); [reflexivity|]. symmetry. apply nth_error_None. lia.
  Qed.
  Lemma holds_add : forall name b sh rows row, map_get (sheet_key name) b = Some sh -> holds sh rows -> (Z.of_nat (length row) <= 17576)%Z ->
    exists sh', map_get (sheet_key name) (set_cells (Z.of_nat (length rows)) name 0 row b) = Some sh' /\ holds sh' (rows ++ [row]).
  Proof.
    intros name b sh rows row Hb H Hw. destruct (set_cells_at (Z.of_nat (length rows)) name row 0 b sh ltac:(lia) ltac:(cbn; lia) Hb) as (sh' & E & P).
    exists sh'. split; [exact E|]. intros c r. rewrite P, Nat2Z.id, H. destruct c as [|c].
    - rewrite andb_false_r. reflexivity.
    - destruct r as [|r]; [reflexivity|]. cbn [Nat.eqb Nat.ltb Nat.leb]. rewrite andb_true_r, at_cell_app.
      replace (S c - 1)%nat with c by lia. destruct (Nat.eqb_spec r (length rows)) as [->|Hne].
      + destruct (nth_error row c) as [t|] eqn:X; [reflexivity|]. unfold at_cell. replace (nth_error rows (length rows)) with (@None (list bytes)); [reflexivity|].
        symmetry. apply nth_error_None. lia.
      + reflexivity.
  Qed.
End Keep.
