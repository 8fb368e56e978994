From Verif Require Import Base M_Stream S_Stream.

Section Proofs.
  Context {F S W C : Type}.
  Implicit Types (rd : reader F S) (wr : writer F W).

  Lemma yields_cons_inv : forall rd s x es e s', yields rd s (x :: es) e s' ->
    exists s1, rd s = (Ok x, s1) /\ yields rd s1 es e s'.
  Proof. intros rd s x es e s' H. inversion H; subst; eauto. Qed.
  Lemma accepts_cons_inv : forall wr w x es w', accepts wr w (x :: es) w' ->
    exists w1, wr w x = (None, w1) /\ accepts wr w1 es w'.
  Proof. intros wr w x es w' H. inversion H; subst; eauto. Qed.
  Lemma visits_cons_inv : forall (fn : C -> Z -> entry F -> option err * C) c i x es c', visits fn c i (x :: es) c' ->
    exists c1, fn c i x = (None, c1) /\ visits fn c1 (i + 1) es c'.
  Proof. intros fn c i x es c' H. inversion H; subst; eauto. Qed.

  Lemma yields_reads_split : forall rd es1 es2 s e s', yields rd s (es1 ++ es2) e s' ->
    exists s1, reads rd s es1 s1 /\ yields rd s1 es2 e s'.
  Proof.
    induction es1 as [|x es1 IH]; simpl; intros es2 s e s' H.
    - exists s. split; [constructor|assumption].
    - apply yields_cons_inv in H. destruct H as [s1 [H1 H2]]. destruct (IH _ _ _ _ H2) as [s2 [A B]]. exists s2. split; [econstructor; eauto|assumption].
  Qed.

  Lemma yields_det : forall rd s es1 e1 s1, yields rd s es1 e1 s1 -> forall es2 e2 s2, yields rd s es2 e2 s2 ->
    es1 = es2 /\ e1 = e2 /\ s1 = s2.
  Proof.
    induction 1; intros es2 e2 s2 H2.
    - inversion H2; subst; try congruence. split; [reflexivity|]. split; congruence.
    - destruct es2 as [|y es2]; [inversion H2; subst; congruence|].
      apply yields_cons_inv in H2. destruct H2 as [s3 [A B]]. assert (s3 = s1) by congruence. subst.
      destruct (IHyields _ _ _ B) as [-> [-> ->]]. split; [congruence|auto].
  Qed.

  (** PagedReader *)
  Lemma paged_skip_reads : forall rd es s s1, reads rd s es s1 ->
    paged_skip rd (length es) s = (None, s1, O).
  Proof. induction 1; simpl; [reflexivity|]. rewrite H. assumption. Qed.

  Lemma paged_skip_short : forall rd es s e s1, yields rd s es e s1 -> forall n, (length es < n)%nat ->
    paged_skip rd n s = (Some (Err e), s1, (n - length es)%nat).
  Proof.
    induction 1; intros n Hn; destruct n as [|n]; simpl in *; try lia.
    - rewrite H. reflexivity.
    - rewrite H. apply IHyields. lia.
  Qed.

  (** After the offset is used up. *)
  Lemma paged_yields0 : forall rd s es e s', yields rd s es e s' -> forall limit off, (off <= 0)%Z ->
    (if (limit <? 0)%Z then True else (Z.of_nat (length es) < limit)%Z) ->
    exists p', yields (paged_read rd) (mkPaged s limit off) es e p' /\ pg_r p' = s'.
  Proof.
    induction 1; intros limit off Hoff Hlim.
    - eexists. split; [apply y_end|].
      + unfold paged_read; simpl. replace (Z.to_nat off) with O by lia. simpl.
        destruct (Z.eqb_spec limit 0). { subst. simpl in Hlim. lia. }
        rewrite H. reflexivity.
      + reflexivity.
    - assert (Hl0 : limit <> 0%Z).
      { intros ->. simpl in Hlim. lia. }
      destruct (IHyields (limit - 1)%Z (Z.min off 0)) as [p' [I1 I2]]; [lia| |].
      { destruct (Z.ltb_spec limit 0); destruct (Z.ltb_spec (limit - 1) 0); auto; simpl in Hlim; lia. }
      exists p'. split; [|assumption]. eapply y_cons; [|exact I1].
      unfold paged_read; simpl. replace (Z.to_nat off) with O by lia. simpl.
      destruct (Z.eqb_spec limit 0); [lia|]. rewrite H. reflexivity.
  Qed.

  Lemma paged_limit0 : forall rd s es s1, reads rd s es s1 -> forall limit off, (off <= 0)%Z ->
    limit = Z.of_nat (length es) ->
    exists p', yields (paged_read rd) (mkPaged s limit off) es EOF p' /\ pg_r p' = s1.
  Proof.
    induction 1; intros limit off Hoff ->.
    - eexists. split; [apply y_end|].
      + unfold paged_read; simpl. replace (Z.to_nat off) with O by lia. reflexivity.
      + reflexivity.
    - destruct (IHreads (Z.of_nat (length es)) (Z.min off 0)) as [p' [I1 I2]]; [lia|reflexivity|].
      exists p'. split; [|assumption]. eapply y_cons; [|exact I1].
      unfold paged_read; cbn [pg_offset pg_r pg_limit]. replace (Z.to_nat off) with O by lia. cbn [paged_skip].
      destruct (Z.eqb_spec (Z.of_nat (length (x :: es))) 0); [simpl in *; lia|]. rewrite H.
      do 3 f_equal. simpl length. lia.
  Qed.

  (** The first call performs the skipping; the rest is as with offset 0. *)
  Lemma paged_skip_first : forall rd es0 s s1 limit off, reads rd s es0 s1 ->
    off = Z.of_nat (length es0) ->
    forall es e p', yields (paged_read rd) (mkPaged s1 limit 0) es e p' ->
    yields (paged_read rd) (mkPaged s limit off) es e p'.
  Proof.
    intros rd es0 s s1 limit off Hr -> es e p' H.
    assert (E : paged_read rd (mkPaged s limit (Z.of_nat (length es0))) = paged_read rd (mkPaged s1 limit 0)).
    { unfold paged_read; simpl. rewrite Nat2Z.id. rewrite (paged_skip_reads _ _ _ _ Hr). simpl.
      replace (Z.min (Z.of_nat (length es0)) 0) with 0%Z by lia. reflexivity. }
    inversion H; subst.
    - apply y_end. congruence.
    - eapply y_cons; [|eassumption]. congruence.
  Qed.

  Lemma reads_yields_reads : forall rd es s s1, reads rd s es s1 -> forall es2 s2, reads rd s1 es2 s2 ->
    reads rd s (es ++ es2) s2.
  Proof. induction 1; intros; simpl; [assumption|econstructor; eauto]. Qed.

  Lemma paged_window : forall rd s es e s' limit offset, yields rd s es e s' ->
    exists p', yields (paged_read rd) (mkPaged s limit offset) (window offset limit es)
      (if (0 <=? limit)%Z && (Z.max 0 offset + limit <=? Z.of_nat (length es))%Z then EOF else e) p' /\
      (if (0 <=? limit)%Z && (Z.max 0 offset + limit <=? Z.of_nat (length es))%Z
       then reads rd s (firstn (Z.to_nat (Z.max 0 offset + limit)) es) (pg_r p')
       else pg_r p' = s').
  Proof.
    intros rd s es e s' limit offset H. unfold window.
    destruct (Z.ltb_spec (Z.of_nat (length es)) offset) as [Hoff|Hoff].
    - (* offset beyond the end *)
      rewrite skipn_all2 by lia. rewrite firstn_nil.
      replace ((0 <=? limit)%Z && (Z.max 0 offset + limit <=? Z.of_nat (length es))%Z) with false.
      2:{ symmetry. apply andb_false_iff. destruct (Z.leb_spec 0 limit); [right|left; reflexivity].
          apply Z.leb_gt. lia. }
      eexists. split.
      + replace (if (limit <? 0)%Z then [] else []) with (@nil (entry F)) by (destruct (limit <? 0)%Z; reflexivity).
        apply y_end. unfold paged_read; simpl.
        rewrite (paged_skip_short _ _ _ _ _ H) by lia. reflexivity.
      + reflexivity.
    - set (o := Z.to_nat offset).
      assert (Ho : (o <= length es)%nat) by lia.
      rewrite <- (firstn_skipn o es) in H.
      apply yields_reads_split in H. destruct H as [s1 [H1 H2]].
      set (rest := skipn o es) in *.
      assert (Hlen : length rest = (length es - o)%nat) by (unfold rest; apply skipn_length).
      assert (Hlen0 : length (firstn o es) = o) by (apply firstn_length_le; assumption).
      (* reduce to offset <= 0 *)
      assert (Hred : forall es' e' p', yields (paged_read rd) (mkPaged s1 limit (Z.min offset 0)) es' e' p' ->
                yields (paged_read rd) (mkPaged s limit offset) es' e' p').
      { intros es' e' p' Hy. destruct (Z.leb_spec offset 0).
        - replace o with O in H1 by lia. simpl in H1. inversion H1; subst.
          replace (Z.min offset 0) with offset in Hy by lia. assumption.
        - replace (Z.min offset 0) with 0%Z in Hy by lia.
          eapply paged_skip_first; eauto. rewrite Hlen0. lia. }
      destruct (Z.leb_spec 0 limit) as [Hl|Hl]; simpl.
      + destruct (Z.ltb_spec limit 0); [lia|].
        destruct (Z.leb_spec (Z.max 0 offset + limit) (Z.of_nat (length es))) as [Hw|Hw].
        * rewrite <- (firstn_skipn (Z.to_nat limit) rest) in H2.
          apply yields_reads_split in H2. destruct H2 as [s2 [H2 H3]].
          assert (Hll : length (firstn (Z.to_nat limit) rest) = Z.to_nat limit) by (apply firstn_length_le; lia).
          destruct (paged_limit0 _ _ _ _ H2 limit (Z.min offset 0)) as [p' [I1 I2]]; [lia|lia|].
          exists p'. split; [auto|]. rewrite I2.
          replace (firstn (Z.to_nat (Z.max 0 offset + limit)) es)
            with (firstn o es ++ firstn (Z.to_nat limit) rest).
          -- eapply reads_yields_reads; eauto.
          -- unfold rest. rewrite <- firstn_add. f_equal. unfold o. lia.
        * rewrite (firstn_all2 rest) by lia.
          destruct (paged_yields0 _ _ _ _ _ H2 limit (Z.min offset 0)) as [p' [I1 I2]].
          -- lia.
          -- destruct (Z.ltb_spec limit 0); [trivial|]. lia.
          -- exists p'. split; auto.
      + destruct (Z.ltb_spec limit 0); [|lia].
        destruct (paged_yields0 _ _ _ _ _ H2 limit (Z.min offset 0)) as [p' [I1 I2]].
        * lia.
        * destruct (Z.ltb_spec limit 0); [trivial|lia].
        * exists p'. split; auto.
  Qed.

  (** Copy *)
  Lemma copy_all : forall rd wr s es e s', yields rd s es e s' -> forall w w', accepts wr w es w' ->
    forall fuel, (length es < fuel)%nat ->
    copy fuel rd wr s w =
      (match e with EOF => Ok tt | _ => Err (EWrap "row iteration error" 0 e) end, s', w').
  Proof.
    induction 1; intros w w' Ha fuel Hf; (destruct fuel as [|fuel]; [lia|]); simpl.
    - inversion Ha; subst. rewrite H. destruct e; reflexivity.
    - apply accepts_cons_inv in Ha. destruct Ha as [w1 [A B]]. rewrite H, A. apply IHyields; [assumption|simpl in Hf; lia].
  Qed.

  Lemma copy_reject : forall rd wr s es1 s1, reads rd s es1 s1 -> forall w w1, accepts wr w es1 w1 ->
    forall x s2 er w2, rd s1 = (Ok x, s2) -> wr w1 x = (Some er, w2) ->
    forall fuel, (length es1 < fuel)%nat ->
    copy fuel rd wr s w = (Err (EWrap "error writing value to buffer" 0 er), s2, w2).
  Proof.
    induction 1; intros w w1 Ha x0 s2 er w2 Hr Hw fuel Hf; (destruct fuel as [|fuel]; [lia|]); simpl.
    - inversion Ha; subst. rewrite Hr, Hw. reflexivity.
    - apply accepts_cons_inv in Ha. destruct Ha as [w3 [A B]]. rewrite H, A. eapply IHreads; eauto. simpl in Hf; lia.
  Qed.

  Lemma copy_ok_inv : forall rd wr fuel s w s' w', copy fuel rd wr s w = (Ok tt, s', w') ->
    exists es, yields rd s es EOF s' /\ accepts wr w es w'.
  Proof.
    induction fuel as [|fuel IH]; simpl; intros s w s' w' H; [discriminate|].
    destruct (rd s) as [[x|e| |] s1] eqn:E; try discriminate.
    - destruct (wr w x) as [[er|] w1] eqn:Ew; [discriminate|].
      destruct (IH _ _ _ _ H) as [es [A B]]. exists (x :: es). split; econstructor; eauto.
    - destruct e; try discriminate. injection H as <- <-. exists []. split; constructor; assumption.
  Qed.

  (** ReadAll *)
  Lemma read_all_array_spec : forall rd s es e s', yields rd s es e s' -> forall fuel i acc,
    (length es < fuel)%nat ->
    read_all_array fuel rd i acc s =
      (if is_eof_text e then Ok (acc ++ map e_val es)
       else Err (EWrap "entry" (i + Z.of_nat (length es) + 1) e), s').
  Proof.
    induction 1; intros fuel i acc Hf; (destruct fuel as [|fuel]; [lia|]); cbn [read_all_array].
    - rewrite H. simpl. rewrite app_nil_r, Z.add_0_r. destruct (is_eof_text e); reflexivity.
    - rewrite H, IHyields by (simpl in Hf; lia). cbn [length map].
      replace (i + Z.of_nat (Datatypes.S (length es)))%Z with (i + 1 + Z.of_nat (length es))%Z by lia.
      rewrite <- app_assoc. reflexivity.
  Qed.

  Definition set_entry (m : list (bytes * gval F)) (x : entry F) := map_set (e_key x) (e_val x) m.

  Lemma read_all_object_spec : forall rd s es e s', yields rd s es e s' -> forall fuel i acc,
    (length es < fuel)%nat ->
    read_all_object fuel rd i acc s =
      (if is_eof_text e then Ok (fold_left set_entry es acc)
       else Err (EWrap "row" (i + Z.of_nat (length es) + 1) e), s').
  Proof.
    induction 1; intros fuel i acc Hf; (destruct fuel as [|fuel]; [lia|]); cbn [read_all_object].
    - rewrite H. simpl. rewrite Z.add_0_r. destruct (is_eof_text e); reflexivity.
    - rewrite H, IHyields by (simpl in Hf; lia). cbn [length fold_left].
      replace (i + Z.of_nat (Datatypes.S (length es)))%Z with (i + 1 + Z.of_nat (length es))%Z by lia.
      reflexivity.
  Qed.

  Lemma fold_set_get : forall es acc k,
    map_get k (fold_left set_entry es acc) =
    match last_value k es with Some v => Some v | None => map_get k acc end.
  Proof.
    unfold last_value. intros es. induction es as [|x es IH] using rev_ind; intros acc k; [reflexivity|].
    rewrite fold_left_app. cbn [fold_left]. unfold set_entry at 1.
    rewrite rev_app_distr. cbn [rev app find].
    destruct (beqb_spec k (e_key x)) as [->|Hk].
    - apply map_get_set_eq.
    - rewrite map_get_set_neq by assumption. apply IH.
  Qed.

  Lemma fold_set_sorted : forall es acc, sorted acc -> sorted (fold_left set_entry es acc).
  Proof.
    induction es as [|x es IH]; simpl; intros; [assumption|]. apply IH. apply sorted_set. assumption.
  Qed.

  (** EachEntry *)
  Lemma each_entry_all : forall rd (fn : C -> Z -> entry F -> option err * C) s es e s', yields rd s es e s' ->
    forall i c c', visits fn c i es c' -> forall fuel, (length es < fuel)%nat ->
    each_entry fuel rd fn i s c =
      (if is_eof_text e then Ok tt else Err (EWrap "error reading row" (i + Z.of_nat (length es)) e), s', c').
  Proof.
    induction 1; intros i c c' Hv fuel Hf; (destruct fuel as [|fuel]; [lia|]); cbn [each_entry].
    - inversion Hv; subst. rewrite H. simpl. rewrite Z.add_0_r. destruct (is_eof_text e); reflexivity.
    - apply visits_cons_inv in Hv. destruct Hv as [c1 [A B]]. rewrite H, A. rewrite (IHyields _ _ _ B) by (simpl in Hf; lia).
      cbn [length]. replace (i + Z.of_nat (Datatypes.S (length es)))%Z with (i + 1 + Z.of_nat (length es))%Z by lia.
      reflexivity.
  Qed.

  Lemma each_entry_stop : forall rd (fn : C -> Z -> entry F -> option err * C) s es s1, reads rd s es s1 ->
    forall i c c1, visits fn c i es c1 -> forall x s2 er c2, rd s1 = (Ok x, s2) ->
    fn c1 (i + Z.of_nat (length es))%Z x = (Some er, c2) -> forall fuel, (length es < fuel)%nat ->
    each_entry fuel rd fn i s c = (if is_eof_text er then Ok tt else Err er, s2, c2).
  Proof.
    induction 1; intros i c c1 Hv x0 s2 er c2 Hr Hfn fuel Hf; (destruct fuel as [|fuel]; [lia|]); cbn [each_entry].
    - inversion Hv; subst. rewrite Hr. simpl length in Hfn. rewrite Z.add_0_r in Hfn. rewrite Hfn.
      destruct (is_eof_text er); reflexivity.
    - apply visits_cons_inv in Hv. destruct Hv as [c3 [A B]]. rewrite H, A. eapply IHreads; eauto.
      + rewrite <- Hfn. f_equal. cbn [length]. lia.
      + simpl in Hf. lia.
  Qed.
End Proofs.

Lemma tracked_calls_spec : forall R (rd : nat -> R -> bytes * option err * R) ks n r,
  fst (tracked_calls rd ks (mkTracked n r)) = fst (direct_calls rd ks r) /\
  tr_r (snd (tracked_calls rd ks (mkTracked n r))) = snd (direct_calls rd ks r) /\
  tr_read (snd (tracked_calls rd ks (mkTracked n r))) =
    (n + Z.of_nat (length (concat (map fst (fst (direct_calls rd ks r))))))%Z.
Proof.
  intros R rd. induction ks as [|k ks IH]; intros n r; simpl; [repeat split; lia|].
  unfold tracked_step. simpl. destruct (rd k r) as [[d e] r1]. simpl.
  specialize (IH (n + Z.of_nat (length d))%Z r1).
  destruct (tracked_calls rd ks _) as [rs t]. destruct (direct_calls rd ks r1) as [rs' r2].
  simpl in *. destruct IH as [-> [-> ->]]. split; [reflexivity|]. split; [reflexivity|].
  rewrite app_length. lia.
Qed.
