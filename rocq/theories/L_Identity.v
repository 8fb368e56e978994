From Verif Require Import Base M_Identity.

Section Proofs.
  Context {E : Type}.
  Implicit Types (s : istate E).

  Definition taken (log : list (event E)) : list E :=
    flat_map (fun ev => match ev with EvEntry x => [x] | EvDrained x => [x] | _ => [] end) log.

  Lemma isteps_trans : forall s1 s2, isteps s1 s2 -> forall s3, isteps s2 s3 -> isteps s1 s3.
  Proof. induction 1; intros; [assumption|econstructor; eauto]. Qed.

  Definition inv (data : list E) (s : istate E) : Prop :=
    taken (i_log s) ++ i_todo s = data /\
    (i_done s = true -> i_todo s = []) /\
    (In EvEOF (i_log s) \/ In EvClosed (i_log s) -> i_done s = true).

  Lemma inv_step : forall data s s', inv data s -> istep s s' -> inv data s'.
  Proof.
    intros data s s' [H1 [H2 H3]] Hs. unfold inv.
    destruct Hs; cbn [i_log i_todo i_done i_pc] in *; unfold taken in *;
      rewrite ?flat_map_app; simpl; rewrite ?app_nil_r, <- ?app_assoc; simpl;
      (split; [rewrite ?app_nil_r in *; assumption|]); (split; [auto; try discriminate|]);
      rewrite ?in_app_iff; simpl; intuition (try discriminate; try congruence).
  Qed.

  Lemma inv_steps : forall s s', isteps s s' -> forall data, inv data s -> inv data s'.
  Proof. induction 1; intros; [assumption|]. apply IHisteps. eapply inv_step; eauto. Qed.

  Lemma inv_init : forall data, inv data (iinit data).
  Proof. intros. unfold inv; simpl. split; [reflexivity|]. split; [discriminate|]. intros [[]|[]]. Qed.

  Lemma reach_inv : forall data s, isteps (iinit data) s -> inv data s.
  Proof. intros. eapply inv_steps; eauto. apply inv_init. Qed.

  (** Read everything with the consumer ahead of the flag. *)
  Lemma read_one : forall (x : E) todo log, isteps (mkI (x :: todo) false CIdle log) (mkI todo false CIdle (log ++ [EvEntry x])).
  Proof.
    intros. eapply is_step; [apply st_read_wait|]. eapply is_step; [apply st_read_recv|]. constructor.
  Qed.

  Lemma read_all_entries : forall (todo : list E) log,
    isteps (mkI todo false CIdle log) (mkI [] false CIdle (log ++ map EvEntry todo)).
  Proof.
    induction todo as [|x todo IH]; intros log; simpl.
    - rewrite app_nil_r. constructor.
    - eapply isteps_trans; [apply read_one|]. specialize (IH (log ++ [EvEntry x])).
      rewrite <- app_assoc in IH. exact IH.
  Qed.

  (** A consumer waiting after the last entry stays there for ever. *)
  Definition stuck (s : istate E) : Prop := i_todo s = [] /\ (i_pc s = CReadWait \/ i_pc s = CCloseWait).

  Lemma stuck_step : forall s s', stuck s -> istep s s' -> stuck s' /\ i_pc s' = i_pc s /\ i_log s' = i_log s.
  Proof.
    intros s s' [H1 H2] Hs. unfold stuck. destruct Hs; simpl in *; try discriminate;
      try (destruct H2; discriminate). auto.
  Qed.

  Lemma stuck_forever : forall s s', isteps s s' -> stuck s -> stuck s' /\ i_pc s' = i_pc s /\ i_log s' = i_log s.
  Proof.
    induction 1; intros Hs; [auto|]. destruct (stuck_step _ _ Hs H) as [A [B C]].
    destruct (IHisteps A) as [D [F G]]. split; [assumption|]. split; congruence.
  Qed.
End Proofs.

Lemma slice_entries_map : forall F (vs : list (gval F)) i,
  map e_val (slice_entries i vs) = vs /\
  forall n e, nth_error (slice_entries i vs) n = Some e -> e_index e = (i + Z.of_nat n)%Z /\ e_key e = [].
Proof.
  induction vs as [|v vs IH]; intros i; simpl.
  - split; [reflexivity|]. intros n e H. rewrite nth_error_nil' in H. discriminate.
  - destruct (IH (i + 1)%Z) as [A B]. split; [congruence|].
    intros [|n] e H; simpl in H.
    + injection H as <-. simpl. split; [lia|reflexivity].
    + destruct (B n e H) as [C D]. split; [lia|assumption].
Qed.
