(** C30, C31: IdentityReader under every schedule. *)
From Coq Require Import Permutation.
From Verif Require Import Base M_Identity L_Identity.

(** The entries a consumer got from ReadEntry, in order. *)
Definition entries_received {E} (log : list (event E)) : list E :=
  flat_map (fun ev => match ev with EvEntry x => [x] | _ => [] end) log.
(** The entries that left the channel, received or drained by Close. *)
Definition handed_over {E} (log : list (event E)) : list E :=
  flat_map (fun ev => match ev with EvEntry x => [x] | EvDrained x => [x] | _ => [] end) log.
(** No call to Close has consumed anything. *)
Definition nothing_drained {E} (log : list (event E)) : Prop := forall x, ~ In (EvDrained x) log.

(** C30: at any point of any execution the received entries are a prefix of the data, and once ReadEntry
    has returned EOF they are all of it. *)
Theorem identity_reader_safe : forall E (data : list E) s, isteps (iinit data) s -> nothing_drained (i_log s) ->
  (exists rest, entries_received (i_log s) ++ rest = data) /\
  (In EvEOF (i_log s) -> entries_received (i_log s) = data).
Proof.
  intros E data s H Hn. destruct (reach_inv data s H) as [H1 [H2 H3]].
  assert (T : taken (i_log s) = entries_received (i_log s)).
  { clear - Hn. unfold taken, entries_received, nothing_drained in *. induction (i_log s) as [|ev l IH]; [reflexivity|].
    simpl. rewrite IH.
    - destruct ev; try reflexivity. exfalso. apply (Hn e). left; reflexivity.
    - intros x Hx. apply (Hn x). right; assumption. }
  rewrite T in H1. split; [eauto|]. intros He. rewrite H2, app_nil_r in H1; auto.
Qed.
Print Assumptions identity_reader_safe.

Example identity_reader_safe_ex : exists s : istate Z,
  isteps (iinit [1; 2]%Z) s /\ nothing_drained (i_log s) /\ In EvEOF (i_log s).
Proof.
  eexists. split; [|split].
  - eapply is_step; [apply st_read_wait|]. eapply is_step; [apply st_read_recv|].
    eapply is_step; [apply st_read_wait|]. eapply is_step; [apply st_read_recv|].
    eapply is_step; [apply st_done|]. eapply is_step; [apply st_read_eof|]. apply is_refl.
  - intros x Hx. simpl in Hx. intuition discriminate.
  - simpl. auto.
Qed.

(** Close included: everything sent was received or drained, in order, and neither EOF nor a returned Close can
    be observed before all of it. *)
Theorem identity_reader_nothing_lost : forall E (data : list E) s, isteps (iinit data) s ->
  exists rest,
    handed_over (i_log s) ++ rest = data /\
    (In EvEOF (i_log s) \/ In EvClosed (i_log s) -> rest = []).
Proof.
  intros E data s H. destruct (reach_inv data s H) as [H1 [H2 H3]]. exists (i_todo s). auto.
Qed.
Print Assumptions identity_reader_nothing_lost.

Example identity_reader_nothing_lost_ex : exists s : istate Z,
  isteps (iinit [1; 2]%Z) s /\ i_log s = [EvEntry 1%Z; EvDrained 2%Z; EvClosed].
Proof.
  eexists. split.
  - eapply is_step; [apply st_read_wait|]. eapply is_step; [apply st_read_recv|].
    eapply is_step; [apply st_close|]. eapply is_step; [apply st_close_wait|]. eapply is_step; [apply st_close_recv|].
    eapply is_step; [apply st_done|]. eapply is_step; [apply st_close_done|]. apply is_refl.
  - reflexivity.
Qed.

(** The goroutine sends the values of a slice in order with indexes 0, 1, 2, ... *)
Theorem identity_slice_entries : forall F (vs : list (gval F)),
  map e_val (slice_entries 0 vs) = vs /\
  forall n e, nth_error (slice_entries 0 vs) n = Some e -> e_index e = Z.of_nat n /\ e_key e = [].
Proof. intros. exact (slice_entries_map F vs 0). Qed.
Print Assumptions identity_slice_entries.
(** A map gives one entry for each binding, with its key, in whatever order it is gone through. *)
Theorem identity_map_entries : forall F (m order : list (bytes * gval F)), Permutation order m ->
  Permutation (map (fun e => (e_key e, e_val e)) (map_entries order)) m /\
  length (map_entries order) = length m /\ Forall (fun e => e_index e = 0%Z) (map_entries order).
Proof.
  intros F m order H. unfold map_entries. rewrite map_map. cbn. rewrite map_length. split; [|split].
  - rewrite (map_ext _ (fun kv => kv)) by (now intros []). now rewrite map_id.
  - now apply Permutation_length.
  - apply Forall_forall. intros e He. apply in_map_iff in He. destruct He as [kv [<- _]]. reflexivity.
Qed.
Print Assumptions identity_map_entries.
Example identity_map_entries_ex : map_entries [(bs "b", VInt 1); (bs "a", VNil)] = [mkEntry 0 (bs "b") (VInt 1); @mkEntry N 0 (bs "a") VNil].
Proof. reflexivity. Qed.

(** C31: for every data there is an execution in which the consumer has received all entries and then waits in
    ReadEntry for ever: no continuation returns from that call. *)
Theorem identity_reader_terminates_refuted : forall E (data : list E), exists s,
  isteps (iinit data) s /\ entries_received (i_log s) = data /\ i_pc s = CReadWait /\
  forall s', isteps s s' -> i_pc s' = CReadWait /\ i_log s' = i_log s.
Proof.
  intros E data. exists (mkI [] false CReadWait (map EvEntry data)). split; [|split; [|split]].
  - eapply isteps_trans; [apply read_all_entries|]. eapply is_step; [apply st_read_wait|]. constructor.
  - simpl. unfold entries_received. induction data; simpl; congruence.
  - reflexivity.
  - intros s' Hs. destruct (stuck_forever _ _ Hs) as [_ [A B]]; [split; [reflexivity|left; reflexivity]|]. auto.
Qed.
Print Assumptions identity_reader_terminates_refuted.

(** The same for Close. *)
Theorem identity_close_terminates_refuted : forall E (data : list E), exists s,
  isteps (iinit data) s /\ entries_received (i_log s) = data /\ i_pc s = CCloseWait /\
  forall s', isteps s s' -> i_pc s' = CCloseWait /\ i_log s' = i_log s.
Proof.
  intros E data. exists (mkI [] false CCloseWait (map EvEntry data)). split; [|split; [|split]].
  - eapply isteps_trans; [apply read_all_entries|]. eapply is_step; [apply st_close|].
    eapply is_step; [apply st_close_wait|]. constructor.
  - simpl. unfold entries_received. induction data; simpl; congruence.
  - reflexivity.
  - intros s' Hs. destruct (stuck_forever _ _ Hs) as [_ [A B]]; [split; [reflexivity|right; reflexivity]|]. auto.
Qed.
Print Assumptions identity_close_terminates_refuted.

(** There is also an execution that ends properly: all entries, then EOF. *)
Theorem identity_reader_can_finish : forall E (data : list E), exists s,
  isteps (iinit data) s /\ i_log s = map EvEntry data ++ [EvEOF].
Proof.
  intros E data. exists (mkI [] true CIdle (map EvEntry data ++ [EvEOF])). split; [|reflexivity].
  eapply isteps_trans; [apply read_all_entries|]. eapply is_step; [apply st_done|].
  eapply is_step; [apply st_read_eof|]. constructor.
Qed.
Print Assumptions identity_reader_can_finish.

(** A consumer can only be blocked for ever after the last entry: in every reachable state in which something
    is still to be delivered a step of the waiting consumer is possible. *)
Theorem identity_reader_no_early_deadlock : forall E (data : list E) s, isteps (iinit data) s ->
  (length (handed_over (i_log s)) < length data)%nat ->
  exists s', istep s s' /\ i_pc s' <> i_pc s.
Proof.
  intros E data s H Hl. destruct (reach_inv data s H) as [H1 [H2 H3]].
  change (handed_over (i_log s)) with (taken (i_log s)) in Hl.
  rewrite <- H1, app_length in Hl.
  destruct s as [todo d pc log]; simpl in *. destruct todo as [|y todo]; [simpl in *; lia|].
  assert (d = false) by (destruct d; [discriminate (H2 eq_refl)|reflexivity]). subst d.
  destruct pc.
  - eexists. split; [apply st_read_wait|]. discriminate.
  - eexists. split; [apply st_read_recv|]. discriminate.
  - eexists. split; [apply st_close_wait|]. discriminate.
  - eexists. split; [apply st_close_recv|]. discriminate.
Qed.
Print Assumptions identity_reader_no_early_deadlock.

Example identity_reader_no_early_deadlock_ex :
  let st := mkI [1; 2]%Z false CReadWait [] in
  isteps (iinit [1; 2]%Z) st /\ (length (handed_over (i_log st)) < length [1; 2])%nat.
Proof. split; [eapply is_step; [apply st_read_wait|apply is_refl]|simpl; lia]. Qed.
