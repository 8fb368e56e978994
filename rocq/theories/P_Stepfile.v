(** C47: step files. *)
From Verif Require Import Base M_Strings M_Stepfile S_Stepfile L_Stepfile.

(** Writing then reading returns the same scripts iff they are separable (in particular the list is not empty).
    [script_text] gives the text of a string, []byte or readable script. *)
Theorem stepfile_write_read_iff : forall steps xs, map script_text steps = map Some xs ->
  exists out, step_write steps (mkSink [] []) = (None, mkSink out []) /\
              out = joined separator xs /\
              (step_read out = map ScString xs <-> separable separator xs).
Proof.
  change separator with step_sep.
  intros steps xs H. exists (joined step_sep xs). split; [exact (step_write_ok steps xs [] H)|]. split; [reflexivity|].
  rewrite <- (split_joined_iff step_sep xs) by discriminate. unfold step_read. split.
  - revert xs H. intros xs _. generalize (split step_sep (joined step_sep xs)). intros l.
    revert xs. induction l as [|a l IH]; intros [|b xs] E; try discriminate; [reflexivity|].
    simpl in E. injection E as -> E. f_equal. apply IH; assumption.
  - intros ->. reflexivity.
Qed.
Print Assumptions stepfile_write_read_iff.

Example stepfile_separable_ex :
  separable separator [bs "load()"; bs "a --- b"; []] /\
  ~ separable separator [bs "x" ++ [10; 45; 45; 45]%N; bs "y"] /\ ~ separable separator [].
Proof.
  split; [|split].
  - rewrite <- split_joined_iff by discriminate. vm_compute. reflexivity.
  - rewrite <- split_joined_iff by discriminate. vm_compute. discriminate.
  - intro H. exact H.
Qed.

(** Reading any file and writing the steps back reproduces the file. *)
Theorem stepfile_read_write : forall data,
  step_write (step_read data) (mkSink [] []) = (None, mkSink data []).
Proof.
  intro data. rewrite (step_write_ok (step_read data) (split step_sep data) []).
  - simpl. rewrite joined_split by discriminate. reflexivity.
  - unfold step_read. rewrite map_map. reflexivity.
Qed.
Print Assumptions stepfile_read_write.

Example stepfile_read_write_ex : step_read (bs "a" ++ step_sep ++ bs "b") = [ScString (bs "a"); ScString (bs "b")].
Proof. vm_compute. reflexivity. Qed.

(** Reading always gives at least one step, so writing the empty list of steps is not inverted. *)
Theorem stepfile_empty_list_refuted :
  step_write [] (mkSink [] []) = (None, mkSink [] []) /\ step_read [] = [ScString []].
Proof. split; reflexivity. Qed.
Print Assumptions stepfile_empty_list_refuted.

(** A failing sink is not always reported: a lost separator glues two scripts together and Write returns nil. *)
Theorem stepfile_reports_write_errors_refuted : exists steps fails out,
  step_write steps (mkSink [] fails) = (None, mkSink out []) /\ In true fails /\
  step_read out <> steps.
Proof.
  exists [ScString (bs "a"); ScString (bs "b")], [false; true; false], (bs "ab").
  split; [vm_compute; reflexivity|]. split; [right; left; reflexivity|vm_compute; discriminate].
Qed.
Print Assumptions stepfile_reports_write_errors_refuted.

(** Scripts of any other kind are rejected, as are readers that fail. *)
Theorem stepfile_bad_script_rejected : forall pre s post out xs, map script_text pre = map Some xs ->
  script_text s = None -> exists e w, step_write (pre ++ s :: post) (mkSink out []) = (Some e, w).
Proof.
  induction pre as [|p pre IH]; intros s post out xs H Hs.
  - destruct s as [d [e|]|v|v|]; try discriminate; cbn [app step_write].
    + destruct d; simpl; eauto.
    + simpl. eauto.
  - destruct xs as [|x xs]; [discriminate|]. simpl in H. injection H as H1 H2.
    cbn [app step_write]. rewrite (write_script_ok p x out H1).
    destruct (pre ++ s :: post) as [|q l] eqn:E; [destruct pre; discriminate|].
    rewrite <- E. unfold sink_write; simpl. eapply IH; eauto.
Qed.
Print Assumptions stepfile_bad_script_rejected.

Example stepfile_bad_script_ex :
  script_text ScOther = None /\ fst (step_write [ScString (bs "a"); ScOther] (mkSink [] [])) <> None.
Proof. split; [reflexivity|vm_compute; discriminate]. Qed.
