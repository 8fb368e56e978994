(** Property C54: the columns a schema describes. *)
From Coq Require Import ZArith Lia Permutation.
From Verif Require Import Base M_Decimal L_Decimal M_Formats M_Tabular S_Tabular L_Tabular.

Section Tabular.
  Context {F : Type}.
  Notation gval := (gval F).
  Notation gmap := (list (bytes * gval)).

  (** A schema that describes a table with these items. *)
  Definition table_schema (sch : gmap) (items : list gval) : Prop :=
    member sch "type" (VStr (bs "array")) /\ exists m, member sch "items" (VMap m) /\ member m "items" (VArr items).
  (** C54: one column for each item, as the rules say, however the map of an item is iterated over. *)
  Theorem columns_exact : forall (order : gmap -> gmap) sch items, (forall m, Permutation (order m) m) ->
    table_schema sch items -> (forall m, In (VMap m) items -> sorted m) ->
    exists cols ps, columns_from_schema order sch = Ok (cols, ps) /\ columns_rule 0 items cols ps /\
      forall cols2 ps2, columns_rule 0 items cols2 ps2 -> cols2 = cols /\ ps2 = ps.
  Proof.
    intros order sch items Ho [H1 [m [H2 H3]]] Hs. unfold member in *.
    pose proof (make_cols_rule order Ho items 0 Hs) as HR. exists (fst (make_cols order 0 items)), (snd (make_cols order 0 items)).
    split.
    - unfold columns_from_schema, opt_get. rewrite H1. change (beqb (bs "array") (bs "array")) with true. cbn iota.
      unfold array_columns, opt_get. rewrite H2, H3. destruct (make_cols order 0 items); reflexivity.
    - split; [assumption|]. intros cols2 ps2 H. exact (columns_rule_fun _ _ _ _ _ _ H HR).
  Qed.
  (** Any other schema is an error. *)
  Theorem columns_error : forall (order : gmap -> gmap) sch, (forall items, ~ table_schema sch items) ->
    exists e, columns_from_schema order sch = Err e.
  Proof.
    intros order sch H. unfold columns_from_schema. destruct (opt_get (bs "type") sch) as [| | | |t| | |] eqn:E; try (eexists; reflexivity).
    destruct (beqb_spec t (bs "array")) as [->|]; [|destruct (beqb t (bs "object")); eexists; reflexivity].
    unfold array_columns. destruct (opt_get (bs "items") sch) as [| | | | | | |m] eqn:E1; try (eexists; reflexivity).
    destruct (opt_get (bs "items") m) as [| | | | | |l|] eqn:E2; try (eexists; reflexivity).
    exfalso. assert (G : forall (k : string) (x : gmap) v, v <> VNil -> opt_get (bs k) x = v -> member x k v).
    { intros k x v Hv Ev. unfold opt_get in Ev. unfold member. destruct (map_get (bs k) x); congruence. }
    apply (H l). split; [apply G; [discriminate|assumption]|]. exists m. split; apply G; auto; discriminate.
  Qed.
  (** There is one column per item, and its place gives the default title. *)
  Theorem columns_count : forall items (cols : list (column (F:=F))) ps, columns_rule 0 items cols ps ->
    length cols = length items /\
    forall i f, nth_error items i = Some f -> exists c ps', nth_error cols i = Some c /\ column_rule i f c ps' /\ incl ps' ps.
  Proof.
    assert (X : forall items (cols : list (column (F:=F))) ps n, columns_rule n items cols ps -> length cols = length items /\
      forall i f, nth_error items i = Some f -> exists c ps', nth_error cols i = Some c /\ column_rule (n + i) f c ps' /\ incl ps' ps).
    { intros items cols ps n H. induction H as [i|i f fs c cs ps qs H1 H2 [IH1 IH2]]; [split; [reflexivity|intros [|i0] f0 E0; discriminate]|].
      split; [cbn [length]; congruence|]. intros [|k] g E.
      - injection E as <-. exists c, ps. rewrite Nat.add_0_r. split; [reflexivity|]. split; [assumption|apply incl_appl, incl_refl].
      - destruct (IH2 k g E) as [c' [ps' [A [B C]]]]. exists c', ps'. split; [assumption|].
        replace (i + S k)%nat with (S i + k)%nat by lia. split; [assumption|apply incl_appr; assumption]. }
    intros items cols ps H. exact (X _ _ _ _ H).
  Qed.

  (** Titles are accepted exactly if all are identifiers and no two are equal; the problems name the columns. *)
  Theorem machine_titles_iff : forall cols : list (column (F:=F)),
    valid_machine_titles cols = [] <-> Forall identifier (titles cols) /\ NoDup (titles cols).
  Proof.
    intros cols. unfold valid_machine_titles. set (ts := titles cols). split.
    - intros E. split.
      + apply Forall_forall. intros t Ht. destruct (machine_title t) eqn:Em; [apply machine_title_iff; assumption|]. exfalso.
        apply In_nth_error in Ht. destruct Ht as [j Hj].
        assert (X : In (BadName (0 + j)) (title_problems 0 [] ts)).
        { apply title_problems_spec. left. exists j, t. split; [assumption|]. split; [reflexivity|]. intros X. apply machine_title_iff in X. congruence. }
        rewrite E in X. destruct X.
      + apply NoDup_nth_error. intros j k Hj Ejk.
        destruct (Nat.eq_dec j k) as [|Hn]; [assumption|]. exfalso.
        assert (Y : forall a b t, (a < b)%nat -> nth_error ts a = Some t -> nth_error ts b = Some t -> False).
        { intros a b t Hab Ea Eb. assert (X : In (NotUnique (0 + b)) (title_problems 0 [] ts)).
          { apply title_problems_spec. right. exists b, t. split; [assumption|]. split; [reflexivity|]. right. exists a. auto. }
          rewrite E in X. destruct X. }
        destruct (nth_error ts j) as [t|] eqn:Ej; [|apply nth_error_None in Ej; lia]. symmetry in Ejk.
        destruct (Nat.lt_ge_cases j k); [exact (Y j k t ltac:(assumption) Ej Ejk)|exact (Y k j t ltac:(lia) Ejk Ej)].
    - intros [H1 H2]. destruct (title_problems 0 [] ts) as [|p ps] eqn:E; [reflexivity|]. exfalso.
      assert (X : In p (title_problems 0 [] ts)) by (rewrite E; left; reflexivity).
      apply title_problems_spec in X. destruct X as [[j [t [E1 [_ X]]]]|[j [t [E1 [_ [[]|[k [Hk E2]]]]]]]].
      + apply X. rewrite Forall_forall in H1. apply H1. eapply nth_error_In. eassumption.
      + assert (k = j); [|lia]. eapply NoDup_nth_error; [exact H2| |congruence]. apply nth_error_Some. congruence.
  Qed.
  Theorem machine_titles_problems : forall (cols : list (column (F:=F))) p, In p (valid_machine_titles cols) <->
    (exists j t, nth_error (titles cols) j = Some t /\ p = BadName j /\ ~ identifier t) \/
    (exists j k t, (k < j)%nat /\ nth_error (titles cols) j = Some t /\ nth_error (titles cols) k = Some t /\ p = NotUnique j).
  Proof.
    intros cols p. unfold valid_machine_titles. rewrite title_problems_spec. cbn [Nat.add]. split.
    - intros [H|[j [t [E1 [-> [[]|[k [Hk E2]]]]]]]]; [left; assumption|]. right. exists j, k, t. auto.
    - intros [H|[j [k [t [Hk [E1 [E2 ->]]]]]]]; [left; assumption|]. right. exists j, t. split; [assumption|]. split; [reflexivity|]. right. exists k. auto.
  Qed.

  (** A type list with at least one type is encoded and decoded without loss; one without cannot be encoded. *)
  Theorem col_type_round_trip : forall ct : col_type,
    match @col_type_encode F ct with
    | Some v => ct <> [] /\ col_type_decode v = Some ct
    | None => ct = []
    end.
  Proof.
    intros [|t [|u r]]; cbn [col_type_encode]; [reflexivity|split; [discriminate|reflexivity]|]. split; [discriminate|].
    cbn [col_type_decode]. assert (X : forall l, all_strings (map (@VStr F) l) = Some l).
    { induction l as [|a l IH]; [reflexivity|]. cbn [map all_strings]. rewrite IH. reflexivity. }
    apply X.
  Qed.
  (** What decodes as a type list: a string, null, or an array of strings and nulls; null counts as "". *)
  Theorem col_type_decodes : forall (v : gval) ct, col_type_decode v = Some ct <->
    (exists t, v = VStr t /\ ct = [t]) \/ (v = VNil /\ ct = [[]]) \/
    (exists l, v = VArr l /\ Forall2 (fun x t => x = VStr t \/ x = VNil /\ t = []) l ct).
  Proof.
    assert (X : forall (l : list gval) ct, all_strings l = Some ct <-> Forall2 (fun x t => x = VStr t \/ x = VNil /\ t = []) l ct).
    { induction l as [|x l IH]; intros ct.
      - split; [intros E; injection E as <-; constructor|intros H; inversion H; reflexivity].
      - split.
        + intros E. destruct x; cbn [all_strings] in E; try discriminate; destruct (all_strings l) as [r|]; try discriminate; injection E as <-; (constructor; [auto|apply IH; reflexivity]).
        + intros H. inversion H as [|? t ? r [->|[-> ->]] H2]; subst; apply IH in H2; cbn [all_strings]; rewrite H2; reflexivity. }
    intros v ct. split.
    - destruct v; cbn [col_type_decode]; intros E; try discriminate; [right; left; injection E as <-; auto|left; injection E as <-; eauto|right; right; eexists; split; [reflexivity|apply X; assumption]].
    - intros [[t [-> ->]]|[[-> ->]|[l [-> H]]]]; [reflexivity|reflexivity|]. cbn [col_type_decode]. apply X. assumption.
  Qed.
  Theorem has_type_iff : forall ct t, has_type ct t = true <-> In t ct.
  Proof.
    induction ct as [|x ct IH]; intros t; cbn [has_type In]; [split; [discriminate|tauto]|].
    destruct (beqb_spec x t) as [->|Hx]; [tauto|]. rewrite IH. split; [auto|intros [->|]; [congruence|assumption]].
  Qed.
End Tabular.
Print Assumptions columns_exact.
Print Assumptions columns_error.
Print Assumptions columns_count.
Print Assumptions machine_titles_iff.
Print Assumptions machine_titles_problems.
Print Assumptions col_type_round_trip.
Print Assumptions col_type_decodes.
Print Assumptions has_type_iff.

(** A schema with three items, and its columns. *)
Definition ex_items : list (gval unit) :=
  [VMap [(bs "max", VInt 5); (bs "title", VStr (bs "rating")); (bs "type", VArr [VStr (bs "number"); VNil; VStr (bs "null")])];
   VBool false; VMap [(bs "type", VArr [])]].
Definition ex_schema : list (bytes * gval unit) := [(bs "items", VMap [(bs "items", VArr ex_items)]); (bs "type", VStr (bs "array"))].
Example columns_exact_ex : table_schema ex_schema ex_items /\ (forall m, In (VMap m) ex_items -> sorted m) /\
  columns_from_schema (@rev _) ex_schema =
    Ok ([mkCol (bs "rating") [bs "number"; bs "null"] [] [(bs "max", VInt 5)]; mkCol (bs "col_1") [bs "string"] [] []; mkCol (bs "col_2") [] [] []],
        [NotAnObject 1; NoTitle 2]).
Proof.
  split; [split; [reflexivity|eexists; split; reflexivity]|]. split; [|vm_compute; reflexivity].
  intros m [E|[E|[E|[]]]]; try discriminate; injection E as <-; repeat split; vm_compute; reflexivity.
Qed.
Example columns_error_ex : forall items, ~ table_schema (F:=unit) [(bs "type", VStr (bs "array"))] items.
Proof. intros items [_ [m [H _]]]. discriminate. Qed.
Example machine_titles_ex : valid_machine_titles (F:=unit) [mkCol (bs "a") [] [] []; mkCol (bs "?") [] [] []; mkCol (bs "a") [] [] []] = [BadName 1; NotUnique 2].
Proof. vm_compute. reflexivity. Qed.
