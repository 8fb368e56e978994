(** C84: test cases are what their directories hold, and golden files. *)
From Coq Require Import ZArith Lia.
From Verif Require Import Base M_Utf8 S_Utf8 L_Utf8 M_Formats S_JsonText S_JsonBack S_NDJson L_JsonMarshal L_NDJson  M_Json M_JsonWrite M_Doc M_Components L_Components M_Encode S_Encode L_Encode P_Encode
  M_DocText S_DocText L_DocParse L_DocTime L_DocText P_DocText M_Heap M_Compare S_Compare P_Compare M_TestCase S_TestCase.

(** ** Indented texts *)
Local Opaque quote.
Lemma blank_line : forall n, blank (new_line n).
Proof. intros n. constructor; [tauto|]. induction (2 * n)%nat; cbn; constructor; auto. Qed.
Lemma indented_written : forall d m n, writable d -> (height d <= n)%nat -> exists r, spelled d r /\ dtext n r (indented m d).
Proof.
  induction d as [|b|z|l|s|t|b|l IH|o IH] using jdoc_ind2; intros m n W H; try (apply (text_written _ n W H)).
  - apply every_arr in W. destruct W as [_ W]. destruct (height_arr _ _ H) as [k [-> Hk]]. clear H.
    assert (X : exists l', Forall2 spelled l l' /\ Forall2 (fun r d => dtext k r (indented (S m) d)) l' l).
    { induction l as [|x l IHl]; [exists []; split; constructor|]. inversion IH; subst. inversion W; subst. inversion Hk; subst.
      destruct IHl as [l' [A B]]; auto. destruct (H1 (S m) k) as [r [R1 R2]]; auto. exists (r :: l'). split; constructor; auto. }
    destruct X as [l' [A B]]. exists (JArr l'). split; [now constructor|]. clear - B.
    destruct B as [|r d l' l R B]; [apply (dt_arr0 k []); constructor|]. cbn [indented].
    assert (Y : dtail k l' (flat_map (fun y => 44%N :: new_line (S m) ++ indented (S m) y) l ++ new_line m)).
    { induction B as [|r' d' l' l R' B IHB]; [constructor; apply blank_line|]. cbn [flat_map]. rewrite <- app_assoc. cbn [app]. rewrite <- app_assoc.
      apply (dl_cons k r' l' [] (new_line (S m))); auto using blank_nil, blank_line. }
    rewrite (app_assoc (flat_map _ l)). apply (dt_arr k r l' (new_line (S m))); auto using blank_line.
  - apply every_obj in W. destruct W as [_ W]. destruct (height_obj _ _ H) as [k [-> Hk]]. clear H.
    assert (X : exists o', Forall2 (fun kv kv' => cleaned (fst kv) (fst kv') /\ spelled (snd kv) (snd kv')) o o' /\
                           Forall2 (fun kv' kv => dpair k kv' (quote (fst kv) ++ bs ": " ++ indented (S m) (snd kv))) o' o).
    { induction o as [|[q x] o IHl]; [exists []; split; constructor|]. inversion IH; subst. inversion W; subst. inversion Hk; subst. cbn [fst snd] in *.
      destruct IHl as [l' [A B]]; auto. destruct (H1 (S m) k) as [r [R1 R2]]; [tauto|assumption|]. destruct (cleaned_total q) as [q' C].
      exists ((q', r) :: l'). split; constructor; auto. cbn [fst snd]. destruct (quote_schars q q' C) as [t [-> T]].
      cbn [app]. rewrite <- app_assoc. apply (dpr_intro k q' t r (indented (S m) x) [] [32%N]); auto using blank_nil. constructor; [tauto|constructor]. }
    destruct X as [o' [A B]]. exists (JObj o'). split; [now constructor|]. clear - B.
    destruct B as [|r d l' l R B]; [apply (dt_obj0 k []); constructor|]. cbn [indented].
    assert (Y : dptail k l' (flat_map (fun kv => 44%N :: new_line (S m) ++ (quote (fst kv) ++ bs ": " ++ indented (S m) (snd kv))) l ++ new_line m)).
    { induction B as [|r' d' l' l R' B IHB]; [constructor; apply blank_line|]. cbn [flat_map]. rewrite <- app_assoc. cbn [app]. rewrite <- (app_assoc (new_line (S m))).
      apply (dpl_cons k r' l' [] (new_line (S m))); auto using blank_nil, blank_line. }
    rewrite (app_assoc (flat_map _ l)). apply (dt_obj k r l' (new_line (S m))); auto using blank_line.
Qed.
(** A golden file is a text of the dataset it was written for. *)
Theorem indented_is_text : forall depth d, writable d -> (height d <= depth)%nat -> text_of depth d (indented 0 d).
Proof.
  intros depth d W H. destruct (indented_written d 0 depth W H) as [r [R T]]. exists r. split; [assumption|]. exists [], (indented 0 d), [].
  rewrite app_nil_r. auto using blank_nil.
Qed.
Print Assumptions indented_is_text.

(** ** Directories *)
Lemma tried : body_names = tried_bodies.
Proof. reflexivity. Qed.
Definition swap (o : option (bytes * bytes)) : option (bytes * bytes) := match o with Some (b, n) => Some (n, b) | None => None end.
Lemma read_first_found : forall d names o, found d names (swap o) <-> match o with Some bn => read_first d names = inl bn | None => read_first d names = inr NotExist end.
Proof.
  intros d names o. split.
  - intros H. destruct o as [[b n]|]; cbn [swap] in H.
    + inversion H as [|pre n' post b' E F P]; subst. clear H. induction F as [|x pre Px F IH]; cbn [app read_first]; [now rewrite P|].
      destruct Px as [->|[e ->]]; cbn [open_read]; exact IH.
    + inversion H as [F|]; subst. clear H. induction F as [|x l Px F IH]; [reflexivity|]. cbn [read_first]. destruct Px as [->|[e ->]]; exact IH.
  - revert o. induction names as [|x names IH]; intros o H; cbn [read_first] in H.
    + destruct o as [bn|]; [discriminate|]. apply fo_none. constructor.
    + destruct (d x) as [|e|b e|b] eqn:Ex; cbn [open_read] in H.
      1, 2: (assert (PO : passed_over (d x)) by (rewrite Ex; unfold passed_over; eauto); specialize (IH o H);
             inversion IH as [F EO|pre n post b' E F P EO]; [destruct o as [[? ?]|]; [discriminate|]; apply fo_none; constructor; assumption|];
             destruct o as [[b0 n0]|]; [|discriminate]; cbn [swap] in EO; injection EO as -> ->; cbn [swap]; subst names; apply (fo_some d _ (x :: pre) n0 post b0); [reflexivity|constructor; assumption|assumption]).
      * destruct o; discriminate.
      * destruct o as [[b0 n0]|]; [|discriminate]. injection H as <- <-. cbn [swap]. apply (fo_some d _ [] x names b); auto.
Qed.
Lemma swap_swap : forall o, swap (swap o) = o.
Proof. intros [[a b]|]; reflexivity. Qed.
Lemma optional_found : forall d names msg o, optional msg (read_first d names) = Ok o <-> found d names (swap o).
Proof.
  intros d names msg o. rewrite read_first_found. unfold optional. destruct (read_first d names) as [a|[|e]]; destruct o; split; intros H; try discriminate; congruence.
Qed.
Section Load.
  Variable decode : bytes -> res dataset.
  Lemma optional_dataset : forall d name msg o, optional msg (M_TestCase.read_dataset decode d name) = Ok o <-> dataset_at decode d name o.
  Proof.
    intros d name msg o. unfold optional, M_TestCase.read_dataset, dataset_at. destruct (d name) as [|e|b e|b]; cbn [read_file].
    - split; [intros H; injection H as <-; auto|intros [[_ ->]|(b & ds & H & _)]; [reflexivity|discriminate]].
    - split; [discriminate|intros [[H _]|(b & ds & H & _)]; discriminate].
    - split; [discriminate|intros [[H _]|(b' & ds & H & _)]; discriminate].
    - destruct (decode b) as [ds|e| |] eqn:E; split; intros H; try discriminate;
        try (destruct H as [[H _]|(b' & ds' & H & H2 & H3)]; [discriminate|injection H as <-; congruence]).
      injection H as <-. right. eauto.
  Qed.
  Notation load := (new_test_case decode).
  Lemma optional_total : forall A msg (r : A + fault), (exists o, optional msg r = Ok o) \/ exists e, optional msg r = Err e.
  Proof. intros A msg [a|[|e]]; cbn; eauto. Qed.
  Definition of_parts (p : parts) : bool := is_nil (p_input p) && is_nil (swap (p_body p)) && is_nil (swap (p_transform p)) && is_nil (swap (p_viz p)) && is_nil (swap (p_readme p)) && is_nil (p_expect p).
  Lemma of_parts_some : forall p, of_parts p = false <-> some_part p.
  Proof.
    intros [i b t v r e]. unfold of_parts, some_part. cbn [p_input p_body p_transform p_viz p_readme p_expect].
    destruct i; [split; [left; discriminate|reflexivity]|]. destruct b as [[? ?]|]; [split; [right; left; discriminate|reflexivity]|]. destruct t as [[? ?]|]; [split; [do 2 right; left; discriminate|reflexivity]|].
    destruct v as [[? ?]|]; [split; [do 3 right; left; discriminate|reflexivity]|]. destruct r as [[? ?]|]; [split; [do 4 right; left; discriminate|reflexivity]|].
    destruct e; [split; [do 5 right; discriminate|reflexivity]|]. split; [discriminate|]. intros H. decompose [or] H; congruence.
  Qed.
  (** A directory is a test case if it holds something, and everything it holds can be read.  There is always an answer. *)
  Theorem test_case_loads : forall dir d, ((exists tc, load dir d = Ok tc) <-> exists p, holds_parts decode d p /\ some_part p) /\
    ((exists tc, load dir d = Ok tc) \/ exists e, load dir d = Err e).
  Proof.
    intros dir d. split; [split|].
    - intros [tc H]. unfold new_test_case in H.
      destruct (optional _ (M_TestCase.read_dataset decode d (bs "input.dataset.json"))) as [i| | |] eqn:E1; try discriminate. cbn [rbind] in H.
      unfold read_body_data in H. destruct (optional _ (read_first d body_names)) as [b| | |] eqn:E2; try discriminate. cbn [rbind] in H.
      destruct (optional _ (read_first d [bs "transform.star"])) as [t| | |] eqn:E3; try discriminate. cbn [rbind] in H.
      destruct (optional _ (read_first d [bs "template.html"])) as [v| | |] eqn:E4; try discriminate. cbn [rbind] in H.
      destruct (optional _ (read_first d [bs "readme.md"])) as [r| | |] eqn:E5; try discriminate. cbn [rbind] in H.
      destruct (optional _ (M_TestCase.read_dataset decode d (bs "expect.dataset.json"))) as [x| | |] eqn:E6; try discriminate. cbn [rbind] in H.
      exists (mkParts i (swap b) (swap t) (swap v) (swap r) x). split.
      + repeat split; cbn [p_input p_body p_transform p_viz p_readme p_expect]; try (eapply optional_dataset; eassumption); try (eapply optional_found; eassumption).
      + apply of_parts_some. unfold of_parts. cbn [p_input p_body p_transform p_viz p_readme p_expect]. rewrite !swap_swap. destruct (is_nil i && is_nil b && is_nil t && is_nil v && is_nil r && is_nil x); [discriminate|reflexivity].
    - intros ([i b t v r x] & (H1 & H2 & H3 & H4 & H5 & H6) & HS). cbn [p_input p_body p_transform p_viz p_readme p_expect] in *. unfold new_test_case.
      rewrite (proj2 (optional_dataset _ _ _ _) H1). cbn [rbind]. unfold read_body_data. rewrite tried.
      rewrite <- (swap_swap b) in H2. rewrite <- (swap_swap t) in H3. rewrite <- (swap_swap v) in H4. rewrite <- (swap_swap r) in H5.
      rewrite (proj2 (optional_found _ _ _ _) H2), (proj2 (optional_found _ _ _ _) H3), (proj2 (optional_found _ _ _ _) H4), (proj2 (optional_found _ _ _ _) H5), (proj2 (optional_dataset _ _ _ _) H6). cbn [rbind].
      apply of_parts_some in HS. unfold of_parts in HS. cbn [p_input p_body p_transform p_viz p_readme p_expect] in HS. rewrite HS. eauto.
    - unfold new_test_case.
      repeat (match goal with |- context[optional ?m ?r] => destruct (optional_total _ m r) as [[? ->]|[? ->]] end; cbn [rbind]; [|right; eauto]).
      match goal with |- context[if ?b then _ else _] => destruct b end; eauto.
  Qed.
  Lemma base_last : forall n dir, last_element n dir -> plain_name n -> base dir = n.
  Proof.
    assert (SL : forall sl r, Forall (fun c => c = 47%N) sl -> drop_slashes (sl ++ r) = drop_slashes r) by (intros sl r H; induction H as [|c l -> H IH]; [reflexivity|exact IH]).
    assert (NS : forall r acc tl, ~ In 47%N r -> until_slash (r ++ 47%N :: tl) acc = rev r ++ acc /\ until_slash r acc = rev r ++ acc).
    { induction r as [|c r IH]; intros acc tl NI; [split; reflexivity|]. cbn [app until_slash]. destruct (N.eqb_spec c 47) as [->|NE]; [destruct NI; left; reflexivity|].
      destruct (IH (c :: acc) tl) as [H1 H2]; [intros I2; apply NI; right; exact I2|]. cbn [rev]. rewrite <- app_assoc. cbn [app]. split; assumption. }
    assert (DN : forall c r tl, c <> 47%N -> drop_slashes ((c :: r) ++ tl) = (c :: r) ++ tl) by (intros c r tl NE; cbn [app drop_slashes]; destruct (N.eqb_spec c 47); congruence).
    intros n dir H [N0 NI].
    assert (NR : ~ In 47%N (rev n)) by (intros I2; apply NI; apply in_rev; exact I2).
    assert (R0 : rev n <> []) by (intros E; apply N0; rewrite <- (rev_involutive n), E; reflexivity).
    destruct H as [sl F|dir sl F].
    - assert (FR : Forall (fun c => c = 47%N) (rev sl)) by (apply Forall_rev; exact F).
      unfold base. destruct (n ++ sl) eqn:E0; [destruct n; [congruence|discriminate]|]. rewrite <- E0, rev_app_distr, SL by exact FR.
      destruct (rev n) as [|c r] eqn:ER; [congruence|]. assert (NE : c <> 47%N) by (intros ->; apply NR; left; reflexivity).
      pose proof (DN c r [] NE) as D. rewrite app_nil_r in D. rewrite D. rewrite (proj2 (NS (c :: r) [] [] NR)), app_nil_r, <- ER. apply rev_involutive.
    - assert (FR : Forall (fun c => c = 47%N) (rev sl)) by (apply Forall_rev; exact F).
      unfold base. destruct (dir ++ 47%N :: n ++ sl) eqn:E0; [destruct dir; discriminate|]. rewrite <- E0, rev_app_distr. cbn [rev]. rewrite rev_app_distr, <- !app_assoc, SL by exact FR. cbn [app].
      destruct (rev n) as [|c r] eqn:ER; [congruence|]. assert (NE : c <> 47%N) by (intros ->; apply NR; left; reflexivity).
      rewrite DN by exact NE. cbn [app]. pose proof (proj1 (NS (c :: r) [] (rev dir) NR)) as U. cbn [app] in U. rewrite U, app_nil_r, <- ER. apply rev_involutive.
  Qed.
  (** The test case is made of what the directory holds. *)
  Theorem test_case_loaded : forall dir d tc, load dir d = Ok tc ->
    (exists p, holds_parts decode d p /\ some_part p /\ case_of dir p tc) /\ forall n, last_element n dir -> plain_name n -> tc_name tc = n.
  Proof.
    intros dir d tc H. unfold new_test_case in H.
    destruct (optional _ (M_TestCase.read_dataset decode d (bs "input.dataset.json"))) as [i| | |] eqn:E1; try discriminate. cbn [rbind] in H.
    unfold read_body_data in H. destruct (optional _ (read_first d body_names)) as [b| | |] eqn:E2; try discriminate. cbn [rbind] in H.
    destruct (optional _ (read_first d [bs "transform.star"])) as [t| | |] eqn:E3; try discriminate. cbn [rbind] in H.
    destruct (optional _ (read_first d [bs "template.html"])) as [v| | |] eqn:E4; try discriminate. cbn [rbind] in H.
    destruct (optional _ (read_first d [bs "readme.md"])) as [r| | |] eqn:E5; try discriminate. cbn [rbind] in H.
    destruct (optional _ (M_TestCase.read_dataset decode d (bs "expect.dataset.json"))) as [x| | |] eqn:E6; try discriminate. cbn [rbind] in H.
    destruct (is_nil i && is_nil b && is_nil t && is_nil v && is_nil r && is_nil x) eqn:EN; [discriminate|]. apply ok_inj in H. subst tc.
    split; [|intros n HL HP; cbn [tc_name]; exact (base_last n dir HL HP)].
    exists (mkParts i (swap b) (swap t) (swap v) (swap r) x). split; [|split].
    - repeat split; cbn [p_input p_body p_transform p_viz p_readme p_expect]; try (eapply optional_dataset; eassumption); try (eapply optional_found; eassumption).
    - apply of_parts_some. unfold of_parts. cbn [p_input p_body p_transform p_viz p_readme p_expect]. rewrite !swap_swap. exact EN.
    - clear. generalize (base dir). intros nm.
      assert (X : or_new (dataset_ref []) i = match i with Some i => i | None => no_dataset end) by (destruct i; reflexivity).
      unfold case_of, equipped. cbn [p_input p_body p_transform p_viz p_readme p_expect tc_path tc_body_name tc_body tc_transform_name tc_transform tc_viz_name tc_viz tc_readme_name tc_readme tc_expect tc_input tc_name].
      rewrite X. generalize (match i with Some i => i | None => no_dataset end). clear. intros i.
      assert (SC : forall k c, same_script (sc_set_script (Some k) (or_new (sc_ref []) c)) (present_or (sc_ref []) c)) by (intros k c; unfold same_script, script_same; destruct c as [c|]; cbn; repeat split; reflexivity).
      assert (TC : forall k c, transform_same (tf_set_script (Some k) (or_new (transform_ref []) c)) (present_or (transform_ref []) c)) by (intros k c; unfold transform_same; destruct c as [c|]; cbn; repeat split; reflexivity).
      destruct b as [[bb bn]|]; destruct t as [[tb tn]|]; destruct v as [[vb vn]|]; destruct r as [[rb rn]|]; cbn [swap name_and_bytes];
        (split; [reflexivity|]); (split; [auto|]); (split; [auto|]); (split; [auto|]); (split; [auto|]); (split; [reflexivity|]); (split; [repeat split; reflexivity|]);
        repeat match goal with |- _ /\ _ => split end; try reflexivity;
        try (eexists; split; [reflexivity|]; split; [|first [apply SC|apply TC]]);
        (eexists; split; [reflexivity|]; cbn [tc_files app In]; split; [tauto|]; intros nb HI; decompose [or] HI; solve [congruence | contradiction]).
  Qed.
  Lemma found_unique : forall d names a b, found d names a -> found d names b -> a = b.
  Proof.
    intros d names a b HA HB. rewrite <- (swap_swap a) in HA. rewrite <- (swap_swap b) in HB. apply read_first_found in HA, HB.
    rewrite <- (swap_swap a), <- (swap_swap b). destruct (swap a), (swap b); congruence.
  Qed.
  Lemma dataset_at_unique : forall d name a b, dataset_at decode d name a -> dataset_at decode d name b -> a = b.
  Proof. intros d name a b HA HB. apply (proj2 (optional_dataset d name "" a)) in HA. apply (proj2 (optional_dataset d name "" b)) in HB. congruence. Qed.
  (** A directory holds one thing, so that it determines the case. *)
  Theorem test_case_determined : forall d p q, holds_parts decode d p -> holds_parts decode d q -> p = q.
  Proof.
    intros d [i b t v r e] [i' b' t' v' r' e'] (H1 & H2 & H3 & H4 & H5 & H6) (G1 & G2 & G3 & G4 & G5 & G6). cbn [p_input p_body p_transform p_viz p_readme p_expect] in *.
    rewrite (dataset_at_unique _ _ _ _ H1 G1), (found_unique _ _ _ _ H2 G2), (found_unique _ _ _ _ H3 G3), (found_unique _ _ _ _ H4 G4), (found_unique _ _ _ _ H5 G5), (dataset_at_unique _ _ _ _ H6 G6). reflexivity.
  Qed.
  (** All the cases of a directory: those of its sub-directories that are test cases, under their names; others are left out. *)
  Theorem test_cases_loaded : forall dir entries, NoDup (map fst entries) -> forall n tc,
    map_get n (load_test_cases decode dir entries) = Some tc <-> exists d, In (n, Some d) entries /\ load (dir ++ bs "/" ++ n) d = Ok tc.
  Proof.
    intros dir entries ND n tc. unfold load_test_cases.
    assert (G : forall es acc, NoDup (map fst es) ->
      map_get n (fold_left (fun tcs e => match snd e with Some d => match load (dir ++ bs "/" ++ fst e) d with Ok tc => map_set (fst e) tc tcs | _ => tcs end | None => tcs end) es acc) = Some tc <->
      (exists d, In (n, Some d) es /\ load (dir ++ bs "/" ++ n) d = Ok tc) \/
      ((forall d, In (n, Some d) es -> forall tc, load (dir ++ bs "/" ++ n) d <> Ok tc) /\ map_get n acc = Some tc)).
    { clear. induction es as [|[m o] es IH]; intros acc ND; cbn [fold_left].
      - split; [intros H; right; split; [intros d []|exact H]|intros [(d & [] & _)|[_ H]]; exact H].
      - cbn [map fst] in ND. inversion ND as [|? ? NI ND']; subst. rewrite (IH _ ND'). clear IH. cbn [fst snd].
        assert (OUT : forall d, m = n -> In (n, Some d) es -> False) by (intros d -> HI; apply NI; exact (in_map fst _ _ HI)).
        destruct (list_eq_dec N.eq_dec m n) as [->|NE].
        + split.
          * intros [(d & HI & _)|[_ H]]; [destruct (OUT d eq_refl HI)|]. destruct o as [d|].
            -- destruct (load (dir ++ bs "/" ++ n) d) as [tc'| | |] eqn:E;
                 [rewrite map_get_set_eq in H; injection H as <-; left; exists d; split; [left; reflexivity|exact E]| | |];
                 (right; split; [|exact H]; intros d' [HI|HI] tc0; [injection HI as <-; rewrite E; discriminate|destruct (OUT d' eq_refl HI)]).
            -- right. split; [|exact H]. intros d' [HI|HI]; [discriminate|destruct (OUT d' eq_refl HI)].
          * intros [(d & [HI|HI] & H)|[HN H]].
            -- injection HI as ->. right. split; [intros d' HI; destruct (OUT d' eq_refl HI)|]. rewrite H. apply map_get_set_eq.
            -- destruct (OUT d eq_refl HI).
            -- right. split; [intros d' HI; destruct (OUT d' eq_refl HI)|]. destruct o as [d|]; [|exact H].
               pose proof (HN d (or_introl eq_refl)) as HD. destruct (load (dir ++ bs "/" ++ n) d) as [tc'| | |]; try exact H. destruct (HD tc' eq_refl).
        + assert (SAME : map_get n (match o with Some d => match load (dir ++ bs "/" ++ m) d with Ok tc => map_set m tc acc | _ => acc end | None => acc end) = map_get n acc).
          { destruct o as [d|]; [|reflexivity]. destruct (load (dir ++ bs "/" ++ m) d); try reflexivity. apply map_get_set_neq. congruence. }
          rewrite SAME. split.
          * intros [(d & HI & H)|[HN H]]; [left; exists d; split; [right; exact HI|exact H]|right; split; [|exact H]]. intros d [HI|HI]; [injection HI as ? ?; congruence|exact (HN d HI)].
          * intros [(d & [HI|HI] & H)|[HN H]]; [injection HI as ? ?; congruence|left; exists d; split; assumption|right; split; [|exact H]]. intros d HI. exact (HN d (or_intror HI)). }
    rewrite (G entries [] ND). split; [intros [H|[_ H]]; [exact H|discriminate]|intros H; left; exact H].
  Qed.
  Theorem test_cases_named : forall dir entries n tc, NoDup (map fst entries) -> plain_name n -> map_get n (load_test_cases decode dir entries) = Some tc -> tc_name tc = n /\ ds_name (tc_input tc) = n.
  Proof.
    intros dir entries n tc ND PN H. apply test_cases_loaded in H; [|exact ND]. destruct H as (d & _ & H). destruct (test_case_loaded _ _ _ H) as [(p & _ & _ & C) T].
    assert (E : tc_name tc = n).
    { apply T; [|exact PN]. pose proof (le_in n dir [] (Forall_nil _)) as L. rewrite app_nil_r in L. exact L. }
    split; [exact E|]. destruct C as (_ & _ & _ & _ & _ & _ & ((-> & _) & _)). exact E.
  Qed.

  (** ** Golden files *)
  Lemma same_exact : forall e g, same_datasets e g <-> lasting_same e g /\ transient_same e g.
  Proof.
    intros e g. unfold same_datasets. rewrite compare_datasets_exact by discriminate. cbn [option_map present_or].
    assert (DE : deref (two_datasets e g) 1 = e) by (destruct e as [a1 a2 a3 a4 [c|] a6 [m|] a8 a9 a10 a11 a12 [r|] a14 a15 [s|] [a|] [t|] [v|]]; reflexivity).
    assert (DG : deref (two_datasets e g) 2 = g) by (destruct g as [a1 a2 a3 a4 [c|] a6 [m|] a8 a9 a10 a11 a12 [r|] a14 a15 [s|] [a|] [t|] [v|]]; reflexivity).
    rewrite DE, DG. reflexivity.
  Qed.
  (** A golden test passes exactly if the file reads as a dataset that agrees in every exported field,
      down to those of the components, but the kind and the version count of the dataset. *)
  Theorem golden_exact : forall update got n, (exists n', golden_run decode update got n Passed n') <->
    exists b e, n = Plain b /\ decode b = Ok e /\ lasting_same e got /\ transient_same e got.
  Proof.
    intros update got n. split.
    - intros [n' H]. inversion H as [|e L SD| | |]; subst. apply same_exact in SD. unfold load_golden in L. destruct n' as [| | |b]; try discriminate. cbn in L. exists b, e. tauto.
    - intros (b & e & -> & D & LS & TS). exists (Plain b). apply gr_same with e; [exact D|]. apply same_exact. tauto.
  Qed.
  (** The file changes only if there is a mismatch and an update was asked for, and then to the text of the dataset found. *)
  Theorem golden_keeps : forall update got n v n', golden_run decode update got n v n' ->
    n' = n \/ (v = Mismatch /\ update = true /\ exists b, n' = Plain b /\ to_indented got = Ok b).
  Proof. intros update got n v n' H. destruct H; eauto 8. Qed.
  Theorem golden_deterministic : forall update got n v n' w m, golden_run decode update got n v n' -> golden_run decode update got n w m -> v = w /\ n' = m.
  Proof. intros update got n v n' w m H G. destruct H; destruct G; try congruence; try (split; congruence); exfalso; repeat match goal with A : load_golden _ _ = Ok ?x, B : load_golden _ _ = Ok ?y |- _ => rewrite A in B; apply ok_inj in B; subst end; contradiction. Qed.
End Load.
Print Assumptions test_case_loads.
Print Assumptions test_case_loaded.
Print Assumptions test_case_determined.
Print Assumptions test_cases_loaded.
Print Assumptions test_cases_named.
Print Assumptions golden_exact.
Print Assumptions golden_keeps.
Print Assumptions golden_deterministic.

(** The path of the body is that of the body that is read, unless a file cannot be opened. *)
Theorem body_path_agrees : forall d, (forall n e, In n tried_bodies -> d n <> Closed e) ->
  (forall n, body_filepath d = Some n -> (exists b, read_body_data d = inl (b, n)) \/ exists b e, d n = Unread b e /\ read_body_data d = inr (Fault e)) /\
  (body_filepath d = None <-> read_body_data d = inr NotExist).
Proof.
  intros d. unfold body_filepath, read_body_data. rewrite tried. generalize tried_bodies. induction l as [|x l IH]; intros NC; [split; [discriminate|split; reflexivity]|].
  cbn [find read_first]. specialize (IH (fun n e HI => NC n e (or_intror HI))). destruct (d x) as [|e|b e|b] eqn:Ex; cbn [stat_exists open_read].
  - exact IH.
  - destruct (NC x e (or_introl eq_refl) Ex).
  - split; [|split; discriminate]. intros n H. injection H as <-. eauto.
  - split; [|split; discriminate]. intros n H. injection H as <-. eauto.
Qed.
Print Assumptions body_path_agrees.
(** With a file that cannot be opened it names that one, while another is read. *)
Theorem body_path_agrees_refuted : exists d n b m, body_filepath d = Some n /\ read_body_data d = inl (b, m) /\ m <> n.
Proof.
  exists (fun n => if beqb n (bs "body.json") then Closed (EMsg "permission denied") else if beqb n (bs "body.csv") then Plain (bs "a,b") else Missing), (bs "body.json"), (bs "a,b"), (bs "body.csv").
  split; [reflexivity|]. split; [reflexivity|discriminate].
Qed.
Print Assumptions body_path_agrees_refuted.

(** ** What was written *)
Theorem case_input_saved : forall renum depth dir d ds doc t tc, d (bs "input.dataset.json") = Plain t -> dataset_wf ds -> dataset_encode ds = Ok doc ->
  legible doc -> Forall (dynamic renum) (dataset_dynamic ds) -> text_of depth doc t -> new_test_case (dataset_of_bytes renum depth) dir d = Ok tc ->
  exists p ds', dataset_comes_back ds ds' /\ p_input p = Some ds' /\ case_of dir p tc.
Proof.
  intros renum depth dir d ds doc t tc P W E L D T H. destruct (dataset_survives_text renum depth ds doc t W E L D T) as (ds' & R & C).
  destruct (test_case_loaded _ _ _ _ H) as [(p & HP & _ & CO) _]. exists p, ds'. split; [exact C|]. split; [|exact CO].
  destruct HP as [[[M _]|(b & x & M & R' & ->)] _]; [congruence|]. rewrite P in M. injection M as <-. rewrite R in R'. apply ok_inj in R'. congruence.
Qed.
Print Assumptions case_input_saved.

Lemma kind_or_back : forall k q, k <> [] -> (kind_or k q = q <-> q <> []).
Proof. intros k q HK. unfold kind_or. destruct q; cbn; split; intros H; congruence. Qed.
Lemma unless_back : forall A (o : option (list A)), some_unless_empty o = o <-> o <> Some [].
Proof. intros A [[|x l]|]; cbn; split; intros H; congruence. Qed.
Lemma both_opt : forall A (R T : A -> A -> Prop) (P : A -> Prop), (forall a b, R a b -> (T b a <-> P a)) -> forall a b, opt_rel R a b -> (both T b a <-> opt_all P a).
Proof. intros A R T P H [a|] [b|] HR; cbn in *; try tauto. exact (H a b HR). Qed.
Lemma commit_back : forall a b, commit_comes_back a b -> (commit_same b a /\ cm_path b = cm_path a <-> commit_settles a).
Proof.
  intros a b [(HP & HB & ->)|(NB & ->)]; unfold commit_settles, kind_fits, commit_same.
  - pose proof HB as HB'. unfold commit_blank in HB'. destruct a as [a1 a2 a3 a4 a5 a6 a7 a8]. cbn in *. injection HB' as -> -> -> -> -> ->. intuition congruence.
  - pose proof (kind_or_back (bs "cm:0") (cm_qri a)) as K. destruct a as [a1 a2 a3 a4 a5 a6 a7 a8]. cbn [commit_kept cm_author cm_message cm_path cm_qri cm_signature cm_timestamp cm_title cm_runid] in *.
    assert (K' : kind_or (bs "cm:0") a4 = a4 <-> a4 <> []) by (apply K; discriminate). intuition.
Qed.
Lemma stats_back : forall a b, stats_comes_back a b -> ((sa_path b = sa_path a /\ sa_qri b = sa_qri a /\ sa_stats b = sa_stats a) <-> stats_settles a).
Proof.
  intros a b [(HP & HB & ->)|(NB & ->)]; unfold stats_settles, kind_fits.
  - pose proof HB as HB'. unfold stats_blank in HB'. destruct a as [a1 a2 a3]. cbn in *. injection HB' as ->. intuition congruence.
  - pose proof (kind_or_back (bs "sa:0") (sa_qri a)) as K. destruct a as [a1 a2 a3]. cbn [stats_kept sa_path sa_qri sa_stats] in *.
    assert (K' : kind_or (bs "sa:0") a2 = a2 <-> a2 <> []) by (apply K; discriminate). intuition.
Qed.
Lemma script_back : forall k, k <> [] -> forall a b, comes_back sc_path sc_blank sc_ref (sc_kept k) a b -> (script_same b a <-> script_settles a).
Proof.
  intros k HK a b [(HP & HB & ->)|(NB & ->)]; unfold script_settles, script_same.
  - pose proof HB as HB'. unfold sc_blank in HB'. destruct a as [a1 a2 a3 a4 a5 a6 a7 a8]. cbn in *. injection HB' as -> -> -> ->. intuition congruence.
  - pose proof (kind_or_back k (sc_qri a) HK) as K. destruct a as [a1 a2 a3 a4 a5 a6 a7 a8]. cbn [sc_kept sc_format sc_path sc_qri sc_script_path sc_text sc_rendered_path] in *.
    intuition congruence.
Qed.
Lemma transform_back : forall a b, transform_comes_back a b -> (transform_same b a <-> transform_settles a).
Proof.
  intros a b [(HP & HB & ->)|(NB & ->)]; unfold transform_settles, kind_fits, transform_same.
  - pose proof HB as HB'. unfold transform_blank in HB'. destruct a as [a1 a2 a3 a4 a5 a6 a7 a8 a9 a10 a11 a12]. cbn in *. injection HB' as -> -> -> -> -> -> -> -> ->. intuition congruence.
  - pose proof (kind_or_back (bs "tf:0") (tf_qri a)) as K. assert (K' : kind_or (bs "tf:0") (tf_qri a) = tf_qri a <-> tf_qri a <> []) by (apply K; discriminate). clear K.
    pose proof (unless_back _ (tf_config a)) as U1. pose proof (unless_back _ (tf_resources a)) as U2. pose proof (unless_back _ (tf_steps a)) as U3. pose proof (unless_back _ (tf_syntaxes a)) as U4.
    destruct a as [a1 a2 a3 a4 a5 a6 a7 a8 a9 a10 a11 a12].
    cbn [transform_kept tf_config tf_path tf_qri tf_resources tf_script_path tf_text tf_secrets tf_steps tf_syntax tf_syntax_version tf_syntaxes] in *.
    rewrite U1, U2, U3, U4, K'. assert (SE : None = a8 <-> a8 = None) by (split; congruence). rewrite SE. tauto.
Qed.
Lemma structure_back : forall a b, structure_comes_back a b -> (structure_same b a /\ st_path b = st_path a <-> structure_settles a).
Proof.
  intros a b [(HP & HB & ->)|(NB & ->)]; unfold structure_settles, structure_same.
  - destruct a as [a1 a2 a3 a4 a5 a6 a7 a8 a9 a10 a11 a12 a13]. cbn in *. split.
    + intros H. decompose [and] H. subst. left. auto.
    + intros [[_ E]|[H _]]; [|tauto]. injection E as -> -> -> -> -> -> -> -> -> -> -> ->. repeat split; reflexivity.
  - pose proof (kind_or_back (bs "st:0") (st_qri a)) as K. assert (K' : kind_or (bs "st:0") (st_qri a) = st_qri a <-> st_qri a <> []) by (apply K; discriminate). clear K.
    pose proof (unless_back _ (st_format_config a)) as U1. pose proof (unless_back _ (st_schema a)) as U2.
    assert (NE : ~ (st_path a <> [] /\ a = structure_ref (st_path a))) by (intros [A B]; apply NB; split; [exact A|]; rewrite B; split; reflexivity).
    destruct a as [a1 a2 a3 a4 a5 a6 a7 a8 a9 a10 a11 a12 a13].
    cbn [structure_kept st_checksum st_compression st_depth st_encoding st_err_count st_entries st_format st_format_config st_length st_path st_qri st_schema st_strict] in *.
    rewrite U1, U2, K'. tauto.
Qed.
Lemma meta_back : forall a b, meta_comes_back a b -> (meta_same b a /\ md_path b = md_path a <-> meta_settles a).
Proof.
  intros a b [(HP & HB & ->)|(NB & ->)]; unfold meta_settles, meta_same.
  - pose proof HB as HB'. unfold meta_blank in HB'. destruct a as [a1 a2 a3 a4 a5 a6 a7 a8 a9 a10 a11 a12 a13 a14 a15 a16 a17 a18]. cbn in *.
    injection HB' as -> -> -> -> -> -> -> -> -> -> -> -> -> -> ->. split; [intros H; decompose [and] H; left; auto|].
    intros [(_ & _ & ->)|[H _]]; [repeat split; reflexivity|tauto].
  - destruct a as [a1 a2 a3 a4 a5 a6 a7 a8 a9 a10 a11 a12 a13 a14 a15 a16 a17 a18].
    cbn [meta_kept md_access_url md_accrual md_citations md_contributors md_description md_download_url md_home_url md_identifier md_keywords md_language md_license md_path md_qri md_readme_url md_title md_theme md_version] in *.
    assert (SE : bs "md:0" = a14 <-> a14 = bs "md:0") by (split; congruence). rewrite SE. tauto.
Qed.
Lemma comes_back_same : forall d d', dataset_comes_back d d' -> (lasting_same d' d /\ transient_same d' d <-> settles d).
Proof.
  intros d d' [(HP & HB & ->)|(NB & B1 & B2 & B3 & B4 & B5 & B6 & B7 & B8 & B9 & B10 & B11 & B12 & B13 & B14 & B15 & B16 & B17 & B18 & B19)].
  - unfold dataset_blank in HB. destruct d as [a1 a2 a3 a4 a5 a6 a7 a8 a9 a10 a11 a12 a13 a14 a15 a16 a17 a18 a19]. cbn in *. injection HB as -> -> -> -> -> -> -> -> -> -> -> -> -> -> ->.
    unfold settles, lasting_same, transient_same. cbn. split; [intros _; repeat split; discriminate|intros _; repeat split; reflexivity].
  - unfold settles, lasting_same, transient_same.
    rewrite (both_opt _ _ _ _ commit_back _ _ B5), (both_opt _ _ _ _ meta_back _ _ B7), (both_opt _ _ _ _ (script_back (bs "rm:0") ltac:(discriminate)) _ _ B13),
      (both_opt _ _ _ _ structure_back _ _ B16), (both_opt _ _ _ _ stats_back _ _ B17), (both_opt _ _ _ _ transform_back _ _ B18), (both_opt _ _ _ _ (script_back (bs "vz:0") ltac:(discriminate)) _ _ B19).
    rewrite B2, B3, B4, B6, B8, B9, B10, B11, B12, unless_back. tauto.
Qed.
(** A golden file that was just updated is matched by the same dataset exactly if the dataset is one that reads back as it is. *)
Theorem golden_settles : forall renum depth d doc n n' update,
  dataset_wf d -> dataset_encode d = Ok doc -> legible doc -> writable doc -> (height doc <= depth)%nat -> Forall (dynamic renum) (dataset_dynamic d) ->
  golden_run (dataset_of_bytes renum depth) true d n Mismatch n' -> (golden_run (dataset_of_bytes renum depth) update d n' Passed n' <-> settles d).
Proof.
  intros renum depth d doc n n' update W E L WR H D G.
  assert (B : exists b, n' = Plain b /\ to_indented d = Ok b) by (inversion G; subst; [discriminate|eauto]). clear G. destruct B as (b & -> & B).
  unfold to_indented in B. rewrite E in B. cbn [rbind] in B. apply ok_inj in B. subst b.
  destruct (dataset_survives_text renum depth d doc _ W E L D (indented_is_text depth doc WR H)) as (d' & R & C). rewrite <- (comes_back_same _ _ C), <- same_exact. split.
  - intros G. inversion G as [|e LG SD| | |]; subst. unfold load_golden in LG. cbn [read_file] in LG. rewrite R in LG. apply ok_inj in LG. subst e. exact SD.
  - intros SD. apply gr_same with d'; [|exact SD]. unfold load_golden. cbn [read_file]. exact R.
Qed.
Print Assumptions golden_settles.
(** It need not be: a commit without a kind is written with one, so that its golden file never matches. *)
Definition ex_kindless : dataset := mkDataset None JNull None [] (Some (mkCommit None [] [] [] [] 0 (bs "x") [])) [] None [] [] [] [] [] None 0 [] None None None None.
Theorem golden_settles_refuted : exists d n n', dataset_wf d /\ Forall (dynamic (fun l => JReal l)) (dataset_dynamic d) /\
  golden_run (dataset_of_bytes (fun l => JReal l) 10) true d n Mismatch n' /\ golden_run (dataset_of_bytes (fun l => JReal l) 10) true d n' Mismatch n'.
Proof.
  assert (T : exists b, to_indented ex_kindless = Ok b /\ b = bs "{
  ""commit"": {
    ""qri"": ""cm:0"",
    ""timestamp"": ""0001-01-01T00:00:00Z"",
    ""title"": ""x""
  },
  ""qri"": ""ds:0""
}" /\ exists e, dataset_of_bytes (fun l => JReal l) 10 b = Ok e /\ exists c, ds_commit e = Some c /\ cm_qri c = bs "cm:0").
  { eexists. split; [reflexivity|]. split; [reflexivity|]. eexists. split; [vm_compute; reflexivity|]. eexists. split; reflexivity. }
  destruct T as (b & TB & _ & e & R & c & EC & Q).
  exists ex_kindless, (Plain (bs "{}")), (Plain b). split; [repeat split|]. split; [repeat constructor|]. split.
  - apply gr_write with (dataset_ref []); [reflexivity| |reflexivity|exact TB]. intros SD. apply same_exact in SD. destruct SD as [(_ & _ & _ & H & _) _]. exact H.
  - apply gr_write with e; [exact R| |reflexivity|exact TB]. intros SD. apply same_exact in SD. destruct SD as [(_ & _ & _ & H & _) _]. rewrite EC in H. cbn in H.
    destruct H as [(_ & _ & H & _) _]. cbn in H. rewrite Q in H. discriminate.
Qed.
Print Assumptions golden_settles_refuted.

(** Concrete cases. *)
Definition ex_folder : folder := fun n =>
  if beqb n (bs "input.dataset.json") then Plain (bs "{ ""name"": ""old"", ""transform"": {""scriptPath"": ""x""} }")
  else if beqb n (bs "body.csv") then Plain (bs "a,b") else if beqb n (bs "body.cbor") then Closed (EMsg "permission denied") else if beqb n (bs "transform.star") then Plain (bs "def f():") else Missing.
Definition ex_decode := dataset_of_bytes (fun l => JReal l) 10.
Example test_case_loaded_ex : exists tc, new_test_case ex_decode (bs "testdata/cities/") ex_folder = Ok tc /\ tc_name tc = bs "cities" /\ ds_name (tc_input tc) = bs "cities" /\
  tc_body_name tc = bs "body.csv" /\ gives tc (ds_body_file (tc_input tc)) (bs "/body.csv") (bs "a,b") /\ tc_readme tc = None /\ tc_expect tc = None /\
  option_map tf_script_path (ds_transform (tc_input tc)) = Some (bs "x").
Proof.
  eexists. split; [vm_compute; reflexivity|]. repeat split; try reflexivity. exists 1%N. split; [reflexivity|]. cbn. split; [left; reflexivity|].
  intros nb [H|[H|[]]]; congruence.
Qed.
Example last_element_ex : last_element (bs "cities") (bs "testdata/cities/") /\ plain_name (bs "cities").
Proof. split; [exact (le_in (bs "cities") (bs "testdata") [47%N] (Forall_cons _ eq_refl (Forall_nil _)))|]. split; [discriminate|]. cbn. intros H. decompose [or] H; solve [discriminate | contradiction]. Qed.
Example test_case_refused_ex : (exists e, new_test_case ex_decode (bs "x") (fun _ => Missing) = Err e) /\
  (exists e, new_test_case ex_decode (bs "x") (fun n => if beqb n (bs "expect.dataset.json") then Plain (bs "[") else ex_folder n) = Err e) /\
  exists e, new_test_case ex_decode (bs "x") (fun n => if beqb n (bs "body.json") then Unread [] (EMsg "is a directory") else ex_folder n) = Err e.
Proof. repeat split; eexists; vm_compute; reflexivity. Qed.
Example test_cases_loaded_ex : let es := [(bs "cities", Some ex_folder); (bs "empty", Some (fun _ => Missing)); (bs "notes.txt", None)] in
  NoDup (map fst es) /\ map fst (load_test_cases ex_decode (bs "testdata") es) = [bs "cities"].
Proof. cbn zeta. split; [|vm_compute; reflexivity]. repeat (constructor; [intros H; cbn in H; decompose [or] H; solve [discriminate | contradiction]|]). constructor. Qed.
Example body_path_agrees_ex : body_filepath (fun n => if beqb n (bs "body.ndjson") then Plain [] else Missing) = Some (bs "body.ndjson").
Proof. reflexivity. Qed.
Example golden_settles_ex : settles ex_saved /\ ~ settles ex_kindless /\
  exists b, golden_run ex_decode true ex_saved (Plain (bs "{}")) Mismatch (Plain b) /\ golden_run ex_decode false ex_saved (Plain (bs "{}")) Mismatch (Plain (bs "{}")) /\ golden_run ex_decode true ex_saved Missing Fatal Missing.
Proof.
  assert (ND : ~ same_datasets (dataset_ref []) ex_saved) by (intros SD; apply same_exact in SD; destruct SD as [(_ & _ & _ & H & _) _]; exact H).
  split; [|split].
  - unfold settles. repeat split; try (cbn; discriminate); cbn.
    + right. split; [intros [H _]; apply H; reflexivity|discriminate].
    + right. repeat split; try discriminate. intros [H _]. apply H. reflexivity.
  - intros (_ & H & _). cbn in H. destruct H as [[[H _] _]|[_ H]]; apply H; reflexivity.
  - eexists. split; [|split].
    + eapply gr_write; [reflexivity|exact ND|reflexivity|vm_compute; reflexivity].
    + eapply gr_keep; [reflexivity|exact ND|reflexivity].
    + eapply gr_fatal. reflexivity.
Qed.
