(** Properties C36-C40: component JSON. *)
From Verif Require Import Base M_Doc M_Components M_Encode S_Encode L_Encode.

(** ** C36 *)
Lemma ok_obj : forall o d, Ok (JObj o) = Ok d -> exists o, d = JObj o.
Proof. intros o d H. exists o. congruence. Qed.
Lemma rbind_ok : forall A B (r : res A) (f : A -> res B) b, rbind r f = Ok b -> exists a, r = Ok a /\ f a = Ok b.
Proof. intros A B [a|e| |] f b H; simpl in H; try discriminate. eauto. Qed.
Lemma bare_iff : forall p b (B : Prop) obj s, (b = true <-> B) -> (forall d, obj = Ok d -> exists o, d = JObj o) ->
  ((if negb (bempty p) && b then Ok (JStr p) else obj) = Ok (JStr s) <-> p <> [] /\ B /\ s = p).
Proof.
  intros p b B obj s H O. pose proof (bare_spec p b B H) as S. destruct (negb (bempty p) && b).
  - split; [intros X; injection X as <-|intros (_ & _ & ->)]; tauto.
  - split; [intros X; destruct (O _ X); discriminate|]. intros (X1 & X2 & _). destruct S as [_ S]. discriminate S. auto.
Qed.
Theorem bare_path_iff :
  (forall c s, commit_encode c = Ok (JStr s) <-> cm_path c <> [] /\ commit_blank c /\ s = cm_path c) /\
  (forall c s, stats_encode c = Ok (JStr s) <-> sa_path c <> [] /\ stats_blank c /\ s = sa_path c) /\
  (forall c s, fst (readme_encode c) = Ok (JStr s) <-> sc_path c <> [] /\ sc_blank c /\ s = sc_path c) /\
  (forall c s, fst (viz_encode c) = Ok (JStr s) <-> sc_path c <> [] /\ sc_blank c /\ s = sc_path c) /\
  (forall c s, transform_encode c = Ok (JStr s) <-> tf_path c <> [] /\ transform_blank c /\ s = tf_path c) /\
  (forall c s, structure_encode c = Ok (JStr s) <-> st_path c <> [] /\ structure_blank c /\ s = st_path c) /\
  (forall c s, meta_encode c = Ok (JStr s) <-> md_path c <> [] /\ meta_blank c /\ s = md_path c) /\
  (forall c s, dataset_encode c = Ok (JStr s) <-> ds_path c <> [] /\ dataset_blank c /\ s = ds_path c).
Proof.
  assert (E : forall p b c x kind, (if negb (bempty p) && b then (Ok (JStr p), c) else let c := x in (sc_object c, c)) = sc_encode kind c ->
     fst (sc_encode kind c) = if negb (bempty p) && b then Ok (JStr p) else sc_object x).
  { intros p b c x kind <-. now destruct (negb (bempty p) && b). }
  split; [|split; [|split; [|split; [|split; [|split; [|split]]]]]]; intros c s.
  - apply bare_iff; [apply commit_blank_spec|]. unfold commit_object. intros d. destruct (time_encodes _); [apply ok_obj|discriminate].
  - apply bare_iff; [apply stats_blank_spec|]. intros d H; exact (ok_obj _ _ H).
  - unfold readme_encode. erewrite E by reflexivity. apply bare_iff; [apply sc_blank_spec|]. intros d H; exact (ok_obj _ _ H).
  - unfold viz_encode. erewrite E by reflexivity. apply bare_iff; [apply sc_blank_spec|]. intros d H; exact (ok_obj _ _ H).
  - apply bare_iff; [apply transform_blank_spec|]. intros d H; exact (ok_obj _ _ H).
  - unfold structure_encode. rewrite <- andb_assoc. apply bare_iff; [apply structure_blank_spec|]. intros d H; exact (ok_obj _ _ H).
  - apply bare_iff; [apply meta_blank_spec|]. intros d H; exact (ok_obj _ _ H).
  - apply bare_iff; [apply dataset_blank_spec|]. intros d.
    intros H. do 7 (apply rbind_ok in H; destruct H as (? & _ & H)). exact (ok_obj _ _ H).
Qed.
Print Assumptions bare_path_iff.
(** The rule of Structure and Meta drops data: a bare path does not mean that there was nothing else. *)
Theorem structure_bare_path_loses_format_refuted :
  ~ (forall s d, structure_encode s = Ok d -> exists s', structure_decode d = Ok s' /\ st_format s' = st_format s).
Proof.
  intros H. destruct (H (mkStructure [] [] 0 [] 0 0 (bs "csv") None 0 (bs "/p") [] None false) _ eq_refl) as (s' & E & F).
  injection E as <-. discriminate F.
Qed.
Print Assumptions structure_bare_path_loses_format_refuted.
Theorem meta_bare_path_loses_members_refuted :
  ~ (forall m d, meta_encode m = Ok d -> exists m', meta_decode d = Ok m' /\
       match md_meta m with Some (_ :: _) => md_meta m' <> None | _ => True end).
Proof.
  intros H. destruct (H (mkMeta (Some [(bs "foo", JInt 1)]) [] [] None None [] [] [] [] None None None (bs "/p") [] [] [] None []) _ eq_refl) as (s' & E & F).
  injection E as <-. now apply F.
Qed.
Print Assumptions meta_bare_path_loses_members_refuted.
Example bare_path_ex : commit_encode (commit_ref (bs "/c")) = Ok (JStr (bs "/c")) /\
  meta_encode (mkMeta None [] [] (Some []) None [] [] [] [] None None None (bs "/m") [] [] [] None []) <> Ok (JStr (bs "/m")).
Proof. split; [reflexivity|discriminate]. Qed.

(** ** C37 *)
Lemma came_back : forall A (path : A -> bytes) (blank : A -> Prop) (ref : bytes -> A) (kept : A -> A) (b : bool) (obj : res jdoc)
    (dec : jdoc -> res A) (c : A) (d : jdoc),
  (b = true <-> blank c) -> (forall s, dec (JStr s) = Ok (ref s)) -> (obj = Ok d -> dec d = Ok (kept c)) ->
  (if negb (bempty (path c)) && b then Ok (JStr (path c)) else obj) = Ok d ->
  exists c', dec d = Ok c' /\ comes_back path blank ref kept c c'.
Proof.
  intros A path blank ref kept b obj dec c d B R O H. pose proof (bare_spec (path c) b (blank c) B) as S. unfold comes_back.
  destruct (negb (bempty (path c)) && b).
  - assert (E : d = JStr (path c)) by congruence. subst d. exists (ref (path c)). split; [apply R|]. left. tauto.
  - exists (kept c). split; [auto|]. right. split; auto. intros X. apply S in X. discriminate X.
Qed.
Theorem commit_round_trip : forall c d, commit_encode c = Ok d -> exists c', commit_decode d = Ok c' /\ commit_comes_back c c'.
Proof. intros c d. apply came_back; [apply commit_blank_spec|reflexivity|apply commit_object_back]. Qed.
Print Assumptions commit_round_trip.
Theorem stats_round_trip : forall c d, stats_encode c = Ok d -> exists c', stats_decode d = Ok c' /\ stats_comes_back c c'.
Proof. intros c d. apply came_back; [apply stats_blank_spec|reflexivity|apply stats_object_back]. Qed.
Print Assumptions stats_round_trip.
Lemma sc_encode_fst : forall kind c, fst (sc_encode kind c) =
  if negb (bempty (sc_path c)) && sc_is_empty c then Ok (JStr (sc_path c)) else sc_object (sc_with_qri c (default_kind kind (sc_qri c))).
Proof. intros kind c. unfold sc_encode. now destruct (negb _ && _). Qed.
Theorem readme_round_trip : forall c d, fst (readme_encode c) = Ok d -> exists c', readme_decode d = Ok c' /\ readme_comes_back c c'.
Proof.
  intros c d. unfold readme_encode. rewrite sc_encode_fst.
  apply came_back; [apply sc_blank_spec|reflexivity|apply sc_object_back; discriminate].
Qed.
Print Assumptions readme_round_trip.
Theorem viz_round_trip : forall c d, fst (viz_encode c) = Ok d -> exists c', viz_decode d = Ok c' /\ viz_comes_back c c'.
Proof.
  intros c d. unfold viz_encode. rewrite sc_encode_fst.
  apply came_back; [apply sc_blank_spec|reflexivity|apply sc_object_back; discriminate].
Qed.
Print Assumptions viz_round_trip.
Theorem transform_round_trip : forall c d, transform_maps_wf c -> transform_encode c = Ok d ->
  exists c', transform_decode d = Ok c' /\ transform_comes_back c c'.
Proof. intros c d W. apply came_back; [apply transform_blank_spec|reflexivity|now apply transform_object_back]. Qed.
Print Assumptions transform_round_trip.
Theorem structure_round_trip : forall c d, structure_maps_wf c -> structure_encode c = Ok d ->
  exists c', structure_decode d = Ok c' /\ structure_comes_back c c'.
Proof.
  intros c d W. unfold structure_encode. rewrite <- andb_assoc.
  apply came_back; [apply structure_blank_spec|reflexivity|now apply structure_object_back].
Qed.
Print Assumptions structure_round_trip.
Theorem meta_round_trip : forall c d, meta_wf c -> meta_encode c = Ok d -> exists c', meta_decode d = Ok c' /\ meta_comes_back c c'.
Proof. intros c d W. apply came_back; [apply meta_blank_spec|reflexivity|now apply meta_object_back]. Qed.
Print Assumptions meta_round_trip.
Example component_round_trip_ex :
  let c := mkCommit (Some (mkUser (bs "u") [] [])) [] (bs "/c") [] [] 5 (bs "title") (bs "run") in
  (exists d, commit_encode c = Ok d /\ commit_decode d = Ok (mkCommit (Some (mkUser (bs "u") [] [])) [] (bs "/c") (bs "cm:0") [] 5 (bs "title") (bs "run"))) /\
  let m := mkMeta (Some [(bs "foo", JInt 1)]) [] [] None None [] [] [] [] (Some [bs "k"]) None None [] [] [] (bs "T") None [] in
  meta_wf m /\ exists d, meta_encode m = Ok d /\
    meta_decode d = Ok (mkMeta (Some [(bs "foo", JInt 1); (bs "keywords", JArr [JStr (bs "k")])]) [] [] None None [] [] [] [] (Some [bs "k"]) None None [] (bs "md:0") [] (bs "T") None []).
Proof.
  split; [eexists; split; reflexivity|]. split; [|eexists; split; reflexivity].
  split; [split; exact I|]. constructor; [|constructor]. left. split.
  - repeat constructor; discriminate.
  - intros H. repeat (destruct H as [H|H]; [discriminate H|]). destruct H.
Qed.
(** Arbitrary members outside [meta_wf] do not come back. *)
Theorem meta_round_trip_any_member_refuted :
  ~ (forall m d, sorted_map (md_meta m) -> meta_encode m = Ok d -> exists m', meta_decode d = Ok m' /\ meta_comes_back m m').
Proof.
  intros H.
  destruct (H (mkMeta (Some [(bs "data", JInt 1)]) [] [] None None [] [] [] [] None None None [] [] [] [] None []) _ (conj I I) eq_refl) as (m' & E & F).
  injection E as <-. destruct F as [[F _]|[_ F]]; [now apply F|discriminate F].
Qed.
Print Assumptions meta_round_trip_any_member_refuted.
(** Decoding metadata can even fail on what was encoded: the member "TITLE" is taken for the title. *)
Theorem meta_decodes_what_it_encodes_refuted :
  ~ (forall m d, sorted_map (md_meta m) -> meta_encode m = Ok d -> exists m', meta_decode d = Ok m').
Proof.
  intros H.
  destruct (H (mkMeta (Some [(bs "TITLE", JInt 1)]) [] [] None None [] [] [] [] None None None [] [] [] [] None []) _ (conj I I) eq_refl) as (m' & E).
  discriminate E.
Qed.
Print Assumptions meta_decodes_what_it_encodes_refuted.

(** Encoding fails only for a commit whose time cannot be written. *)
Lemma time_encodes_spec : forall t, time_encodes t = true <-> encodable_time t.
Proof. intros t. unfold time_encodes, encodable_time, min_time, max_time. rewrite andb_true_iff, Z.leb_le, Z.ltb_lt. lia. Qed.
Theorem encode_total :
  (forall c, (exists d, commit_encode c = Ok d) <-> encodable_time (cm_timestamp c)) /\
  (forall c, exists d, stats_encode c = Ok d) /\ (forall c, exists d, fst (readme_encode c) = Ok d) /\
  (forall c, exists d, fst (viz_encode c) = Ok d) /\ (forall c, exists d, transform_encode c = Ok d) /\
  (forall c, exists d, structure_encode c = Ok d) /\ (forall c, exists d, meta_encode c = Ok d) /\
  (forall d, (exists o, dataset_encode d = Ok o) <-> opt_all (fun c => encodable_time (cm_timestamp c)) (ds_commit d)).
Proof.
  assert (C : forall c, (exists d, commit_encode c = Ok d) <-> encodable_time (cm_timestamp c)).
  { intros c. rewrite <- time_encodes_spec. unfold commit_encode. destruct (negb (bempty (cm_path c)) && commit_is_empty c) eqn:B.
    - split; [|eauto]. intros _. apply andb_true_iff in B. destruct B as [_ B]. apply commit_blank_spec in B. rewrite B. reflexivity.
    - unfold commit_object. destruct (time_encodes _); split; eauto; try discriminate. intros [d H]; discriminate H. }
  assert (S : forall kind c, exists d, fst (sc_encode kind c) = Ok d).
  { intros kind c. rewrite sc_encode_fst. destruct (negb _ && _); unfold sc_object; eauto. }
  assert (SA : forall c, exists d, stats_encode c = Ok d) by (intros c; unfold stats_encode, stats_object; destruct (negb _ && _); eauto).
  assert (TF : forall c, exists d, transform_encode c = Ok d) by (intros c; unfold transform_encode, transform_object; destruct (negb _ && _); eauto).
  assert (ST : forall c, exists d, structure_encode c = Ok d) by (intros c; unfold structure_encode, structure_object; destruct (negb _ && _ && _); eauto).
  assert (MD : forall c, exists d, meta_encode c = Ok d) by (intros c; unfold meta_encode, meta_object; destruct (negb _ && _); eauto).
  split; [exact C|]. split; [exact SA|]. split; [apply S|]. split; [apply S|]. split; [exact TF|]. split; [exact ST|]. split; [exact MD|].
  assert (P : forall A (enc : A -> res jdoc) o, (forall c, exists d, enc c = Ok d) -> exists d, ptr_res enc o = Ok d).
  { intros A enc [a|] H; simpl; eauto. destruct (H a) as [d ->]. simpl. eauto. }
  intros d. unfold dataset_encode. destruct (negb (bempty (ds_path d)) && dataset_is_empty d) eqn:B.
  { split; [|eauto]. intros _. apply andb_true_iff in B. destruct B as [_ B]. apply dataset_blank_spec in B. rewrite B. exact I. }
  destruct (P _ _ (ds_meta d) MD) as [x1 E1]. rewrite E1. destruct (P _ _ (ds_readme d) (S (bs "rm:0"))) as [x2 E2]. unfold readme_encode, viz_encode. rewrite E2.
  destruct (P _ _ (ds_structure d) ST) as [x3 E3]. rewrite E3. destruct (P _ _ (ds_stats d) SA) as [x4 E4]. rewrite E4.
  destruct (P _ _ (ds_transform d) TF) as [x5 E5]. rewrite E5. destruct (P _ _ (ds_viz d) (S (bs "vz:0"))) as [x6 E6]. rewrite E6.
  destruct (ds_commit d) as [c|]; cbn [opt_all ptr_res]; [|cbn [rbind]; split; eauto].
  rewrite <- C. split.
  - intros [o H]. apply rbind_ok in H. destruct H as (a & H & _). apply rbind_ok in H. destruct H as (a' & H & _). eauto.
  - intros [a ->]. cbn [rbind]. eauto.
Qed.
Print Assumptions encode_total.
Example encode_total_ex : encodable_time 63000000000000000000 /\ commit_encode (mkCommit None [] [] [] [] 315537897600000000000 [] []) = Err (EMsg "Time.MarshalJSON: year outside of range [0,9999]").
Proof. split; [unfold encodable_time; lia|reflexivity]. Qed.

Lemma ptr_back : forall A (enc : A -> res jdoc) (dec : jdoc -> res A) (R : A -> A -> Prop) (o : option A) x,
  (forall c d, o = Some c -> enc c = Ok d -> d <> JNull /\ exists c', dec d = Ok c' /\ R c c') -> ptr_res enc o = Ok x ->
  exists o', d_ptr dec x = Ok o' /\ opt_rel R o o'.
Proof.
  intros A enc dec R [c|] x H E; simpl in E.
  - apply rbind_ok in E. destruct E as (d & E & E'). assert (x = Some d) by congruence. subst x. destruct (H c d eq_refl E) as (N & c' & D & Rc).
    exists (Some c'). split; [|exact Rc]. unfold d_ptr. rewrite D. destruct d; congruence.
  - assert (x = None) by congruence. subst x. exists None. split; [reflexivity|exact I].
Qed.
Lemma not_null : forall p b obj d, (if negb (bempty p) && b then Ok (JStr p) else obj) = Ok d -> (forall d, obj = Ok d -> d <> JNull) -> d <> JNull.
Proof. intros p b obj d H O. destruct (negb (bempty p) && b); [congruence|auto]. Qed.
Lemma obj_not_null : forall o d, Ok (JObj o) = Ok d -> d <> JNull.
Proof. intros o d H. congruence. Qed.
Lemma commit_not_null : forall c d, commit_encode c = Ok d -> d <> JNull.
Proof. intros c d H. eapply not_null; [exact H|]. intros x. unfold commit_object. destruct (time_encodes _); [apply obj_not_null|discriminate]. Qed.
Lemma stats_not_null : forall c d, stats_encode c = Ok d -> d <> JNull.
Proof. intros c d H. eapply not_null; [exact H|]. intros x X. exact (obj_not_null _ _ X). Qed.
Lemma transform_not_null : forall c d, transform_encode c = Ok d -> d <> JNull.
Proof. intros c d H. eapply not_null; [exact H|]. intros x X. exact (obj_not_null _ _ X). Qed.
Lemma meta_not_null : forall c d, meta_encode c = Ok d -> d <> JNull.
Proof. intros c d H. eapply not_null; [exact H|]. intros x X. exact (obj_not_null _ _ X). Qed.
Lemma structure_not_null : forall c d, structure_encode c = Ok d -> d <> JNull.
Proof. intros c d H. unfold structure_encode in H. rewrite <- andb_assoc in H. eapply not_null; [exact H|]. intros x X. exact (obj_not_null _ _ X). Qed.
Lemma sc_not_null : forall kind c d, fst (sc_encode kind c) = Ok d -> d <> JNull.
Proof. intros kind c d H. rewrite sc_encode_fst in H. eapply not_null; [exact H|]. intros x X. exact (obj_not_null _ _ X). Qed.
Theorem dataset_round_trip : forall d doc, dataset_wf d -> dataset_encode d = Ok doc ->
  exists d', dataset_decode doc = Ok d' /\ dataset_comes_back d d'.
Proof.
  intros d doc (W1 & W2 & W3) H. unfold dataset_encode in H.
  pose proof (bare_spec (ds_path d) _ _ (dataset_blank_spec d)) as S. unfold dataset_comes_back.
  destruct (negb (bempty (ds_path d)) && dataset_is_empty d).
  { assert (E : doc = JStr (ds_path d)) by congruence. subst doc. exists (dataset_ref (ds_path d)). split; [reflexivity|]. left. tauto. }
  apply rbind_ok in H. destruct H as (cm & Ecm & H). apply rbind_ok in H. destruct H as (md & Emd & H).
  apply rbind_ok in H. destruct H as (rm & Erm & H). apply rbind_ok in H. destruct H as (st & Est & H).
  apply rbind_ok in H. destruct H as (sa & Esa & H). apply rbind_ok in H. destruct H as (tf & Etf & H).
  apply rbind_ok in H. destruct H as (vz & Evz & H).
  assert (E : doc = JObj (members (dataset_members d cm md rm st sa tf vz))) by congruence. subst doc. clear H.
  destruct (ptr_back _ commit_encode commit_decode commit_comes_back _ _ (fun c x _ Hx => conj (commit_not_null c x Hx) (commit_round_trip c x Hx)) Ecm) as (cm' & Dcm & Rcm).
  destruct (ptr_back _ meta_encode meta_decode meta_comes_back (ds_meta d) md) as (md' & Dmd & Rmd); [|exact Emd|].
  { intros c x Hc Hx. rewrite Hc in W1. split; [now apply (meta_not_null c)|now apply meta_round_trip]. }
  destruct (ptr_back _ (fun c => fst (readme_encode c)) readme_decode readme_comes_back _ _ (fun c x _ Hx => conj (sc_not_null _ c x Hx) (readme_round_trip c x Hx)) Erm) as (rm' & Drm & Rrm).
  destruct (ptr_back _ structure_encode structure_decode structure_comes_back (ds_structure d) st) as (st' & Dst & Rst); [|exact Est|].
  { intros c x Hc Hx. rewrite Hc in W2. split; [now apply (structure_not_null c)|now apply structure_round_trip]. }
  destruct (ptr_back _ stats_encode stats_decode stats_comes_back _ _ (fun c x _ Hx => conj (stats_not_null c x Hx) (stats_round_trip c x Hx)) Esa) as (sa' & Dsa & Rsa).
  destruct (ptr_back _ transform_encode transform_decode transform_comes_back (ds_transform d) tf) as (tf' & Dtf & Rtf); [|exact Etf|].
  { intros c x Hc Hx. rewrite Hc in W3. split; [now apply (transform_not_null c)|now apply transform_round_trip]. }
  destruct (ptr_back _ (fun c => fst (viz_encode c)) viz_decode viz_comes_back _ _ (fun c x _ Hx => conj (sc_not_null _ c x Hx) (viz_round_trip c x Hx)) Evz) as (vz' & Dvz & Rvz).
  exists (mkDataset None (ds_body d) (some_unless_empty (ds_body_bytes d)) (ds_body_path d) cm' (ds_id d) md' (ds_name d) (ds_path d)
    (ds_peername d) (ds_previous d) (ds_profile d) rm' (ds_num_versions d) (kind_or (bs "ds:0") (ds_qri d)) st' sa' tf' vz').
  split.
  - clear S. unfold dataset_decode, ref_or_object. cbv zeta. rewrite !routed_members by reflexivity. repeat look1 dataset_members. dec1.
    rewrite Dcm. cbn [rbind]. dec1. rewrite Dmd. cbn [rbind]. dec1. rewrite Drm. cbn [rbind]. dec1. rewrite Dst. cbn [rbind].
    rewrite Dsa. cbn [rbind]. rewrite Dtf. cbn [rbind]. rewrite Dvz. cbn [rbind]. now rewrite <- default_kind_or.
  - right. split; [intros X; apply S in X; discriminate X|]. cbn. tauto.
Qed.
Print Assumptions dataset_round_trip.
