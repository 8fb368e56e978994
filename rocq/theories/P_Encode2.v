(** Properties C38-C40: re-encoding, key order and secrets of component JSON. *)
From Verif Require Import Base M_Doc M_Components M_Encode S_Encode L_Encode P_Encode.

(** ** C38 *)
Lemma default_idem : forall k q, default_kind k (kind_or k q) = default_kind k q.
Proof. intros k q. rewrite <- default_kind_or. now destruct q, k. Qed.
Lemma not_bare : forall p b (B : Prop), (b = true <-> B) -> ~ (p <> [] /\ B) -> negb (bempty p) && b = false.
Proof. intros p b B H N. apply not_true_is_false. intros X. apply N. now apply (bare_spec p b B H). Qed.
Lemma is_bare : forall p b (B : Prop), (b = true <-> B) -> p <> [] -> B -> negb (bempty p) && b = true.
Proof. intros p b B H P X. apply (bare_spec p b B H). auto. Qed.

Theorem commit_reencode : forall c d c', commit_encode c = Ok d -> commit_decode d = Ok c' -> commit_encode c' = Ok d.
Proof.
  intros c d c' E D. destruct (commit_round_trip c d E) as (x & X & R). assert (x = c') by congruence. subst x. clear X D.
  destruct R as [(P & B & ->)|(N & ->)].
  - assert (E' : commit_encode c = Ok (JStr (cm_path c))) by (apply (proj1 bare_path_iff); tauto).
    replace d with (JStr (cm_path c)) by congruence. apply (proj1 bare_path_iff). simpl. unfold commit_blank. tauto.
  - unfold commit_encode in *. rewrite (not_bare (cm_path c) _ _ (commit_blank_spec c) N) in E. rewrite <- E.
    rewrite (not_bare _ _ _ (commit_blank_spec (commit_kept c))).
    + unfold commit_object, commit_members. cbn [commit_kept cm_author cm_message cm_path cm_qri cm_signature cm_timestamp cm_title cm_runid].
      now rewrite default_idem.
    + intros (P & B). apply N. split; [exact P|]. destruct c. unfold commit_blank, commit_kept in *. simpl in *. injection B; intros; subst. reflexivity.
Qed.
Print Assumptions commit_reencode.
Theorem stats_reencode : forall c d c', stats_encode c = Ok d -> stats_decode d = Ok c' -> stats_encode c' = Ok d.
Proof.
  intros c d c' E D. destruct (stats_round_trip c d E) as (x & X & R). assert (x = c') by congruence. subst x. clear X D.
  destruct R as [(P & B & ->)|(N & ->)].
  - assert (E' : stats_encode c = Ok (JStr (sa_path c))) by (apply (proj1 (proj2 bare_path_iff)); tauto).
    replace d with (JStr (sa_path c)) by congruence. apply (proj1 (proj2 bare_path_iff)). simpl. unfold stats_blank. tauto.
  - unfold stats_encode in *. rewrite (not_bare (sa_path c) _ _ (stats_blank_spec c) N) in E. rewrite <- E.
    rewrite (not_bare _ _ _ (stats_blank_spec (stats_kept c))).
    + unfold stats_object, stats_members. cbn [stats_kept sa_path sa_qri sa_stats]. now rewrite default_idem.
    + intros (P & B). apply N. split; [exact P|]. destruct c. unfold stats_blank, stats_kept in *. simpl in *. injection B; intros; subst. reflexivity.
Qed.
Print Assumptions stats_reencode.
Lemma sc_reencode : forall kind c d c', kind <> [] -> fst (sc_encode kind c) = Ok d ->
  comes_back sc_path sc_blank sc_ref (sc_kept kind) c c' -> fst (sc_encode kind c') = Ok d.
Proof.
  intros kind c d c' K E [(P & B & ->)|(N & ->)]; rewrite sc_encode_fst in *.
  - rewrite (is_bare _ _ _ (sc_blank_spec c) P B) in E. rewrite <- E. cbn [sc_ref sc_path]. destruct (sc_path c); [congruence|reflexivity].
  - rewrite (not_bare (sc_path c) _ _ (sc_blank_spec c) N) in E. rewrite <- E. cbn [sc_kept sc_path bempty negb andb].
    unfold sc_object. cbn [sc_with_qri sc_kept sc_qri sc_format sc_text sc_script_path sc_rendered_path]. now rewrite default_idem.
Qed.
Theorem readme_viz_reencode :
  (forall c d c', fst (readme_encode c) = Ok d -> readme_decode d = Ok c' -> fst (readme_encode c') = Ok d) /\
  (forall c d c', fst (viz_encode c) = Ok d -> viz_decode d = Ok c' -> fst (viz_encode c') = Ok d).
Proof.
  split; intros c d c' E D.
  - destruct (readme_round_trip c d E) as (x & X & R). assert (x = c') by congruence. subst x. apply (sc_reencode _ c); [discriminate|exact E|exact R].
  - destruct (viz_round_trip c d E) as (x & X & R). assert (x = c') by congruence. subst x. apply (sc_reencode _ c); [discriminate|exact E|exact R].
Qed.
Print Assumptions readme_viz_reencode.

Lemma meta_extra_sorted : forall c, meta_wf c -> sorted (meta_extra c).
Proof.
  intros c W. assert (S0 := meta_base_sorted c W). unfold meta_extra. fold (meta_base c). destruct (md_keywords c); auto. now apply sorted_set.
Qed.
Lemma meta_kept_object : forall c, meta_wf c -> meta_object (meta_kept c) = meta_object c.
Proof.
  intros c W. unfold meta_object. fold (meta_base c). fold (meta_base (meta_kept c)).
  assert (B : meta_base (meta_kept c) = meta_extra c) by (unfold meta_base; cbn [meta_kept md_meta]; now destruct (meta_extra c)).
  rewrite B. change (meta_fields (meta_kept c)) with (meta_fields c). do 2 f_equal.
  assert (S0 := meta_base_sorted c W). assert (S1 := meta_extra_sorted c W).
  apply sorted_ext; [now apply put_all_sorted|now apply put_all_sorted|].
  intros k. rewrite !put_all_get by apply meta_fields_distinct.
  destruct (lookup k (meta_fields c)) eqn:L; auto. unfold meta_extra. fold (meta_base c).
  destruct (md_keywords c) as [l|] eqn:K; auto. apply map_get_set_neq. intros ->.
  change (lookup (bs "keywords") (meta_fields c)) with (option_map (enc_list JStr) (md_keywords c)) in L. rewrite K in L. discriminate L.
Qed.
Theorem meta_reencode : forall c d c', meta_wf c -> meta_encode c = Ok d -> meta_decode d = Ok c' -> meta_encode c' = Ok d.
Proof.
  intros c d c' W E D. destruct (meta_round_trip c d W E) as (x & X & R). assert (x = c') by congruence. subst x. clear X D.
  unfold meta_encode in *. destruct R as [(P & B & ->)|(N & ->)].
  - rewrite (is_bare _ _ _ (meta_blank_spec c) P B) in E. rewrite <- E. cbn [meta_ref md_path]. destruct (md_path c); [congruence|reflexivity].
  - rewrite (not_bare _ _ _ (meta_blank_spec c) N) in E. rewrite (not_bare _ _ _ (meta_blank_spec (meta_kept c))).
    + now rewrite meta_kept_object.
    + intros (P & B). apply N. split; [exact P|]. destruct c. unfold meta_blank, meta_kept in *. simpl in *. injection B; intros; subst. reflexivity.
Qed.
Print Assumptions meta_reencode.

Lemma some_unless_idem : forall A (o : option (list A)), some_unless_empty (some_unless_empty o) = some_unless_empty o.
Proof. now intros A [[|x l]|]. Qed.
Lemma oe_map_sue : forall m, oe_map (some_unless_empty m) = oe_map m. Proof. now intros [[|x l]|]. Qed.
Lemma oe_mapv_sue : forall A (enc : A -> jdoc) m, oe_mapv enc (some_unless_empty m) = oe_mapv enc m. Proof. now intros A enc [[|x l]|]. Qed.
Lemma oe_slice_sue : forall A (enc : A -> jdoc) m, oe_slice enc (some_unless_empty m) = oe_slice enc m. Proof. now intros A enc [[|x l]|]. Qed.
Lemma sue_none : forall A (o : option (list A)), some_unless_empty o = None <-> empty_or_nil o.
Proof. intros A [[|x l]|]; unfold empty_or_nil; simpl; split; intros H; auto; try discriminate. destruct H; discriminate. Qed.

Theorem structure_reencode_iff : forall c d c', structure_maps_wf c -> structure_encode c = Ok d -> structure_decode d = Ok c' ->
  (structure_encode c' = Ok d <-> ~ structure_unstable c).
Proof.
  intros c d c' W E D. destruct (structure_round_trip c d W E) as (x & X & R). assert (x = c') by congruence. subst x. clear X D.
  unfold structure_encode in *. rewrite <- andb_assoc in *. unfold structure_unstable. destruct R as [(P & B & ->)|(N & ->)].
  - rewrite (is_bare _ _ _ (structure_blank_spec c) P B) in E. rewrite <- E. cbn [structure_ref st_path st_encoding st_schema].
    destruct B as [_ B]. rewrite B. destruct (st_path c); [congruence|]. split; [intros _ (_ & _ & X); discriminate X|reflexivity].
  - rewrite (not_bare _ _ _ (structure_blank_spec c) N) in E.
    destruct (negb (bempty (st_path (structure_kept c))) && (bempty (st_encoding (structure_kept c)) && is_nil (st_schema (structure_kept c)))) eqn:B.
    + split; [intros X; unfold structure_object in E; congruence|]. intros U. exfalso. apply U. clear U.
      apply (bare_spec _ _ _ (structure_blank_spec (structure_kept c))) in B. destruct B as [P [B1 B2]]. cbn in P, B1, B2.
      split; [exact P|]. split; [exact B1|]. apply sue_none in B2. destruct B2 as [B2|B2]; [|exact B2].
      exfalso. apply N. split; [exact P|split; auto].
    + rewrite <- E. split; [|intros _].
      * intros _ (P & B1 & B2). apply Bool.not_true_iff_false in B. apply B. apply (bare_spec _ _ _ (structure_blank_spec (structure_kept c))).
        split; [exact P|]. split; [exact B1|]. cbn. now rewrite B2.
      * unfold structure_object, structure_members.
        cbn [structure_kept st_checksum st_compression st_depth st_encoding st_err_count st_entries st_format st_format_config st_length st_path st_qri st_schema st_strict].
        now rewrite default_idem, !oe_map_sue.
Qed.
Print Assumptions structure_reencode_iff.
Lemma transform_kept_blank : forall t, transform_blank (transform_kept t) <->
  empty_or_nil (tf_config t) /\ empty_or_nil (tf_resources t) /\ tf_script_path t = [] /\
  tf_text t = [] /\ empty_or_nil (tf_steps t) /\ tf_syntax t = [] /\ tf_syntax_version t = [] /\ empty_or_nil (tf_syntaxes t).
Proof.
  intros [co p q re sf sp tx se st sy sv ss]. rewrite <- !sue_none. unfold transform_blank, transform_kept. simpl. split.
  - intros H. injection H. intros. tauto.
  - intros (H1 & H2 & H3 & H4 & H5 & H6 & H7 & H8). rewrite H1, H2, H5, H8. subst. reflexivity.
Qed.
Theorem transform_reencode_iff : forall c d c', transform_maps_wf c -> transform_encode c = Ok d -> transform_decode d = Ok c' ->
  (transform_encode c' = Ok d <-> ~ transform_unstable c).
Proof.
  intros c d c' W E D. destruct (transform_round_trip c d W E) as (x & X & R). assert (x = c') by congruence. subst x. clear X D.
  unfold transform_encode in *. unfold transform_unstable. rewrite <- transform_kept_blank. destruct R as [(P & B & ->)|(N & ->)].
  - rewrite (is_bare _ _ _ (transform_blank_spec c) P B) in E. rewrite <- E. cbn [transform_ref tf_path].
    destruct (tf_path c); [congruence|]. split; [tauto|reflexivity].
  - rewrite (not_bare _ _ _ (transform_blank_spec c) N) in E.
    destruct (negb (bempty (tf_path (transform_kept c))) && transform_is_empty (transform_kept c)) eqn:B.
    + split; [intros X; unfold transform_object in E; congruence|]. intros U. exfalso. apply U. clear U.
      apply (bare_spec _ _ _ (transform_blank_spec (transform_kept c))) in B. destruct B as [P B]. cbn in P. tauto.
    + rewrite <- E. split; [|intros _].
      * intros _ (P & _ & B2). apply Bool.not_true_iff_false in B. apply B. apply (bare_spec _ _ _ (transform_blank_spec (transform_kept c))).
        split; [exact P|exact B2].
      * unfold transform_object, transform_members.
        cbn [transform_kept tf_config tf_path tf_qri tf_resources tf_script_path tf_text tf_steps tf_syntax tf_syntax_version tf_syntaxes].
        now rewrite default_idem, !oe_map_sue, !oe_mapv_sue, oe_slice_sue.
Qed.
Print Assumptions transform_reencode_iff.
(** Such components exist: the second encoding of a structure with an empty schema is a bare path. *)
Example reencode_ex :
  let s := mkStructure [] [] 0 [] 0 0 (bs "csv") None 0 (bs "/p") [] (Some []) false in
  structure_unstable s /\ (exists d c', structure_encode s = Ok d /\ structure_decode d = Ok c' /\ structure_encode c' = Ok (JStr (bs "/p"))) /\
  let t := mkTransform None (bs "/t") [] None None [] [] (Some [(bs "k", bs "v")]) None [] [] None in
  transform_unstable t /\ (exists d c', transform_encode t = Ok d /\ transform_decode d = Ok c' /\ transform_encode c' = Ok (JStr (bs "/t"))) /\
  ~ structure_unstable (mkStructure [] [] 0 [] 0 0 (bs "csv") None 0 [] [] (Some []) false).
Proof.
  cbv zeta. split; [split; [discriminate|split; reflexivity]|]. split; [do 2 eexists; split; [reflexivity|split; reflexivity]|].
  split; [|split; [do 2 eexists; split; [reflexivity|split; reflexivity]|]].
  - split; [discriminate|]. split; [discriminate|]. unfold empty_or_nil; simpl. tauto.
  - intros (H & _). now apply H.
Qed.

Lemma ptr_reencode : forall A (enc : A -> res jdoc) (R : A -> A -> Prop) (o o' : option A) x,
  (forall c c' d, o = Some c -> enc c = Ok d -> R c c' -> enc c' = Ok d) -> ptr_res enc o = Ok x -> opt_rel R o o' -> ptr_res enc o' = Ok x.
Proof.
  intros A enc R [c|] [c'|] x H E O; simpl in *; try easy. apply rbind_ok in E. destruct E as (d & E & E').
  now rewrite (H c c' d eq_refl E O).
Qed.
Lemma opt_rel_none : forall A (Q : A -> A -> Prop) (a b : option A), opt_rel Q a b -> b = None -> a = None.
Proof. intros A Q [a|] [b|]; simpl; easy. Qed.
Lemma comes_back_fun : forall A path blank ref kept (c a b : A), comes_back path blank ref kept c a -> comes_back path blank ref kept c b -> a = b.
Proof. unfold comes_back. intros. intuition congruence. Qed.
(** A dataset re-encodes to the same document if its body bytes are not an empty non-nil slice and its structure and
    transform do. *)
Theorem dataset_reencode : forall d doc d', dataset_wf d -> ds_body_bytes d <> Some [] ->
  opt_all (fun s => ~ structure_unstable s) (ds_structure d) -> opt_all (fun t => ~ transform_unstable t) (ds_transform d) ->
  dataset_encode d = Ok doc -> dataset_decode doc = Ok d' -> dataset_encode d' = Ok doc.
Proof.
  intros d doc d' W HB HS HT E D. destruct (dataset_round_trip d doc W E) as (x & X & R). assert (x = d') by congruence. subst x. clear X D.
  destruct W as (W1 & W2 & W3).
  unfold dataset_encode in *. destruct R as [(P & B & ->)|(N & R)].
  { rewrite (is_bare _ _ _ (dataset_blank_spec d) P B) in E. rewrite <- E. cbn [dataset_ref ds_path]. destruct (ds_path d); [congruence|reflexivity]. }
  rewrite (not_bare _ _ _ (dataset_blank_spec d) N) in E.
  destruct R as (R1 & R2 & R3 & R4 & R5 & R6 & R7 & R8 & R9 & R10 & R11 & R12 & R13 & R14 & R15 & R16 & R17 & R18 & R19).
  assert (BB : ds_body_bytes d' = ds_body_bytes d) by (rewrite R3; destruct (ds_body_bytes d) as [[|b l]|]; [congruence|reflexivity|reflexivity]).
  rewrite (not_bare (ds_path d') _ _ (dataset_blank_spec d')).
  2:{ intros (P & B). apply N. split; [congruence|]. unfold dataset_blank in *.
      assert (B5 : ds_commit d' = None) by (rewrite B; reflexivity). assert (B7 : ds_meta d' = None) by (rewrite B; reflexivity).
      assert (B13 : ds_readme d' = None) by (rewrite B; reflexivity). assert (B16 : ds_structure d' = None) by (rewrite B; reflexivity).
      assert (B17 : ds_stats d' = None) by (rewrite B; reflexivity). assert (B18 : ds_transform d' = None) by (rewrite B; reflexivity).
      assert (B19 : ds_viz d' = None) by (rewrite B; reflexivity).
      apply (opt_rel_none _ _ _ _ R5) in B5. apply (opt_rel_none _ _ _ _ R7) in B7. apply (opt_rel_none _ _ _ _ R13) in B13. apply (opt_rel_none _ _ _ _ R16) in B16.
      apply (opt_rel_none _ _ _ _ R17) in B17. apply (opt_rel_none _ _ _ _ R18) in B18. apply (opt_rel_none _ _ _ _ R19) in B19.
      assert (B2 : ds_body d = JNull) by (rewrite <- R2, B; reflexivity). assert (B3 : ds_body_bytes d = None) by (rewrite <- BB, B; reflexivity).
      assert (B4 : ds_body_path d = []) by (rewrite <- R4, B; reflexivity). assert (B6 : ds_id d = []) by (rewrite <- R6, B; reflexivity).
      assert (B8 : ds_name d = []) by (rewrite <- R8, B; reflexivity). assert (B10 : ds_peername d = []) by (rewrite <- R10, B; reflexivity).
      assert (B11 : ds_previous d = []) by (rewrite <- R11, B; reflexivity). assert (B12 : ds_profile d = []) by (rewrite <- R12, B; reflexivity).
      clear -B2 B3 B4 B5 B6 B7 B8 B10 B11 B12 B13 B16 B17 B18 B19. destruct d. cbn in *. subst. reflexivity. }
  apply rbind_ok in E. destruct E as (cm & Ecm & E). apply rbind_ok in E. destruct E as (md & Emd & E).
  apply rbind_ok in E. destruct E as (rm & Erm & E). apply rbind_ok in E. destruct E as (st & Est & E).
  apply rbind_ok in E. destruct E as (sa & Esa & E). apply rbind_ok in E. destruct E as (tf & Etf & E).
  apply rbind_ok in E. destruct E as (vz & Evz & E).
  assert (Fcm : ptr_res commit_encode (ds_commit d') = Ok cm).
  { apply (ptr_reencode _ _ _ _ _ _) with (2 := Ecm) (3 := R5). intros c c' x _ H1 H2. destruct (commit_round_trip c x H1) as (y & Y & Z).
    rewrite (comes_back_fun _ _ _ _ _ _ _ _ H2 Z). now apply (commit_reencode c). }
  assert (Fmd : ptr_res meta_encode (ds_meta d') = Ok md).
  { apply (ptr_reencode _ _ _ _ _ _) with (2 := Emd) (3 := R7). intros c c' x Hc H1 H2. rewrite Hc in W1. destruct (meta_round_trip c x W1 H1) as (y & Y & Z).
    rewrite (comes_back_fun _ _ _ _ _ _ _ _ H2 Z). now apply (meta_reencode c). }
  assert (Frm : ptr_res (fun c => fst (readme_encode c)) (ds_readme d') = Ok rm).
  { apply (ptr_reencode _ _ _ _ _ _) with (2 := Erm) (3 := R13). intros c c' x Hc H1 H2. apply (sc_reencode _ c); [discriminate|exact H1|exact H2]. }
  assert (Fst : ptr_res structure_encode (ds_structure d') = Ok st).
  { apply (ptr_reencode _ _ _ _ _ _) with (2 := Est) (3 := R16). intros c c' x Hc H1 H2. rewrite Hc in W2, HS. destruct (structure_round_trip c x W2 H1) as (y & Y & Z).
    rewrite (comes_back_fun _ _ _ _ _ _ _ _ H2 Z). apply (structure_reencode_iff c x y W2 H1 Y). exact HS. }
  assert (Fsa : ptr_res stats_encode (ds_stats d') = Ok sa).
  { apply (ptr_reencode _ _ _ _ _ _) with (2 := Esa) (3 := R17). intros c c' x Hc H1 H2. destruct (stats_round_trip c x H1) as (y & Y & Z).
    rewrite (comes_back_fun _ _ _ _ _ _ _ _ H2 Z). now apply (stats_reencode c). }
  assert (Ftf : ptr_res transform_encode (ds_transform d') = Ok tf).
  { apply (ptr_reencode _ _ _ _ _ _) with (2 := Etf) (3 := R18). intros c c' x Hc H1 H2. rewrite Hc in W3, HT. destruct (transform_round_trip c x W3 H1) as (y & Y & Z).
    rewrite (comes_back_fun _ _ _ _ _ _ _ _ H2 Z). apply (transform_reencode_iff c x y W3 H1 Y). exact HT. }
  assert (Fvz : ptr_res (fun c => fst (viz_encode c)) (ds_viz d') = Ok vz).
  { apply (ptr_reencode _ _ _ _ _ _) with (2 := Evz) (3 := R19). intros c c' x Hc H1 H2. apply (sc_reencode _ c); [discriminate|exact H1|exact H2]. }
  rewrite Fcm, Fmd, Frm, Fst, Fsa, Ftf, Fvz. cbn [rbind]. rewrite <- E. unfold dataset_members.
  rewrite R2, BB, R4, R6, R8, R9, R10, R11, R12, R14, R15, default_idem. reflexivity.
Qed.
Print Assumptions dataset_reencode.
(** Without the condition on the body bytes it does not. *)
Theorem dataset_reencode_empty_bytes_refuted :
  ~ (forall d doc d', dataset_wf d -> dataset_encode d = Ok doc -> dataset_decode doc = Ok d' -> dataset_encode d' = Ok doc).
Proof.
  intros H. specialize (H (mkDataset None JNull (Some []) [] None [] None [] (bs "/d") [] [] [] None 0 [] None None None None) _ _
    ltac:(split; [|split]; exact I) eq_refl eq_refl). discriminate H.
Qed.
Print Assumptions dataset_reencode_empty_bytes_refuted.
Example dataset_reencode_ex :
  let d := mkDataset (Some 3%N) (JInt 1) None (bs "/b") (Some (commit_ref (bs "/c"))) [] None [] (bs "/d") [] [] [] None 2 [] None None None None in
  exists doc d', dataset_encode d = Ok doc /\ dataset_decode doc = Ok d' /\ dataset_encode d' = Ok doc /\ ds_body_file d' = None.
Proof. cbv zeta. do 2 eexists. split; [reflexivity|]. split; [reflexivity|]. split; reflexivity. Qed.

(** ** C39 *)
Lemma ascending_lt_all : forall l a, ascending (a :: l) -> Forall (fun b => bcmp a b = Lt) l.
Proof.
  induction l as [|b l IH]; intros a H; constructor; [apply H|]. destruct H as [H1 H2]. apply IH in H2.
  eapply Forall_impl; [|exact H2]. intros c Hc. eapply bcmp_lt_trans; eauto.
Qed.
Lemma ascending_cons : forall l a, Forall (fun b => bcmp a b = Lt) l -> ascending l -> ascending (a :: l).
Proof. intros [|b l] a F A; simpl; auto. inversion F; auto. Qed.
Lemma members_keys_in : forall l k, In k (map fst (members l)) -> In k (map fst l).
Proof. induction l as [|[k [d|]] l IH]; simpl; intros k0 H; auto. destruct H; auto. Qed.
Lemma members_ascending : forall l, ascending (map fst l) -> ascending (map fst (members l)).
Proof.
  induction l as [|[k o] l IH]; intros H; [exact I|]. assert (T : ascending (map fst l)) by (destruct l as [|[k1 o1] l]; [exact I|apply H]).
  specialize (IH T). destruct o as [d|]; [|exact IH]. cbn [members map fst]. apply ascending_cons; auto.
  apply ascending_lt_all in H. rewrite Forall_forall in *. intros b Hb. apply H. now apply members_keys_in.
Qed.
Lemma members_drop : forall a k b, members (a ++ (k, None) :: b) = members (a ++ b).
Proof. induction a as [|[k0 [d|]] a IH]; intros k b; simpl; auto. now rewrite IH. Qed.
Lemma sorted_ascending : forall V (m : list (bytes * V)), sorted m -> ascending (map fst m).
Proof.
  intros V m. induction m as [|[k v] m IH]; intros S; [exact I|]. destruct S as [A S]. apply ascending_cons; auto.
  rewrite Forall_forall. intros b Hb. apply in_map_iff in Hb. destruct Hb as ([k1 v1] & <- & Hb). clear -A Hb.
  induction m as [|[k2 v2] m IH]; simpl in *; [easy|]. destruct A as [A1 A2]. destruct Hb as [Hb|Hb]; [injection Hb as -> ->; auto|auto].
Qed.
(** Out of order keys make a document unordered. *)
Lemma not_ascending : forall a x y b z, bcmp x y <> Lt -> ~ ascending (a ++ x :: b ++ y :: z).
Proof.
  intros a x y b z N H. assert (H' : ascending (x :: b ++ y :: z)).
  { induction a as [|c a IH]; [exact H|]. apply IH. simpl in H. destruct (a ++ x :: b ++ y :: z) eqn:Q; [destruct a; discriminate|apply H]. }
  apply ascending_lt_all in H'. rewrite Forall_forall in H'. apply N, H'. apply in_or_app. right. now left.
Qed.

Theorem map_built_keys_ascending :
  (forall c d, meta_wf c -> meta_encode c = Ok d -> ascending (doc_keys d)) /\
  (forall c d, fst (readme_encode c) = Ok d -> ascending (doc_keys d)) /\
  (forall c d, fst (viz_encode c) = Ok d -> ascending (doc_keys d)) /\
  (forall c d, stats_encode c = Ok d -> ascending (doc_keys d)).
Proof.
  assert (SC : forall kind c d, fst (sc_encode kind c) = Ok d -> ascending (doc_keys d)).
  { intros kind c d H. rewrite sc_encode_fst in H. destruct (negb _ && _); [replace d with (JStr (sc_path c)) by congruence; exact I|].
    unfold sc_object in H. injection H as <-. cbn [doc_keys]. apply sorted_ascending.
    assert (P : forall k s m, sorted m -> sorted (put_str k s m)) by (intros k [|x s] m S; auto; now apply sorted_set).
    do 4 apply P. split; exact I. }
  split; [|split; [apply SC|split; [apply SC|]]].
  - intros c d W H. unfold meta_encode in H. destruct (negb _ && _); [replace d with (JStr (md_path c)) by congruence; exact I|].
    unfold meta_object in H. assert (E : d = JObj (put_all (meta_fields c) (meta_base c))) by (unfold meta_base; congruence). subst d.
    apply sorted_ascending, put_all_sorted. now apply meta_base_sorted.
  - intros c d H. unfold stats_encode in H. destruct (negb _ && _); [replace d with (JStr (sa_path c)) by congruence; exact I|].
    unfold stats_object in H. assert (E : d = JObj (members (stats_members c))) by congruence. subst d.
    apply members_ascending. repeat split.
Qed.
Print Assumptions map_built_keys_ascending.
Lemma members_split : forall a k d b, members (a ++ (k, Some d) :: b) = members a ++ (k, d) :: members b.
Proof. induction a as [|[k0 [x|]] a IH]; intros k d b; simpl; auto. now rewrite IH. Qed.
(** Commit objects are ordered exactly when there is no run identifier. *)
Theorem commit_keys_ascending_iff : forall c d, commit_object c = Ok d -> (ascending (doc_keys d) <-> cm_runid c = []).
Proof.
  intros c d H. unfold commit_object in H. destruct (time_encodes _); [|discriminate].
  assert (E : d = JObj (members (commit_members c))) by congruence. subst d. cbn [doc_keys]. split.
  - intros A. destruct (cm_runid c) as [|x r] eqn:R; auto. exfalso. revert A.
    change (commit_members c) with (firstn 6 (commit_members c) ++ (bs "title", Some (JStr (cm_title c))) :: [(bs "runID", oe_str (cm_runid c))]).
    rewrite R, members_split. cbn [members oe_str]. rewrite map_app. cbn [map fst]. apply (not_ascending _ (bs "title") (bs "runID") [] []). discriminate.
  - intros R. change (commit_members c) with (firstn 7 (commit_members c) ++ (bs "runID", oe_str (cm_runid c)) :: []).
    rewrite R. cbn [oe_str]. rewrite members_drop. apply members_ascending. repeat split.
Qed.
Print Assumptions commit_keys_ascending_iff.
(** Structure objects are ordered exactly when not both errCount and entries are written. *)
Theorem structure_keys_ascending_iff : forall c d, structure_object c = Ok d ->
  (ascending (doc_keys d) <-> st_err_count c = 0%Z \/ st_entries c = 0%Z).
Proof.
  intros c d H. assert (E : d = JObj (members (structure_members c))) by (unfold structure_object in H; congruence). subst d. clear H. cbn [doc_keys].
  change (structure_members c) with (firstn 4 (structure_members c) ++ (bs "errCount", oe_int (st_err_count c)) ::
    (bs "entries", oe_int (st_entries c)) :: skipn 6 (structure_members c)).
  unfold oe_int at 1 2. destruct (Z.eqb_spec (st_err_count c) 0) as [E1|E1].
  - split; [auto|intros _]. rewrite members_drop. apply members_ascending. repeat split.
  - destruct (Z.eqb_spec (st_entries c) 0) as [E2|E2].
    + split; [auto|intros _].
      change (firstn 4 (structure_members c) ++ (bs "errCount", Some (JInt (st_err_count c))) :: (bs "entries", None) :: skipn 6 (structure_members c))
        with ((firstn 4 (structure_members c) ++ [(bs "errCount", Some (JInt (st_err_count c)))]) ++ (bs "entries", None) :: skipn 6 (structure_members c)).
      rewrite members_drop. apply members_ascending. repeat split.
    + split; [|tauto]. intros A. exfalso. revert A. rewrite members_split. cbn [members]. rewrite map_app. cbn [map fst].
      apply (not_ascending _ (bs "errCount") (bs "entries") []). discriminate.
Qed.
Print Assumptions structure_keys_ascending_iff.
(** Transform objects are ordered exactly when there is no text or nothing that follows it. *)
Theorem transform_keys_ascending_iff : forall c d, transform_object c = Ok d ->
  (ascending (doc_keys d) <-> tf_text c = [] \/ (empty_or_nil (tf_steps c) /\ tf_syntax c = [] /\ tf_syntax_version c = [] /\ empty_or_nil (tf_syntaxes c))).
Proof.
  intros c d H. assert (E : d = JObj (members (transform_members c))) by (unfold transform_object in H; congruence). subst d. clear H. cbn [doc_keys].
  change (transform_members c) with (firstn 5 (transform_members c) ++ (bs "text", oe_str (tf_text c)) :: skipn 6 (transform_members c)).
  destruct (tf_text c) as [|t0 t] eqn:T.
  - split; [auto|intros _]. cbn [oe_str]. rewrite members_drop. apply members_ascending. repeat split.
  - cbn [oe_str]. rewrite members_split, map_app. cbn [map fst].
    assert (M : members (skipn 6 (transform_members c)) = [] <-> empty_or_nil (tf_steps c) /\ tf_syntax c = [] /\ tf_syntax_version c = [] /\ empty_or_nil (tf_syntaxes c)).
    { unfold transform_members. cbn [skipn members oe_mapv option_map oe_map]. unfold empty_or_nil.
      destruct (tf_steps c) as [[|x l]|], (tf_syntax c), (tf_syntax_version c), (tf_syntaxes c) as [[|y l']|]; cbn; intuition congruence. }
    rewrite <- M. split.
    + intros A. right. destruct (members (skipn 6 (transform_members c))) as [|[k v] r] eqn:Q; auto. exfalso. revert A.
      cbn [map fst]. apply (not_ascending _ (bs "text") k []).
      assert (K : In k (map fst (members (skipn 6 (transform_members c))))) by (rewrite Q; left; reflexivity).
      apply members_keys_in in K. cbn in K. destruct K as [K|[K|[K|[K|[K|[]]]]]]; subst k; discriminate.
    + intros [A|A]; [discriminate A|]. rewrite A. cbn [map].
      replace (map fst (members (firstn 5 (transform_members c))) ++ [bs "text"])
        with (map fst (members (firstn 5 (transform_members c) ++ [(bs "text", Some JNull)]))) by (rewrite members_split, map_app; reflexivity).
      apply members_ascending. repeat split.
Qed.
Print Assumptions transform_keys_ascending_iff.
Theorem dataset_keys_ascending_refuted : ~ (forall d doc, dataset_encode d = Ok doc -> ascending (doc_keys doc)).
Proof.
  intros H. specialize (H (mkDataset None JNull None [] None [] None [] [] [] [] [] None 0 [] (Some (structure_ref [])) (Some (stats_ref [])) None None) _ eq_refl).
  cbn in H. decompose [and] H. discriminate.
Qed.
Print Assumptions dataset_keys_ascending_refuted.
(** Dataset objects are ordered exactly when there is no readme, the number of versions is not written after a path,
    peername, previous path or profile, and not both structure and stats are present. *)
Theorem dataset_keys_ascending_iff : forall d o, dataset_encode d = Ok (JObj o) ->
  (ascending (map fst o) <->
   ds_readme d = None /\
   (ds_num_versions d = 0%Z \/ (ds_path d = [] /\ ds_peername d = [] /\ ds_previous d = [] /\ ds_profile d = [])) /\
   (ds_structure d = None \/ ds_stats d = None)).
Proof.
  intros d o H. unfold dataset_encode in H. destruct (negb _ && _); [discriminate|].
  apply rbind_ok in H. destruct H as (cm & _ & H). apply rbind_ok in H. destruct H as (md & _ & H).
  apply rbind_ok in H. destruct H as (rm & Erm & H). apply rbind_ok in H. destruct H as (st & Est & H).
  apply rbind_ok in H. destruct H as (sa & Esa & H). apply rbind_ok in H. destruct H as (tf & _ & H).
  apply rbind_ok in H. destruct H as (vz & _ & H).
  assert (E : o = members (dataset_members d cm md rm st sa tf vz)) by congruence. subst o. clear H.
  assert (P : forall A (enc : A -> res jdoc) o x, ptr_res enc o = Ok x -> (o = None <-> x = None)).
  { intros A enc [a|] x X; cbn in X; [apply rbind_ok in X; destruct X as (y & _ & X)|]; split; intros; congruence. }
  rewrite (P _ _ _ _ Erm), (P _ _ _ _ Est), (P _ _ _ _ Esa). clear P Erm Est Esa.
  split.
  - intros A. split; [|split].
    + destruct rm as [x|]; auto. exfalso. revert A.
      change (dataset_members d cm md (Some x) st sa tf vz) with (firstn 11 (dataset_members d cm md (Some x) st sa tf vz) ++ (bs "readme", Some x) ::
        [(bs "numVersions", oe_int (ds_num_versions d))] ++ (bs "qri", Some (JStr (default_kind (bs "ds:0") (ds_qri d)))) :: skipn 14 (dataset_members d cm md (Some x) st sa tf vz)).
      rewrite members_split, members_split, !map_app. cbn [map fst]. rewrite map_app. cbn [map fst]. apply not_ascending. discriminate.
    + destruct (Z.eq_dec (ds_num_versions d) 0) as [N|N]; auto. right.
      assert (NV : oe_int (ds_num_versions d) = Some (JInt (ds_num_versions d))) by (unfold oe_int; destruct (Z.eqb_spec (ds_num_versions d) 0); congruence).
      assert (K : forall a k s b, bcmp k (bs "numVersions") <> Lt ->
         dataset_members d cm md rm st sa tf vz = a ++ (k, oe_str s) :: b ++ (bs "numVersions", Some (JInt (ds_num_versions d))) :: skipn 13 (dataset_members d cm md rm st sa tf vz) -> s = []).
      { intros a k s b L Q. destruct s as [|x s]; auto. exfalso. revert A. rewrite Q. cbn [oe_str]. rewrite members_split, members_split, map_app.
        cbn [map fst]. rewrite map_app. cbn [map fst]. now apply not_ascending. }
      split; [|split; [|split]].
      * apply (K (firstn 7 (dataset_members d cm md rm st sa tf vz)) (bs "path") (ds_path d) (firstn 4 (skipn 8 (dataset_members d cm md rm st sa tf vz)))); [discriminate|]. rewrite <- NV. reflexivity.
      * apply (K (firstn 8 (dataset_members d cm md rm st sa tf vz)) (bs "peername") (ds_peername d) (firstn 3 (skipn 9 (dataset_members d cm md rm st sa tf vz)))); [discriminate|]. rewrite <- NV. reflexivity.
      * apply (K (firstn 9 (dataset_members d cm md rm st sa tf vz)) (bs "previousPath") (ds_previous d) (firstn 2 (skipn 10 (dataset_members d cm md rm st sa tf vz)))); [discriminate|]. rewrite <- NV. reflexivity.
      * apply (K (firstn 10 (dataset_members d cm md rm st sa tf vz)) (bs "profileID") (ds_profile d) (firstn 1 (skipn 11 (dataset_members d cm md rm st sa tf vz)))); [discriminate|]. rewrite <- NV. reflexivity.
    + destruct st as [x|]; auto. destruct sa as [y|]; auto. exfalso. revert A.
      change (dataset_members d cm md rm (Some x) (Some y) tf vz) with (firstn 14 (dataset_members d cm md rm (Some x) (Some y) tf vz) ++ (bs "structure", Some x) ::
        [] ++ (bs "stats", Some y) :: skipn 16 (dataset_members d cm md rm (Some x) (Some y) tf vz)).
      rewrite members_split, members_split, !map_app. cbn [map fst]. rewrite map_app. cbn [map fst]. apply not_ascending. discriminate.
  - intros (-> & N & C).
    set (h := firstn 7 (dataset_members d cm md None st sa tf vz)).
    set (m := firstn 4 (skipn 7 (dataset_members d cm md None st sa tf vz))).
    set (q := firstn 1 (skipn 13 (dataset_members d cm md None st sa tf vz))).
    set (z := skipn 16 (dataset_members d cm md None st sa tf vz)).
    change (dataset_members d cm md None st sa tf vz) with (h ++ m ++ (bs "readme", None) :: (bs "numVersions", oe_int (ds_num_versions d)) :: q ++
      (bs "structure", st) :: (bs "stats", sa) :: z).
    rewrite app_assoc, members_drop.
    assert (X : exists st', members ((h ++ m) ++ (bs "numVersions", oe_int (ds_num_versions d)) :: q ++ (bs "structure", st) :: (bs "stats", sa) :: z) =
      members ((h ++ m) ++ (bs "numVersions", oe_int (ds_num_versions d)) :: q ++ st' :: z) /\ (fst st' = bs "structure" \/ fst st' = bs "stats")).
    { destruct C as [-> | ->].
      - exists (bs "stats", sa). split; [|right; reflexivity].
        change ((h ++ m) ++ (bs "numVersions", oe_int (ds_num_versions d)) :: q ++ (bs "structure", None) :: (bs "stats", sa) :: z)
          with ((h ++ m) ++ ((bs "numVersions", oe_int (ds_num_versions d)) :: q) ++ (bs "structure", None) :: (bs "stats", sa) :: z).
        rewrite app_assoc, members_drop, <- app_assoc. reflexivity.
      - exists (bs "structure", st). split; [|left; reflexivity].
        change ((h ++ m) ++ (bs "numVersions", oe_int (ds_num_versions d)) :: q ++ (bs "structure", st) :: (bs "stats", None) :: z)
          with ((h ++ m) ++ (((bs "numVersions", oe_int (ds_num_versions d)) :: q) ++ [(bs "structure", st)]) ++ (bs "stats", None) :: z).
        rewrite app_assoc, members_drop, <- app_assoc, <- app_assoc. reflexivity. }
    destruct X as (st' & -> & K).
    destruct N as [N|(N1 & N2 & N3 & N4)].
    + rewrite N. cbn [oe_int Z.eqb]. rewrite members_drop. apply members_ascending.
      rewrite !map_app. cbn [map]. destruct K as [-> | ->]; repeat split.
    + assert (M : members ((h ++ m) ++ (bs "numVersions", oe_int (ds_num_versions d)) :: q ++ st' :: z) =
                  members (h ++ (bs "numVersions", oe_int (ds_num_versions d)) :: q ++ st' :: z)).
      { rewrite <- app_assoc.
        change m with [(bs "path", oe_str (ds_path d)); (bs "peername", oe_str (ds_peername d)); (bs "previousPath", oe_str (ds_previous d)); (bs "profileID", oe_str (ds_profile d))].
        rewrite N1, N2, N3, N4. cbn [oe_str app]. now rewrite !members_drop. }
      rewrite M. apply members_ascending. rewrite !map_app. cbn [map]. rewrite map_app. cbn [map]. destruct K as [-> | ->]; repeat split.
Qed.
Print Assumptions dataset_keys_ascending_iff.

(** ** C40 *)
Definition with_secrets (t : transform) (s : gomap bytes) : transform :=
  mkTransform (tf_config t) (tf_path t) (tf_qri t) (tf_resources t) (tf_script_file t) (tf_script_path t) (tf_text t) s
    (tf_steps t) (tf_syntax t) (tf_syntax_version t) (tf_syntaxes t).
Theorem secrets_not_encoded : forall t s,
  transform_object (with_secrets t s) = transform_object t /\
  ((s = None <-> tf_secrets t = None) -> transform_encode (with_secrets t s) = transform_encode t) /\
  (forall d, transform_encode t = Ok d -> ~ In (bs "secrets") (doc_keys d)) /\
  (forall d t', transform_maps_wf t -> transform_encode t = Ok d -> transform_decode d = Ok t' -> tf_secrets t' = None).
Proof.
  intros t s. split; [reflexivity|]. split; [|split].
  - intros H. unfold transform_encode.
    assert (E : transform_is_empty (with_secrets t s) = transform_is_empty t).
    { unfold transform_is_empty. cbn [with_secrets tf_config tf_resources tf_text tf_script_path tf_secrets tf_steps tf_syntax tf_syntax_version tf_syntaxes].
      destruct s, (tf_secrets t); cbn [is_nil]; try reflexivity; destruct H as [H1 H2]; [discriminate (H2 eq_refl)|discriminate (H1 eq_refl)]. }
    rewrite E. reflexivity.
  - intros d H. unfold transform_encode in H. destruct (negb _ && _).
    + replace d with (JStr (tf_path t)) by congruence. easy.
    + assert (E : d = JObj (members (transform_members t))) by (unfold transform_object in H; congruence). subst d. cbn [doc_keys].
      change (transform_members t) with (firstn 6 (transform_members t) ++ (bs "secrets", None) :: skipn 7 (transform_members t)).
      rewrite members_drop. intros I. apply members_keys_in in I. cbn in I.
      repeat (destruct I as [I|I]; [discriminate I|]). destruct I.
  - intros d t' W E D. destruct (transform_round_trip t d W E) as (x & X & R). assert (x = t') by congruence. subst x.
    destruct R as [(_ & _ & ->)|(_ & ->)]; reflexivity.
Qed.
Print Assumptions secrets_not_encoded.
(** Whether there are secrets at all does show: they keep a transform from being written as a bare path. *)
Theorem secrets_presence_hidden_refuted : ~ (forall t s, transform_encode (with_secrets t s) = transform_encode t).
Proof. intros H. specialize (H (transform_ref (bs "/t")) (Some [])). discriminate H. Qed.
Print Assumptions secrets_presence_hidden_refuted.
Example secrets_ex : let t := mkTransform None [] [] None None [] (bs "x") (Some [(bs "k", bs "hunter2")]) None [] [] None in
  transform_encode t = Ok (JObj [(bs "qri", JStr (bs "tf:0")); (bs "text", JStr (bs "x"))]).
Proof. reflexivity. Qed.

(** Encoding writes the default kind into the dataset and its readme and viz; encoding again gives the same document
    and changes nothing more. *)
Lemma sc_after : forall kind c, fst (sc_encode kind (snd (sc_encode kind c))) = fst (sc_encode kind c) /\
  snd (sc_encode kind (snd (sc_encode kind c))) = snd (sc_encode kind c).
Proof.
  intros kind c. assert (D : default_kind kind (default_kind kind (sc_qri c)) = default_kind kind (sc_qri c)) by (now destruct (sc_qri c), kind).
  unfold sc_encode. destruct (negb (bempty (sc_path c)) && sc_is_empty c) eqn:B; cbn [snd]; [rewrite B; auto|].
  change (sc_path (sc_with_qri c (default_kind kind (sc_qri c)))) with (sc_path c).
  change (sc_is_empty (sc_with_qri c (default_kind kind (sc_qri c)))) with (sc_is_empty c). rewrite B. cbn [fst snd sc_with_qri sc_qri]. rewrite D. auto.
Qed.
Theorem dataset_encode_effect : forall d,
  dataset_encode (dataset_after_encode d) = dataset_encode d /\ dataset_after_encode (dataset_after_encode d) = dataset_after_encode d.
Proof.
  intros d. destruct (negb (bempty (ds_path d)) && dataset_is_empty d) eqn:B.
  { assert (A : dataset_after_encode d = d) by (unfold dataset_after_encode; now rewrite B). now rewrite !A. }
  set (d1 := dataset_after_encode d).
  assert (A : d1 = dataset_after_encode d) by reflexivity. clearbody d1. unfold dataset_after_encode in A. rewrite B in A.
  assert (B1 : negb (bempty (ds_path d1)) && dataset_is_empty d1 = false).
  { rewrite <- B. unfold dataset_is_empty. subst d1.
    cbn [ds_path ds_body ds_body_bytes ds_body_path ds_commit ds_id ds_meta ds_name ds_peername ds_previous ds_profile ds_structure ds_transform ds_readme ds_stats ds_viz].
    destruct (ds_readme d), (ds_viz d); reflexivity. }
  assert (Q : default_kind (bs "ds:0") (default_kind (bs "ds:0") (ds_qri d)) = default_kind (bs "ds:0") (ds_qri d)) by (now destruct (ds_qri d)).
  split.
  - unfold dataset_encode. rewrite B1, B. clear B1 B. unfold dataset_members. subst d1.
    cbn [ds_path ds_body ds_body_bytes ds_body_path ds_commit ds_id ds_meta ds_name ds_peername ds_previous ds_profile ds_structure ds_transform ds_readme ds_stats ds_viz ds_qri ds_num_versions].
    rewrite Q. unfold readme_encode, viz_encode.
    assert (P : forall kind o, ptr_res (fun c => fst (sc_encode kind c)) (option_map (fun c => snd (sc_encode kind c)) o) = ptr_res (fun c => fst (sc_encode kind c)) o).
    { intros kind [c|]; cbn [option_map ptr_res]; auto. now rewrite (proj1 (sc_after kind c)). }
    now rewrite !P.
  - unfold dataset_after_encode. rewrite B1. subst d1.
    cbn [ds_body_file ds_path ds_body ds_body_bytes ds_body_path ds_commit ds_id ds_meta ds_name ds_peername ds_previous ds_profile ds_structure ds_transform ds_readme ds_stats ds_viz ds_qri ds_num_versions].
    rewrite Q. unfold readme_encode, viz_encode.
    assert (P : forall kind o, option_map (fun c => snd (sc_encode kind c)) (option_map (fun c => snd (sc_encode kind c)) o) = option_map (fun c => snd (sc_encode kind c)) o).
    { intros kind [c|]; cbn [option_map]; auto. now rewrite (proj2 (sc_after kind c)). }
    rewrite !P. reflexivity.
Qed.
Print Assumptions dataset_encode_effect.
Definition kind_filled (kind : bytes) (c c' : script_component) : Prop :=
  (sc_path c <> [] /\ sc_blank c /\ c' = c) \/
  (~ (sc_path c <> [] /\ sc_blank c) /\
   c' = mkScript (sc_format c) (sc_path c) (kind_or kind (sc_qri c)) (sc_script_file c) (sc_rendered_file c) (sc_script_path c) (sc_text c) (sc_rendered_path c)).
Theorem dataset_encode_fills_kinds : forall d, let d' := dataset_after_encode d in
  (ds_path d <> [] /\ dataset_blank d /\ d' = d) \/
  (~ (ds_path d <> [] /\ dataset_blank d) /\ ds_qri d' = kind_or (bs "ds:0") (ds_qri d) /\
   opt_rel (kind_filled (bs "rm:0")) (ds_readme d) (ds_readme d') /\ opt_rel (kind_filled (bs "vz:0")) (ds_viz d) (ds_viz d') /\
   d' = mkDataset (ds_body_file d) (ds_body d) (ds_body_bytes d) (ds_body_path d) (ds_commit d) (ds_id d) (ds_meta d) (ds_name d) (ds_path d)
     (ds_peername d) (ds_previous d) (ds_profile d) (ds_readme d') (ds_num_versions d) (ds_qri d') (ds_structure d) (ds_stats d)
     (ds_transform d) (ds_viz d')).
Proof.
  assert (K : forall kind o, opt_rel (kind_filled kind) o (option_map (fun c => snd (sc_encode kind c)) o)).
  { intros kind [c|]; [|exact I]. cbn [option_map opt_rel]. unfold kind_filled, sc_encode.
    pose proof (bare_spec (sc_path c) _ _ (sc_blank_spec c)) as S. destruct (negb (bempty (sc_path c)) && sc_is_empty c); cbn [snd].
    - left. tauto.
    - right. split; [intros X; apply S in X; discriminate X|]. unfold sc_with_qri. now rewrite default_kind_or. }
  intros d d'. subst d'. unfold dataset_after_encode. pose proof (bare_spec (ds_path d) _ _ (dataset_blank_spec d)) as S.
  destruct (negb (bempty (ds_path d)) && dataset_is_empty d); [left; tauto|]. right.
  split; [intros X; apply S in X; discriminate X|].
  cbn [ds_qri ds_readme ds_viz]. split; [apply default_kind_or|]. split; [apply K|]. split; [apply K|]. reflexivity.
Qed.
Print Assumptions dataset_encode_fills_kinds.
