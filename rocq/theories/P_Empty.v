(** C86: empty components and references, and what merging does with them. *)
From Verif Require Import Base M_Doc M_Components S_Components S_Encode L_Encode M_Encode P_Encode S_Empty.

Lemma structure_bare_spec : forall s, structure_is_empty s = true <-> structure_bare s.
Proof.
  intros [a b c d e f g h i j k l m]. unfold structure_is_empty, structure_bare; simpl. blank. split.
  - intros H; decompose [and] H; subst; reflexivity.
  - intros H; injection H; intros; subst; tauto.
Qed.

(** IsEmpty of every kind of component. *)
Theorem empty_iff :
  (forall c, commit_is_empty c = true <-> commit_blank c) /\ (forall s, stats_is_empty s = true <-> stats_blank s) /\
  (forall c, sc_is_empty c = true <-> sc_blank c) /\ (forall t, transform_is_empty t = true <-> transform_blank t) /\
  (forall s, structure_is_empty s = true <-> structure_bare s) /\ (forall m, meta_is_empty m = true <-> meta_blank m) /\
  (forall d, dataset_is_empty d = true <-> dataset_blank d).
Proof.
  auto 10 using commit_blank_spec, stats_blank_spec, sc_blank_spec, transform_blank_spec, structure_bare_spec, meta_blank_spec, dataset_blank_spec.
Qed.

(** ** Merging is empty exactly if everything merged is *)
Lemma e_str : forall m c, as_str m c = [] <-> c = [] /\ m = [].
Proof. intros [|x m] c; simpl; split; intuition congruence. Qed.
Lemma e_int : forall m c, as_int m c = 0%Z <-> c = 0%Z /\ m = 0%Z.
Proof. intros m c. unfold as_int. destruct (Z.eqb_spec m 0); split; intuition congruence. Qed.
Lemma e_bool : forall m c, as_bool m c = false <-> c = false /\ m = false.
Proof. intros [|] c; simpl; split; intuition congruence. Qed.
Lemma e_opt : forall A (m c : option A), as_opt m c = None <-> c = None /\ m = None.
Proof. intros A [m|] c; simpl; split; intuition congruence. Qed.
Lemma e_merge : forall V (m c : gomap V), as_merge m c = None <-> c = None /\ m = None.
Proof. intros V [m|] c; simpl; split; intuition congruence. Qed.
Lemma e_dyn : forall m c, as_dyn m c = JNull <-> c = JNull /\ m = JNull.
Proof. intros m c. destruct m; simpl; split; intuition congruence. Qed.
Lemma e_comp : forall A (f : A -> option A -> A) m c, as_comp f m c = None <-> c = None /\ m = None.
Proof. intros A f m [c|]; simpl; split; intuition congruence. Qed.
Lemma e_map : forall A B (f : A -> B) o, option_map f o = None <-> o = None.
Proof. intros A B f [a|]; simpl; split; congruence. Qed.

Lemma merged : forall A (f : A -> option A -> A) (e : A -> bool),
  (forall c, f c None = c) -> (forall c m, e (f c (Some m)) = true <-> e c = true /\ e m = true) ->
  forall l c, e (fold_left f l c) = true <-> e c = true /\ sources (fun m => e m = true) l.
Proof.
  intros A f e Hn Hs. induction l as [|[m|] l IH]; intros c; simpl.
  - split; [intros H; split; [assumption|intros a []]|tauto].
  - rewrite IH, Hs. unfold sources. split.
    + intros [[H1 H2] H3]. split; [assumption|]. intros a [E|E]; [injection E; intros; subst; assumption|auto].
    + intros [H1 H2]. repeat split; auto; [apply H2; now left|]. intros a E. apply H2; now right.
  - rewrite IH, Hn. unfold sources. split; intros [H1 H2]; split; auto.
    + intros a [E|E]; [discriminate|auto].
    + intros a E. apply H2; now right.
Qed.
Ltac bits := simpl; blank; rewrite ?e_str, ?e_int, ?e_bool, ?e_opt, ?e_merge, ?e_dyn, ?e_map, ?e_comp; tauto.

Theorem empty_merged :
  (forall l c, commit_is_empty (commit_assign c l) = true <-> commit_is_empty c = true /\ sources (fun m => commit_is_empty m = true) l) /\
  (forall l c, stats_is_empty (stats_assign c l) = true <-> stats_is_empty c = true /\ sources (fun m => stats_is_empty m = true) l) /\
  (forall l c, sc_is_empty (sc_assign c l) = true <-> sc_is_empty c = true /\ sources (fun m => sc_is_empty m = true) l) /\
  (forall l c, transform_is_empty (transform_assign c l) = true <-> transform_is_empty c = true /\ sources (fun m => transform_is_empty m = true) l) /\
  (forall l c, structure_is_empty (structure_assign c l) = true <-> structure_is_empty c = true /\ sources (fun m => structure_is_empty m = true) l) /\
  (forall l c, meta_is_empty (meta_assign c l) = true <-> meta_is_empty c = true /\ sources (fun m => meta_is_empty m = true) l) /\
  (forall l d, dataset_is_empty (dataset_assign d l) = true <-> dataset_is_empty d = true /\ sources (fun m => dataset_is_empty m = true) l).
Proof.
  split; [|split; [|split; [|split; [|split; [|split]]]]]; apply merged; try reflexivity; intros c m.
  - unfold commit_is_empty; bits.
  - unfold stats_is_empty; bits.
  - unfold sc_is_empty; bits.
  - unfold transform_is_empty; bits.
  - unfold structure_is_empty; bits.
  - unfold meta_is_empty; bits.
  - unfold dataset_is_empty; bits.
Qed.

(** ** Empty sources bring nothing but path and kind *)
Lemma carried : forall A (f : A -> option A -> A) (P : A -> Prop) (R : A -> A -> Prop),
  (forall c, R c c) -> (forall a b c, R a b -> R b c -> R a c) -> (forall c, f c None = c) -> (forall c m, P m -> R c (f c (Some m))) ->
  forall l c, sources P l -> R c (fold_left f l c).
Proof.
  intros A f P R Hr Ht Hn Hs. induction l as [|[m|] l IH]; intros c H; simpl; [apply Hr| |].
  - eapply Ht; [apply Hs, H; now left|]. apply IH. intros a E. apply H; now right.
  - rewrite Hn. apply IH. intros a E. apply H; now right.
Qed.
Theorem empty_sources :
  (forall l c, sources commit_blank l -> let r := commit_assign c l in
     r = mkCommit (cm_author c) (cm_message c) (cm_path r) (cm_qri r) (cm_signature c) (cm_timestamp c) (cm_title c) (cm_runid c)) /\
  (forall l c, sources stats_blank l -> let r := stats_assign c l in r = mkStats (sa_path r) (sa_qri r) (sa_stats c)) /\
  (* and an open script file *)
  (forall l c, sources sc_blank l -> let r := sc_assign c l in
     r = mkScript (sc_format c) (sc_path r) (sc_qri r) (sc_script_file r) (sc_rendered_file c) (sc_script_path c) (sc_text c) (sc_rendered_path c)) /\
  (forall l c, sources transform_blank l -> let r := transform_assign c l in
     r = mkTransform (tf_config c) (tf_path r) (tf_qri r) (tf_resources c) (tf_script_file r) (tf_script_path c) (tf_text c) (tf_secrets c)
           (tf_steps c) (tf_syntax c) (tf_syntax_version c) (tf_syntaxes c)) /\
  (forall l c, sources structure_bare l -> let r := structure_assign c l in
     r = mkStructure (st_checksum c) (st_compression c) (st_depth c) (st_encoding c) (st_err_count c) (st_entries c) (st_format c)
           (st_format_config c) (st_length c) (st_path r) (st_qri r) (st_schema c) (st_strict c)) /\
  (* and the arbitrary members *)
  (forall l c, sources meta_blank l -> let r := meta_assign c l in
     r = mkMeta (md_meta r) (md_access_url c) (md_accrual c) (md_citations c) (md_contributors c) (md_description c) (md_download_url c)
           (md_home_url c) (md_identifier c) (md_keywords c) (md_language c) (md_license c) (md_path r) (md_qri r) (md_readme_url c)
           (md_title c) (md_theme c) (md_version c)) /\
  (* and an open body file; no kind *)
  (forall l d, sources dataset_blank l -> let r := dataset_assign d l in
     r = mkDataset (ds_body_file r) (ds_body d) (ds_body_bytes d) (ds_body_path d) (ds_commit d) (ds_id d) (ds_meta d) (ds_name d)
           (ds_path r) (ds_peername d) (ds_previous d) (ds_profile d) (ds_readme d) (ds_num_versions d) (ds_qri d) (ds_structure d)
           (ds_stats d) (ds_transform d) (ds_viz d)).
Proof.
  split; [|split; [|split; [|split; [|split; [|split]]]]]; intros l c H r; subst r.
  - apply (carried _ _ commit_blank (fun c r => r = mkCommit (cm_author c) (cm_message c) (cm_path r) (cm_qri r) (cm_signature c) (cm_timestamp c) (cm_title c) (cm_runid c))); try assumption; try reflexivity.
    + now intros [].
    + intros a b d -> E. rewrite E. reflexivity.
    + intros d m ->. destruct d; reflexivity.
  - apply (carried _ _ stats_blank (fun c r => r = mkStats (sa_path r) (sa_qri r) (sa_stats c))); try assumption; try reflexivity.
    + now intros [].
    + intros a b d -> E. rewrite E. reflexivity.
    + intros d m ->. destruct d; reflexivity.
  - apply (carried _ _ sc_blank (fun c r => r = mkScript (sc_format c) (sc_path r) (sc_qri r) (sc_script_file r) (sc_rendered_file c) (sc_script_path c) (sc_text c) (sc_rendered_path c))); try assumption; try reflexivity.
    + now intros [].
    + intros a b d -> E. rewrite E. reflexivity.
    + intros d m ->. destruct d; reflexivity.
  - apply (carried _ _ transform_blank (fun c r => r = mkTransform (tf_config c) (tf_path r) (tf_qri r) (tf_resources c) (tf_script_file r) (tf_script_path c) (tf_text c) (tf_secrets c)
           (tf_steps c) (tf_syntax c) (tf_syntax_version c) (tf_syntaxes c))); try assumption; try reflexivity.
    + now intros [].
    + intros a b d -> E. rewrite E. reflexivity.
    + intros d m ->. destruct d; reflexivity.
  - apply (carried _ _ structure_bare (fun c r => r = mkStructure (st_checksum c) (st_compression c) (st_depth c) (st_encoding c) (st_err_count c) (st_entries c) (st_format c)
           (st_format_config c) (st_length c) (st_path r) (st_qri r) (st_schema c) (st_strict c))); try assumption; try reflexivity.
    + now intros [].
    + intros a b d -> E. rewrite E. reflexivity.
    + intros d m ->. destruct d; reflexivity.
  - apply (carried _ _ meta_blank (fun c r => r = mkMeta (md_meta r) (md_access_url c) (md_accrual c) (md_citations c) (md_contributors c) (md_description c) (md_download_url c)
           (md_home_url c) (md_identifier c) (md_keywords c) (md_language c) (md_license c) (md_path r) (md_qri r) (md_readme_url c)
           (md_title c) (md_theme c) (md_version c))); try assumption; try reflexivity.
    + now intros [].
    + intros a b d -> E. rewrite E. reflexivity.
    + intros d m ->. destruct d; reflexivity.
  - apply (carried _ _ dataset_blank (fun d r => r = mkDataset (ds_body_file r) (ds_body d) (ds_body_bytes d) (ds_body_path d) (ds_commit d) (ds_id d) (ds_meta d) (ds_name d)
           (ds_path r) (ds_peername d) (ds_previous d) (ds_profile d) (ds_readme d) (ds_num_versions d) (ds_qri d) (ds_structure d)
           (ds_stats d) (ds_transform d) (ds_viz d))); try assumption; try reflexivity.
    + now intros [].
    + intros a b d -> E. rewrite E. reflexivity.
    + intros [bf bo bb bp cm id md na pa pe pr pf rm nv q st sa tf vz] m ->. unfold dataset_assign1. cbn.
      destruct cm as [[]|], id, md as [[]|], rm as [[]|], st as [[]|], sa as [[]|], tf as [[]|], vz as [[]|]; reflexivity.
Qed.

(** ** References *)
(** A new reference is empty, is written as its path and is what such a text is read as. *)
Theorem ref_path : forall p, p <> [] ->
  (commit_is_empty (commit_ref p) = true /\ commit_encode (commit_ref p) = Ok (JStr p) /\ commit_decode (JStr p) = Ok (commit_ref p)) /\
  (stats_is_empty (stats_ref p) = true /\ stats_encode (stats_ref p) = Ok (JStr p) /\ stats_decode (JStr p) = Ok (stats_ref p)) /\
  (sc_is_empty (sc_ref p) = true /\ fst (readme_encode (sc_ref p)) = Ok (JStr p) /\ fst (viz_encode (sc_ref p)) = Ok (JStr p) /\ readme_decode (JStr p) = Ok (sc_ref p) /\ viz_decode (JStr p) = Ok (sc_ref p)) /\
  (transform_is_empty (transform_ref p) = true /\ transform_encode (transform_ref p) = Ok (JStr p) /\ transform_decode (JStr p) = Ok (transform_ref p)) /\
  (meta_is_empty (meta_ref p) = true /\ meta_encode (meta_ref p) = Ok (JStr p) /\ meta_decode (JStr p) = Ok (meta_ref p)) /\
  (dataset_is_empty (dataset_ref p) = true /\ dataset_encode (dataset_ref p) = Ok (JStr p) /\ dataset_decode (JStr p) = Ok (dataset_ref p)) /\
  (structure_is_empty (new_structure_ref p) = true /\ structure_encode (new_structure_ref p) = Ok (JStr p) /\
     exists s, structure_decode (JStr p) = Ok s /\ s = mkStructure [] [] 0 [] 0 0 [] None 0 p [] None false).
Proof.
  intros [|x p] H; [congruence|]. repeat split. eexists; split; reflexivity.
Qed.
(** Merging a reference into a component sets the path, and the kind of a structure. *)
Theorem ref_merged : forall p, p <> [] ->
  (forall c, commit_assign c [Some (commit_ref p)] = mkCommit (cm_author c) (cm_message c) p (cm_qri c) (cm_signature c) (cm_timestamp c) (cm_title c) (cm_runid c)) /\
  (forall c, stats_assign c [Some (stats_ref p)] = mkStats p (sa_qri c) (sa_stats c)) /\
  (forall c, sc_assign c [Some (sc_ref p)] =
     mkScript (sc_format c) p (sc_qri c) (sc_script_file c) (sc_rendered_file c) (sc_script_path c) (sc_text c) (sc_rendered_path c)) /\
  (forall c, transform_assign c [Some (transform_ref p)] =
     mkTransform (tf_config c) p (tf_qri c) (tf_resources c) (tf_script_file c) (tf_script_path c) (tf_text c) (tf_secrets c)
           (tf_steps c) (tf_syntax c) (tf_syntax_version c) (tf_syntaxes c)) /\
  (forall c, structure_assign c [Some (new_structure_ref p)] =
     mkStructure (st_checksum c) (st_compression c) (st_depth c) (st_encoding c) (st_err_count c) (st_entries c) (st_format c)
           (st_format_config c) (st_length c) p (bs "st:0") (st_schema c) (st_strict c)) /\
  (forall c, meta_assign c [Some (meta_ref p)] =
     mkMeta (md_meta c) (md_access_url c) (md_accrual c) (md_citations c) (md_contributors c) (md_description c) (md_download_url c)
           (md_home_url c) (md_identifier c) (md_keywords c) (md_language c) (md_license c) p (md_qri c) (md_readme_url c)
           (md_title c) (md_theme c) (md_version c)).
Proof. intros [|x p] H; [congruence|]. repeat split; intros []; reflexivity. Qed.

(** Metadata that is empty can still bring its arbitrary members. *)
Theorem empty_meta_brings_nothing_refuted : ~ (forall c m, meta_is_empty m = true -> md_meta (meta_assign c [Some m]) = md_meta c).
Proof.
  intros H. specialize (H (meta_ref []) (mkMeta (Some [(bs "k", JInt 1)]) [] [] None None [] [] [] [] None None None [] [] [] [] None []) eq_refl). discriminate H.
Qed.
(** A structure written as a bare path need not be empty. *)
Theorem bare_structure_empty_refuted : ~ (forall s, structure_encode s = Ok (JStr (st_path s)) -> structure_is_empty s = true).
Proof.
  intros H. specialize (H (mkStructure [] [] 0 [] 0 3 (bs "csv") None 0 (bs "/p") [] None true) eq_refl). discriminate H.
Qed.

Example empty_merged_ex :
  structure_is_empty (structure_assign (new_structure_ref (bs "/a")) [None; Some (structure_ref (bs "/b"))]) = true /\
  structure_is_empty (structure_assign (new_structure_ref (bs "/a")) [None; Some (mkStructure [] [] 0 [] 0 0 [] (Some []) 0 [] [] None false)]) = false /\
  sources dataset_blank [None; Some (dataset_ref (bs "/d"))] /\ sources meta_blank [Some (meta_ref (bs "/m"))].
Proof.
  split; [reflexivity|]. split; [reflexivity|]. split; intros a; simpl; intuition; try discriminate.
  - injection H; intros; subst; reflexivity.
  - injection H0; intros; subst; reflexivity.
Qed.

Print Assumptions empty_iff.
Print Assumptions empty_merged.
Print Assumptions empty_sources.
Print Assumptions ref_path.
Print Assumptions ref_merged.
Print Assumptions empty_meta_brings_nothing_refuted.
Print Assumptions bare_structure_empty_refuted.
