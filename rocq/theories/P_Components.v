(** C32, C33, C35, C42, C63: assigning, dropping, comparing components. *)
From Verif Require Import Base M_Doc M_Components S_Components L_Components.


(** ** C32: after Assign each field is the last set value among the sources, or the old one. *)
Theorem commit_assign_last_wins : forall (c : commit) srcs,
  last_set ptr_set (cm_author c) (map cm_author (present srcs)) (cm_author (commit_assign c srcs)) /\
  last_set str_set (cm_message c) (map cm_message (present srcs)) (cm_message (commit_assign c srcs)) /\
  last_set str_set (cm_path c) (map cm_path (present srcs)) (cm_path (commit_assign c srcs)) /\
  last_set str_set (cm_qri c) (map cm_qri (present srcs)) (cm_qri (commit_assign c srcs)) /\
  last_set str_set (cm_signature c) (map cm_signature (present srcs)) (cm_signature (commit_assign c srcs)) /\
  last_set int_set (cm_timestamp c) (map cm_timestamp (present srcs)) (cm_timestamp (commit_assign c srcs)) /\
  last_set str_set (cm_title c) (map cm_title (present srcs)) (cm_title (commit_assign c srcs)) /\
  last_set str_set (cm_runid c) (map cm_runid (present srcs)) (cm_runid (commit_assign c srcs)).
Proof.
  intros c srcs. unfold commit_assign.
  split; [apply (assign_field _ _ _ cm_author _ (ptr_set_dec _)); [reflexivity|intros; apply as_opt_spec]|].
  split; [apply (assign_field _ _ _ cm_message _ str_set_dec); [reflexivity|intros; apply as_str_spec]|].
  split; [apply (assign_field _ _ _ cm_path _ str_set_dec); [reflexivity|intros; apply as_str_spec]|].
  split; [apply (assign_field _ _ _ cm_qri _ str_set_dec); [reflexivity|intros; apply as_str_spec]|].
  split; [apply (assign_field _ _ _ cm_signature _ str_set_dec); [reflexivity|intros; apply as_str_spec]|].
  split; [apply (assign_field _ _ _ cm_timestamp _ int_set_dec); [reflexivity|intros; apply as_int_spec]|].
  split; [apply (assign_field _ _ _ cm_title _ str_set_dec); [reflexivity|intros; apply as_str_spec]|].
  apply (assign_field _ _ _ cm_runid _ str_set_dec); [reflexivity|intros; apply as_str_spec].
Qed.
Print Assumptions commit_assign_last_wins.
Theorem stats_assign_last_wins : forall (c : stats) srcs,
  last_set str_set (sa_path c) (map sa_path (present srcs)) (sa_path (stats_assign c srcs)) /\
  last_set str_set (sa_qri c) (map sa_qri (present srcs)) (sa_qri (stats_assign c srcs)) /\
  last_set dyn_set (sa_stats c) (map sa_stats (present srcs)) (sa_stats (stats_assign c srcs)).
Proof.
  intros c srcs. unfold stats_assign.
  split; [apply (assign_field _ _ _ sa_path _ str_set_dec); [reflexivity|intros; apply as_str_spec]|].
  split; [apply (assign_field _ _ _ sa_qri _ str_set_dec); [reflexivity|intros; apply as_str_spec]|].
  apply (assign_field _ _ _ sa_stats _ dyn_set_dec); [reflexivity|intros; apply as_dyn_spec].
Qed.
Print Assumptions stats_assign_last_wins.
Theorem readme_viz_assign_last_wins : forall (c : script_component) srcs,
  last_set str_set (sc_format c) (map sc_format (present srcs)) (sc_format (sc_assign c srcs)) /\
  last_set str_set (sc_path c) (map sc_path (present srcs)) (sc_path (sc_assign c srcs)) /\
  last_set str_set (sc_qri c) (map sc_qri (present srcs)) (sc_qri (sc_assign c srcs)) /\
  last_set ptr_set (sc_script_file c) (map sc_script_file (present srcs)) (sc_script_file (sc_assign c srcs)) /\
  last_set str_set (sc_script_path c) (map sc_script_path (present srcs)) (sc_script_path (sc_assign c srcs)) /\
  last_set str_set (sc_text c) (map sc_text (present srcs)) (sc_text (sc_assign c srcs)) /\
  last_set str_set (sc_rendered_path c) (map sc_rendered_path (present srcs)) (sc_rendered_path (sc_assign c srcs)) /\
  (* the rendered file of a source is never taken over *)
  sc_rendered_file (sc_assign c srcs) = sc_rendered_file c.
Proof.
  intros c srcs. unfold sc_assign.
  split; [apply (assign_field _ _ _ sc_format _ str_set_dec); [reflexivity|intros; apply as_str_spec]|].
  split; [apply (assign_field _ _ _ sc_path _ str_set_dec); [reflexivity|intros; apply as_str_spec]|].
  split; [apply (assign_field _ _ _ sc_qri _ str_set_dec); [reflexivity|intros; apply as_str_spec]|].
  split; [apply (assign_field _ _ _ sc_script_file _ (ptr_set_dec _)); [reflexivity|intros; apply as_opt_spec]|].
  split; [apply (assign_field _ _ _ sc_script_path _ str_set_dec); [reflexivity|intros; apply as_str_spec]|].
  split; [apply (assign_field _ _ _ sc_text _ str_set_dec); [reflexivity|intros; apply as_str_spec]|].
  split; [apply (assign_field _ _ _ sc_rendered_path _ str_set_dec); [reflexivity|intros; apply as_str_spec]|].
  revert c. induction srcs as [|[m|] srcs IH]; intros c; simpl; [reflexivity| |apply IH].
  now rewrite IH.
Qed.
Print Assumptions readme_viz_assign_last_wins.
Theorem structure_assign_last_wins : forall (c : structure) srcs,
  last_set str_set (st_checksum c) (map st_checksum (present srcs)) (st_checksum (structure_assign c srcs)) /\
  last_set str_set (st_compression c) (map st_compression (present srcs)) (st_compression (structure_assign c srcs)) /\
  last_set int_set (st_depth c) (map st_depth (present srcs)) (st_depth (structure_assign c srcs)) /\
  last_set str_set (st_encoding c) (map st_encoding (present srcs)) (st_encoding (structure_assign c srcs)) /\
  last_set int_set (st_err_count c) (map st_err_count (present srcs)) (st_err_count (structure_assign c srcs)) /\
  last_set int_set (st_entries c) (map st_entries (present srcs)) (st_entries (structure_assign c srcs)) /\
  last_set str_set (st_format c) (map st_format (present srcs)) (st_format (structure_assign c srcs)) /\
  last_set ptr_set (st_format_config c) (map st_format_config (present srcs)) (st_format_config (structure_assign c srcs)) /\
  last_set int_set (st_length c) (map st_length (present srcs)) (st_length (structure_assign c srcs)) /\
  last_set str_set (st_path c) (map st_path (present srcs)) (st_path (structure_assign c srcs)) /\
  last_set str_set (st_qri c) (map st_qri (present srcs)) (st_qri (structure_assign c srcs)) /\
  last_set ptr_set (st_schema c) (map st_schema (present srcs)) (st_schema (structure_assign c srcs)) /\
  last_set flag_set (st_strict c) (map st_strict (present srcs)) (st_strict (structure_assign c srcs)).
Proof.
  intros c srcs. unfold structure_assign.
  split; [apply (assign_field _ _ _ st_checksum _ str_set_dec); [reflexivity|intros; apply as_str_spec]|].
  split; [apply (assign_field _ _ _ st_compression _ str_set_dec); [reflexivity|intros; apply as_str_spec]|].
  split; [apply (assign_field _ _ _ st_depth _ int_set_dec); [reflexivity|intros; apply as_int_spec]|].
  split; [apply (assign_field _ _ _ st_encoding _ str_set_dec); [reflexivity|intros; apply as_str_spec]|].
  split; [apply (assign_field _ _ _ st_err_count _ int_set_dec); [reflexivity|intros; apply as_int_spec]|].
  split; [apply (assign_field _ _ _ st_entries _ int_set_dec); [reflexivity|intros; apply as_int_spec]|].
  split; [apply (assign_field _ _ _ st_format _ str_set_dec); [reflexivity|intros; apply as_str_spec]|].
  split; [apply (assign_field _ _ _ st_format_config _ (ptr_set_dec _)); [reflexivity|intros; apply as_opt_spec]|].
  split; [apply (assign_field _ _ _ st_length _ int_set_dec); [reflexivity|intros; apply as_int_spec]|].
  split; [apply (assign_field _ _ _ st_path _ str_set_dec); [reflexivity|intros; apply as_str_spec]|].
  split; [apply (assign_field _ _ _ st_qri _ str_set_dec); [reflexivity|intros; apply as_str_spec]|].
  split; [apply (assign_field _ _ _ st_schema _ (ptr_set_dec _)); [reflexivity|intros; apply as_opt_spec]|].
  apply (assign_field _ _ _ st_strict _ flag_set_dec); [reflexivity|intros; apply as_bool_spec].
Qed.
Print Assumptions structure_assign_last_wins.
Theorem meta_assign_last_wins : forall (c : meta) srcs,
  last_set ptr_set (md_meta c) (map md_meta (present srcs)) (md_meta (meta_assign c srcs)) /\
  last_set str_set (md_access_url c) (map md_access_url (present srcs)) (md_access_url (meta_assign c srcs)) /\
  last_set str_set (md_accrual c) (map md_accrual (present srcs)) (md_accrual (meta_assign c srcs)) /\
  last_set ptr_set (md_citations c) (map md_citations (present srcs)) (md_citations (meta_assign c srcs)) /\
  last_set ptr_set (md_contributors c) (map md_contributors (present srcs)) (md_contributors (meta_assign c srcs)) /\
  last_set str_set (md_description c) (map md_description (present srcs)) (md_description (meta_assign c srcs)) /\
  last_set str_set (md_download_url c) (map md_download_url (present srcs)) (md_download_url (meta_assign c srcs)) /\
  last_set str_set (md_home_url c) (map md_home_url (present srcs)) (md_home_url (meta_assign c srcs)) /\
  last_set str_set (md_identifier c) (map md_identifier (present srcs)) (md_identifier (meta_assign c srcs)) /\
  last_set ptr_set (md_keywords c) (map md_keywords (present srcs)) (md_keywords (meta_assign c srcs)) /\
  last_set ptr_set (md_language c) (map md_language (present srcs)) (md_language (meta_assign c srcs)) /\
  last_set ptr_set (md_license c) (map md_license (present srcs)) (md_license (meta_assign c srcs)) /\
  last_set str_set (md_path c) (map md_path (present srcs)) (md_path (meta_assign c srcs)) /\
  last_set str_set (md_qri c) (map md_qri (present srcs)) (md_qri (meta_assign c srcs)) /\
  last_set str_set (md_readme_url c) (map md_readme_url (present srcs)) (md_readme_url (meta_assign c srcs)) /\
  last_set str_set (md_title c) (map md_title (present srcs)) (md_title (meta_assign c srcs)) /\
  last_set ptr_set (md_theme c) (map md_theme (present srcs)) (md_theme (meta_assign c srcs)) /\
  last_set str_set (md_version c) (map md_version (present srcs)) (md_version (meta_assign c srcs)).
Proof.
  intros c srcs. unfold meta_assign.
  split; [apply (assign_field _ _ _ md_meta _ (ptr_set_dec _)); [reflexivity|intros; apply as_opt_spec]|].
  split; [apply (assign_field _ _ _ md_access_url _ str_set_dec); [reflexivity|intros; apply as_str_spec]|].
  split; [apply (assign_field _ _ _ md_accrual _ str_set_dec); [reflexivity|intros; apply as_str_spec]|].
  split; [apply (assign_field _ _ _ md_citations _ (ptr_set_dec _)); [reflexivity|intros; apply as_opt_spec]|].
  split; [apply (assign_field _ _ _ md_contributors _ (ptr_set_dec _)); [reflexivity|intros; apply as_opt_spec]|].
  split; [apply (assign_field _ _ _ md_description _ str_set_dec); [reflexivity|intros; apply as_str_spec]|].
  split; [apply (assign_field _ _ _ md_download_url _ str_set_dec); [reflexivity|intros; apply as_str_spec]|].
  split; [apply (assign_field _ _ _ md_home_url _ str_set_dec); [reflexivity|intros; apply as_str_spec]|].
  split; [apply (assign_field _ _ _ md_identifier _ str_set_dec); [reflexivity|intros; apply as_str_spec]|].
  split; [apply (assign_field _ _ _ md_keywords _ (ptr_set_dec _)); [reflexivity|intros; apply as_opt_spec]|].
  split; [apply (assign_field _ _ _ md_language _ (ptr_set_dec _)); [reflexivity|intros; apply as_opt_spec]|].
  split; [apply (assign_field _ _ _ md_license _ (ptr_set_dec _)); [reflexivity|intros; apply as_opt_spec]|].
  split; [apply (assign_field _ _ _ md_path _ str_set_dec); [reflexivity|intros; apply as_str_spec]|].
  split; [apply (assign_field _ _ _ md_qri _ str_set_dec); [reflexivity|intros; apply as_str_spec]|].
  split; [apply (assign_field _ _ _ md_readme_url _ str_set_dec); [reflexivity|intros; apply as_str_spec]|].
  split; [apply (assign_field _ _ _ md_title _ str_set_dec); [reflexivity|intros; apply as_str_spec]|].
  split; [apply (assign_field _ _ _ md_theme _ (ptr_set_dec _)); [reflexivity|intros; apply as_opt_spec]|].
  apply (assign_field _ _ _ md_version _ str_set_dec); [reflexivity|intros; apply as_str_spec].
Qed.
Print Assumptions meta_assign_last_wins.
Example commit_assign_ex : let a := commit_ref (bs "a") in
  let b := mkCommit None (bs "m") (bs "b") [] [] 5 [] [] in let c := mkCommit None (bs "n") [] [] [] 0 [] [] in
  commit_assign a [Some b; None; Some c] = mkCommit None (bs "n") (bs "b") [] [] 5 [] [].
Proof. reflexivity. Qed.
Example structure_assign_ex : structure_assign (structure_ref (bs "p")) [Some (mkStructure [] [] 2 [] 0 0 (bs "csv") None 7 [] [] None true); Some (mkStructure [] [] 0 [] 0 0 (bs "json") None 0 [] [] (Some []) false)]
  = mkStructure [] [] 2 [] 0 0 (bs "json") None 7 (bs "p") [] (Some []) true.
Proof. reflexivity. Qed.

Definition transform_wf (t : transform) : Prop :=
  gomap_wf (tf_config t) /\ gomap_wf (tf_resources t) /\ gomap_wf (tf_secrets t) /\ gomap_wf (tf_syntaxes t).

(** Transform: config, resources and secrets are merged key by key, the other fields replaced. *)
Theorem transform_assign_last_wins : forall (c : transform) srcs,
  last_set str_set (tf_path c) (map tf_path (present srcs)) (tf_path (transform_assign c srcs)) /\
  last_set str_set (tf_qri c) (map tf_qri (present srcs)) (tf_qri (transform_assign c srcs)) /\
  last_set ptr_set (tf_script_file c) (map tf_script_file (present srcs)) (tf_script_file (transform_assign c srcs)) /\
  last_set str_set (tf_script_path c) (map tf_script_path (present srcs)) (tf_script_path (transform_assign c srcs)) /\
  last_set str_set (tf_text c) (map tf_text (present srcs)) (tf_text (transform_assign c srcs)) /\
  last_set ptr_set (tf_steps c) (map tf_steps (present srcs)) (tf_steps (transform_assign c srcs)) /\
  last_set str_set (tf_syntax c) (map tf_syntax (present srcs)) (tf_syntax (transform_assign c srcs)) /\
  last_set str_set (tf_syntax_version c) (map tf_syntax_version (present srcs)) (tf_syntax_version (transform_assign c srcs)) /\
  last_set ptr_set (tf_syntaxes c) (map tf_syntaxes (present srcs)) (tf_syntaxes (transform_assign c srcs)).
Proof.
  intros c srcs. unfold transform_assign.
  split; [apply (assign_field _ _ _ tf_path _ str_set_dec); [reflexivity|intros; apply as_str_spec]|].
  split; [apply (assign_field _ _ _ tf_qri _ str_set_dec); [reflexivity|intros; apply as_str_spec]|].
  split; [apply (assign_field _ _ _ tf_script_file _ (ptr_set_dec _)); [reflexivity|intros; apply as_opt_spec]|].
  split; [apply (assign_field _ _ _ tf_script_path _ str_set_dec); [reflexivity|intros; apply as_str_spec]|].
  split; [apply (assign_field _ _ _ tf_text _ str_set_dec); [reflexivity|intros; apply as_str_spec]|].
  split; [apply (assign_field _ _ _ tf_steps _ (ptr_set_dec _)); [reflexivity|intros; apply as_opt_spec]|].
  split; [apply (assign_field _ _ _ tf_syntax _ str_set_dec); [reflexivity|intros; apply as_str_spec]|].
  split; [apply (assign_field _ _ _ tf_syntax_version _ str_set_dec); [reflexivity|intros; apply as_str_spec]|].
  apply (assign_field _ _ _ tf_syntaxes _ (ptr_set_dec _)); [reflexivity|intros; apply as_opt_spec].
Qed.
Print Assumptions transform_assign_last_wins.

Theorem transform_assign_merges : forall (c : transform) srcs k, Forall transform_wf (present srcs) ->
  last_set ptr_set (gomap_get k (tf_config c)) (map (fun t => gomap_get k (tf_config t)) (present srcs)) (gomap_get k (tf_config (transform_assign c srcs))) /\
  (tf_config (transform_assign c srcs) = None <-> tf_config c = None /\ Forall (fun t => tf_config t = None) (present srcs)) /\
  last_set ptr_set (gomap_get k (tf_resources c)) (map (fun t => gomap_get k (tf_resources t)) (present srcs)) (gomap_get k (tf_resources (transform_assign c srcs))) /\
  (tf_resources (transform_assign c srcs) = None <-> tf_resources c = None /\ Forall (fun t => tf_resources t = None) (present srcs)) /\
  last_set ptr_set (gomap_get k (tf_secrets c)) (map (fun t => gomap_get k (tf_secrets t)) (present srcs)) (gomap_get k (tf_secrets (transform_assign c srcs))) /\
  (tf_secrets (transform_assign c srcs) = None <-> tf_secrets c = None /\ Forall (fun t => tf_secrets t = None) (present srcs)).
Proof.
  intros c srcs k H. unfold transform_assign.
  assert (N : forall V (f : transform -> gomap V), (forall t m, f (transform_assign1 t (Some m)) = as_merge (f m) (f t)) ->
     forall ss c, f (fold_left transform_assign1 ss c) = None <-> f c = None /\ Forall (fun t => f t = None) (present ss)).
  { intros V f Hf. induction ss as [|[m|] ss IH]; intros c0; [simpl; intuition| |apply IH].
    change (present (Some m :: ss)) with (m :: present ss). cbn [fold_left]. rewrite IH, Hf, as_merge_nil. split.
    - intros [[A B] F]. auto. - intros [A F]. inversion F; subst. auto. }
  split.
  { apply (assign_field_inv _ _ _ (fun t => gomap_get k (tf_config t)) _ transform_wf (ptr_set_dec _)); auto.
    intros t m Hm. simpl. rewrite as_merge_get by apply Hm. apply as_opt_spec. }
  split; [now apply N|].
  split.
  { apply (assign_field_inv _ _ _ (fun t => gomap_get k (tf_resources t)) _ transform_wf (ptr_set_dec _)); auto.
    intros t m Hm. simpl. rewrite as_merge_get by apply Hm. apply as_opt_spec. }
  split; [now apply N|].
  split.
  { apply (assign_field_inv _ _ _ (fun t => gomap_get k (tf_secrets t)) _ transform_wf (ptr_set_dec _)); auto.
    intros t m Hm. simpl. rewrite as_merge_get by apply Hm. apply as_opt_spec. }
  now apply N.
Qed.
Print Assumptions transform_assign_merges.
Example transform_assign_merges_ex :
  let a := mkTransform (Some [(bs "x", JInt 1); (bs "y", JInt 2)]) [] [] None None [] [] None None [] [] None in
  let b := mkTransform (Some [(bs "y", JInt 3)]) [] [] None None [] [] None None [] [] None in
  Forall transform_wf (present [Some a; Some b]) /\
  tf_config (transform_assign (transform_ref []) [Some a; Some b]) = Some [(bs "x", JInt 1); (bs "y", JInt 3)].
Proof. split; [repeat constructor|reflexivity]. Qed.

(** Assigning a component to itself changes nothing. *)
Theorem assign_self : (forall c, commit_assign c [Some c] = c) /\ (forall c, stats_assign c [Some c] = c) /\
  (forall c, sc_assign c [Some c] = c) /\ (forall c, structure_assign c [Some c] = c) /\
  (forall c, meta_assign c [Some c] = c) /\ (forall c, transform_wf c -> transform_assign c [Some c] = c).
Proof.
  split; [|split; [|split; [|split; [|split]]]].
  - intros []; cbn. now rewrite !as_str_self, as_int_self, as_opt_self.
  - intros []; cbn. now rewrite !as_str_self, as_dyn_self.
  - intros []; cbn. now rewrite !as_str_self, as_opt_self.
  - intros []; cbn. now rewrite !as_str_self, !as_int_self, !as_opt_self, as_bool_self.
  - intros []; cbn. now rewrite !as_str_self, !as_opt_self.
  - intros [] (H1 & H2 & H3 & H4); cbn in *. now rewrite !as_str_self, !as_opt_self, !as_merge_self.
Qed.
Print Assumptions assign_self.

(** Assigning nothing, or only nil components, changes nothing. *)
Theorem assign_nothing : forall n, (forall c, commit_assign c (repeat None n) = c) /\ (forall c, stats_assign c (repeat None n) = c) /\
  (forall c, sc_assign c (repeat None n) = c) /\ (forall c, structure_assign c (repeat None n) = c) /\
  (forall c, meta_assign c (repeat None n) = c) /\ (forall c, transform_assign c (repeat None n) = c) /\
  (forall c, dataset_assign c (repeat None n) = c).
Proof.
  intros n. repeat split; intros c; induction n as [|n IH]; auto.
Qed.
Print Assumptions assign_nothing.

(** Assigning two lists of sources one after the other is assigning their concatenation. *)
Theorem assign_composes :
  (forall c l1 l2, commit_assign c (l1 ++ l2) = commit_assign (commit_assign c l1) l2) /\
  (forall c l1 l2, stats_assign c (l1 ++ l2) = stats_assign (stats_assign c l1) l2) /\
  (forall c l1 l2, sc_assign c (l1 ++ l2) = sc_assign (sc_assign c l1) l2) /\
  (forall c l1 l2, structure_assign c (l1 ++ l2) = structure_assign (structure_assign c l1) l2) /\
  (forall c l1 l2, meta_assign c (l1 ++ l2) = meta_assign (meta_assign c l1) l2) /\
  (forall c l1 l2, transform_assign c (l1 ++ l2) = transform_assign (transform_assign c l1) l2) /\
  (forall c l1 l2, dataset_assign c (l1 ++ l2) = dataset_assign (dataset_assign c l1) l2).
Proof. repeat split; intros; apply fold_left_app. Qed.
Print Assumptions assign_composes.

(** ** C33 *)
Theorem dataset_assign_components : forall d ss,
  ds_commit (dataset_assign d ss) = collapse commit_assign (ds_commit d :: map ds_commit (present ss)) /\
  ds_meta (dataset_assign d ss) = collapse meta_assign (ds_meta d :: map ds_meta (present ss)) /\
  ds_readme (dataset_assign d ss) = collapse sc_assign (ds_readme d :: map ds_readme (present ss)) /\
  ds_structure (dataset_assign d ss) = collapse structure_assign (ds_structure d :: map ds_structure (present ss)) /\
  ds_stats (dataset_assign d ss) = collapse stats_assign (ds_stats d :: map ds_stats (present ss)) /\
  ds_transform (dataset_assign d ss) = collapse transform_assign (ds_transform d :: map ds_transform (present ss)) /\
  ds_viz (dataset_assign d ss) = collapse sc_assign (ds_viz d :: map ds_viz (present ss)).
Proof.
  intros d ss. unfold dataset_assign.
  split; [|split; [|split; [|split; [|split; [|split]]]]].
  - apply (collapse_assign _ _ ds_commit commit_assign1 dataset_assign1); auto.
    intros d0 s. simpl. destruct (ds_commit d0) as [c|]; simpl.
    + now rewrite commit_assign1_twice.
    + destruct (ds_commit s) as [m|]; simpl; auto. f_equal. apply (proj1 assign_self m).
  - apply (collapse_assign _ _ ds_meta meta_assign1 dataset_assign1); auto.
  - apply (collapse_assign _ _ ds_readme sc_assign1 dataset_assign1); auto.
  - apply (collapse_assign _ _ ds_structure structure_assign1 dataset_assign1); auto.
  - apply (collapse_assign _ _ ds_stats stats_assign1 dataset_assign1); auto.
  - apply (collapse_assign _ _ ds_transform transform_assign1 dataset_assign1); auto.
  - apply (collapse_assign _ _ ds_viz sc_assign1 dataset_assign1); auto.
Qed.
Print Assumptions dataset_assign_components.
Theorem dataset_assign_scalars : forall (c : dataset) srcs,
  last_set ptr_set (ds_body_file c) (map ds_body_file (present srcs)) (ds_body_file (dataset_assign c srcs)) /\
  last_set dyn_set (ds_body c) (map ds_body (present srcs)) (ds_body (dataset_assign c srcs)) /\
  last_set ptr_set (ds_body_bytes c) (map ds_body_bytes (present srcs)) (ds_body_bytes (dataset_assign c srcs)) /\
  last_set str_set (ds_body_path c) (map ds_body_path (present srcs)) (ds_body_path (dataset_assign c srcs)) /\
  last_set str_set (ds_name c) (map ds_name (present srcs)) (ds_name (dataset_assign c srcs)) /\
  last_set str_set (ds_path c) (map ds_path (present srcs)) (ds_path (dataset_assign c srcs)) /\
  last_set str_set (ds_peername c) (map ds_peername (present srcs)) (ds_peername (dataset_assign c srcs)) /\
  last_set str_set (ds_previous c) (map ds_previous (present srcs)) (ds_previous (dataset_assign c srcs)) /\
  last_set str_set (ds_profile c) (map ds_profile (present srcs)) (ds_profile (dataset_assign c srcs)) /\
  (* the identifier is kept, or taken from the first source that has one *)
  first_set str_set (ds_id c) (map ds_id (present srcs)) (ds_id (dataset_assign c srcs)) /\
  (* never assigned *)
  ds_num_versions (dataset_assign c srcs) = ds_num_versions c /\ ds_qri (dataset_assign c srcs) = ds_qri c.
Proof.
  intros c srcs. unfold dataset_assign.
  split; [apply (assign_field _ _ _ ds_body_file _ (ptr_set_dec _)); [reflexivity|intros; apply as_opt_spec]|].
  split; [apply (assign_field _ _ _ ds_body _ dyn_set_dec); [reflexivity|intros; apply as_dyn_spec]|].
  split; [apply (assign_field _ _ _ ds_body_bytes _ (ptr_set_dec _)); [reflexivity|intros; apply as_opt_spec]|].
  split; [apply (assign_field _ _ _ ds_body_path _ str_set_dec); [reflexivity|intros; apply as_str_spec]|].
  split; [apply (assign_field _ _ _ ds_name _ str_set_dec); [reflexivity|intros; apply as_str_spec]|].
  split; [apply (assign_field _ _ _ ds_path _ str_set_dec); [reflexivity|intros; apply as_str_spec]|].
  split; [apply (assign_field _ _ _ ds_peername _ str_set_dec); [reflexivity|intros; apply as_str_spec]|].
  split; [apply (assign_field _ _ _ ds_previous _ str_set_dec); [reflexivity|intros; apply as_str_spec]|].
  split; [apply (assign_field _ _ _ ds_profile _ str_set_dec); [reflexivity|intros; apply as_str_spec]|].
  split; [|split].
  - apply (first_set_step _ _ ds_id str_set dataset_assign1 str_set_dec); auto.
    intros d s. unfold str_set. simpl. destruct (ds_id d); simpl; [right|left; split; congruence].
    destruct (ds_id s); [right|left]; repeat split; congruence.
  - revert c. induction srcs as [|[m|] srcs IH]; intros c; simpl; [reflexivity| |apply IH]. now rewrite IH.
  - revert c. induction srcs as [|[m|] srcs IH]; intros c; simpl; [reflexivity| |apply IH]. now rewrite IH.
Qed.
Print Assumptions dataset_assign_scalars.
Example dataset_assign_components_ex :
  let d1 := mkDataset None JNull None [] (Some (commit_ref (bs "c1"))) (bs "one") None [] [] [] [] [] None 0 [] None None None None in
  let d2 := mkDataset None JNull None [] (Some (mkCommit None (bs "m") [] [] [] 0 [] [])) (bs "two") None [] [] [] [] [] None 3 (bs "q") None None None None in
  let r := dataset_assign (dataset_ref []) [Some d1; None; Some d2] in
  ds_commit r = Some (mkCommit None (bs "m") (bs "c1") [] [] 0 [] []) /\ ds_id r = bs "one" /\ ds_num_versions r = 0%Z /\ ds_qri r = [].
Proof. repeat split. Qed.

(** ** C35.  [agree_except]: two components agree on all fields but the listed ones, which are reset in the first. *)
Theorem drop_transient_fields :
  (forall c, let d := commit_drop_transient c in
     cm_author d = cm_author c /\ cm_message d = cm_message c /\ cm_path d = [] /\ cm_qri d = cm_qri c /\ cm_signature d = cm_signature c /\ cm_timestamp d = cm_timestamp c /\ cm_title d = cm_title c /\ cm_runid d = cm_runid c) /\
  (forall c, let d := sc_drop_transient c in
     sc_format d = sc_format c /\ sc_path d = [] /\ sc_qri d = sc_qri c /\ sc_script_file d = sc_script_file c /\ sc_rendered_file d = sc_rendered_file c /\ sc_script_path d = sc_script_path c /\ sc_text d = [] /\ sc_rendered_path d = sc_rendered_path c) /\
  (forall c, let d := transform_drop_transient c in
     tf_config d = tf_config c /\ tf_path d = [] /\ tf_qri d = tf_qri c /\ tf_resources d = tf_resources c /\ tf_script_file d = tf_script_file c /\ tf_script_path d = tf_script_path c /\ tf_text d = [] /\ tf_secrets d = None /\ tf_steps d = tf_steps c /\ tf_syntax d = tf_syntax c /\ tf_syntax_version d = tf_syntax_version c /\ tf_syntaxes d = tf_syntaxes c) /\
  (forall c, let d := structure_drop_transient c in
     st_checksum d = st_checksum c /\ st_compression d = st_compression c /\ st_depth d = st_depth c /\ st_encoding d = st_encoding c /\ st_err_count d = st_err_count c /\ st_entries d = st_entries c /\ st_format d = st_format c /\ st_format_config d = st_format_config c /\ st_length d = st_length c /\ st_path d = [] /\ st_qri d = st_qri c /\ st_schema d = st_schema c /\ st_strict d = st_strict c) /\
  (forall c, let d := meta_drop_transient c in
     md_meta d = md_meta c /\ md_access_url d = md_access_url c /\ md_accrual d = md_accrual c /\ md_citations d = md_citations c /\ md_contributors d = md_contributors c /\ md_description d = md_description c /\ md_download_url d = md_download_url c /\ md_home_url d = md_home_url c /\ md_identifier d = md_identifier c /\ md_keywords d = md_keywords c /\ md_language d = md_language c /\ md_license d = md_license c /\ md_path d = [] /\ md_qri d = md_qri c /\ md_readme_url d = md_readme_url c /\ md_title d = md_title c /\ md_theme d = md_theme c /\ md_version d = md_version c) /\
  (forall c, let d := dataset_drop_transient c in
     ds_body_file d = ds_body_file c /\ ds_body d = JNull /\ ds_body_bytes d = None /\ ds_body_path d = ds_body_path c /\ ds_commit d = ds_commit c /\ ds_id d = ds_id c /\ ds_meta d = ds_meta c /\ ds_name d = [] /\ ds_path d = [] /\ ds_peername d = [] /\ ds_previous d = ds_previous c /\ ds_profile d = [] /\ ds_readme d = ds_readme c /\ ds_num_versions d = 0%Z /\ ds_qri d = ds_qri c /\ ds_structure d = ds_structure c /\ ds_stats d = ds_stats c /\ ds_transform d = ds_transform c /\ ds_viz d = ds_viz c).
Proof. repeat split. Qed.
Print Assumptions drop_transient_fields.
Theorem drop_derived_fields :
  (forall c, let d := commit_drop_derived c in
     cm_author d = cm_author c /\ cm_message d = cm_message c /\ cm_path d = [] /\ cm_qri d = [] /\ cm_signature d = cm_signature c /\ cm_timestamp d = cm_timestamp c /\ cm_title d = cm_title c /\ cm_runid d = cm_runid c) /\
  (forall c, let d := stats_drop_derived c in
     sa_path d = [] /\ sa_qri d = [] /\ sa_stats d = sa_stats c) /\
  (forall c, let d := sc_drop_derived c in
     sc_format d = sc_format c /\ sc_path d = [] /\ sc_qri d = [] /\ sc_script_file d = sc_script_file c /\ sc_rendered_file d = sc_rendered_file c /\ sc_script_path d = sc_script_path c /\ sc_text d = sc_text c /\ sc_rendered_path d = sc_rendered_path c) /\
  (forall c, let d := transform_drop_derived c in
     tf_config d = tf_config c /\ tf_path d = [] /\ tf_qri d = [] /\ tf_resources d = tf_resources c /\ tf_script_file d = tf_script_file c /\ tf_script_path d = tf_script_path c /\ tf_text d = tf_text c /\ tf_secrets d = tf_secrets c /\ tf_steps d = tf_steps c /\ tf_syntax d = tf_syntax c /\ tf_syntax_version d = tf_syntax_version c /\ tf_syntaxes d = tf_syntaxes c) /\
  (forall c, let d := structure_drop_derived c in
     st_checksum d = [] /\ st_compression d = st_compression c /\ st_depth d = 0%Z /\ st_encoding d = st_encoding c /\ st_err_count d = 0%Z /\ st_entries d = 0%Z /\ st_format d = st_format c /\ st_format_config d = st_format_config c /\ st_length d = 0%Z /\ st_path d = [] /\ st_qri d = [] /\ st_schema d = st_schema c /\ st_strict d = st_strict c) /\
  (forall c, let d := meta_drop_derived c in
     md_meta d = md_meta c /\ md_access_url d = md_access_url c /\ md_accrual d = md_accrual c /\ md_citations d = md_citations c /\ md_contributors d = md_contributors c /\ md_description d = md_description c /\ md_download_url d = md_download_url c /\ md_home_url d = md_home_url c /\ md_identifier d = md_identifier c /\ md_keywords d = md_keywords c /\ md_language d = md_language c /\ md_license d = md_license c /\ md_path d = [] /\ md_qri d = [] /\ md_readme_url d = md_readme_url c /\ md_title d = md_title c /\ md_theme d = md_theme c /\ md_version d = md_version c) /\
  (forall c, let d := dataset_drop_derived c in
     ds_body_file d = ds_body_file c /\ ds_body d = ds_body c /\ ds_body_bytes d = ds_body_bytes c /\ ds_body_path d = ds_body_path c /\ ds_commit d = option_map commit_drop_derived (ds_commit c) /\ ds_id d = ds_id c /\ ds_meta d = option_map meta_drop_derived (ds_meta c) /\ ds_name d = ds_name c /\ ds_path d = [] /\ ds_peername d = ds_peername c /\ ds_previous d = ds_previous c /\ ds_profile d = ds_profile c /\ ds_readme d = option_map sc_drop_derived (ds_readme c) /\ ds_num_versions d = ds_num_versions c /\ ds_qri d = [] /\ ds_structure d = option_map structure_drop_derived (ds_structure c) /\ ds_stats d = option_map stats_drop_derived (ds_stats c) /\ ds_transform d = option_map transform_drop_derived (ds_transform c) /\ ds_viz d = option_map sc_drop_derived (ds_viz c)).
Proof. repeat split. Qed.
Print Assumptions drop_derived_fields.

Theorem drop_idempotent_and_commute :
  (forall c, commit_drop_transient (commit_drop_transient c) = commit_drop_transient c /\
             commit_drop_derived (commit_drop_derived c) = commit_drop_derived c /\
             commit_drop_transient (commit_drop_derived c) = commit_drop_derived (commit_drop_transient c)) /\
  (forall c, sc_drop_transient (sc_drop_transient c) = sc_drop_transient c /\
             sc_drop_derived (sc_drop_derived c) = sc_drop_derived c /\
             sc_drop_transient (sc_drop_derived c) = sc_drop_derived (sc_drop_transient c)) /\
  (forall c, transform_drop_transient (transform_drop_transient c) = transform_drop_transient c /\
             transform_drop_derived (transform_drop_derived c) = transform_drop_derived c /\
             transform_drop_transient (transform_drop_derived c) = transform_drop_derived (transform_drop_transient c)) /\
  (forall c, structure_drop_transient (structure_drop_transient c) = structure_drop_transient c /\
             structure_drop_derived (structure_drop_derived c) = structure_drop_derived c /\
             structure_drop_transient (structure_drop_derived c) = structure_drop_derived (structure_drop_transient c)) /\
  (forall c, meta_drop_transient (meta_drop_transient c) = meta_drop_transient c /\
             meta_drop_derived (meta_drop_derived c) = meta_drop_derived c /\
             meta_drop_transient (meta_drop_derived c) = meta_drop_derived (meta_drop_transient c)) /\
  (forall c, dataset_drop_transient (dataset_drop_transient c) = dataset_drop_transient c /\
             dataset_drop_derived (dataset_drop_derived c) = dataset_drop_derived c /\
             dataset_drop_transient (dataset_drop_derived c) = dataset_drop_derived (dataset_drop_transient c)).
Proof.
  assert (I : forall A (f : A -> A), (forall a, f (f a) = f a) -> forall o, option_map f (option_map f o) = option_map f o).
  { intros A f H [a|]; simpl; [now rewrite H|reflexivity]. }
  split; [|split; [|split; [|split; [|split]]]].
  - intros c. repeat split. - intros c. repeat split. - intros c. repeat split.
  - intros c. repeat split. - intros c. repeat split.
  - intros c. split; [reflexivity|split; [|reflexivity]]. unfold dataset_drop_derived.
    cbn [ds_body_file ds_body ds_body_bytes ds_body_path ds_commit ds_id ds_meta ds_name ds_path ds_peername ds_previous
         ds_profile ds_readme ds_num_versions ds_qri ds_structure ds_stats ds_transform ds_viz].
    now rewrite !I by reflexivity.
Qed.
Print Assumptions drop_idempotent_and_commute.

(** Dropping never makes a non-empty structure's definition empty: format, schema, encoding, strictness survive both. *)
Theorem structure_drop_keeps_definition : forall s, let d := structure_drop_derived (structure_drop_transient s) in
  structure_abstract d = structure_abstract s /\ st_schema d = st_schema s /\ st_compression d = st_compression s.
Proof. intros s. repeat split. Qed.
Print Assumptions structure_drop_keeps_definition.

(** ** C42 *)
Lemma put_path_get : forall ignore name p m k, map_get k (put_path ignore name p m) =
  as_opt (if beqb k name && negb (existsb (beqb k) ignore) then p else None) (map_get k m).
Proof.
  intros. unfold put_path. destruct (beqb_spec k name).
  - subst. destruct p; destruct (existsb (beqb name) ignore); auto. apply map_get_set_eq.
  - destruct p; auto. destruct (existsb (beqb name) ignore); auto. now apply map_get_set_neq.
Qed.
Theorem path_map_exact : forall d ignore k,
  map_get k (path_map (Some d) ignore) = if existsb (beqb k) ignore then None else component_path d k.
Proof.
  intros d ignore k. unfold path_map, component_path. cbv zeta. rewrite !put_path_get.
  destruct (beqb_spec k (bs "body")) as [->|_]; [now destruct (existsb (beqb (bs "body")) ignore), (ds_body_path d)|].
  destruct (beqb_spec k (bs "dataset")) as [->|_]; [now destruct (existsb (beqb (bs "dataset")) ignore), (ds_path d)|].
  destruct (beqb_spec k (bs "commit")) as [->|_]; [now destruct (existsb (beqb (bs "commit")) ignore), (ds_commit d)|].
  destruct (beqb_spec k (bs "meta")) as [->|_]; [now destruct (existsb (beqb (bs "meta")) ignore), (ds_meta d)|].
  destruct (beqb_spec k (bs "readme")) as [->|_]; [now destruct (existsb (beqb (bs "readme")) ignore), (ds_readme d)|].
  destruct (beqb_spec k (bs "stats")) as [->|_]; [now destruct (existsb (beqb (bs "stats")) ignore), (ds_stats d)|].
  destruct (beqb_spec k (bs "structure")) as [->|_]; [now destruct (existsb (beqb (bs "structure")) ignore), (ds_structure d)|].
  destruct (beqb_spec k (bs "transform")) as [->|_]; [now destruct (existsb (beqb (bs "transform")) ignore), (ds_transform d)|].
  destruct (beqb_spec k (bs "viz")) as [->|_]; [now destruct (existsb (beqb (bs "viz")) ignore), (ds_viz d)|].
  now destruct (existsb (beqb k) ignore).
Qed.
Print Assumptions path_map_exact.
Theorem path_map_nil : forall ignore, path_map None ignore = [].
Proof. reflexivity. Qed.
Print Assumptions path_map_nil.
Example path_map_exact_ex :
  path_map (Some (mkDataset None JNull None (bs "b") (Some (commit_ref (bs "c"))) [] None [] [] [] [] [] None 0 [] None (Some (stats_ref [])) None None)) [bs "commit"]
  = [(bs "body", bs "b"); (bs "stats", [])].
Proof. reflexivity. Qed.

(** ** C63 *)
Theorem readme_viz_shallow_compare : forall a b, sc_shallow_compare a b = true <-> opt_same sc_same a b.
Proof.
  intros [a|] [b|]; simpl; try (split; [discriminate|tauto]); [|tauto].
  unfold sc_same. rewrite !andb_true_iff, !beqb_eq. tauto.
Qed.
Print Assumptions readme_viz_shallow_compare.
Theorem transform_shallow_compare_exact : forall a b, transform_shallow_compare a b = true <-> opt_same transform_same a b.
Proof.
  intros [a|] [b|]; simpl; try (split; [discriminate|tauto]); [|tauto].
  rewrite !andb_true_iff, !beqb_eq.
  rewrite (map_eqb_eq _ _ jdoc_eqb_eq), !(map_eqb_eq _ _ beqb_eq), (map_eqb_eq _ _ (opt_eqb_eq _ _ beqb_eq)).
  rewrite (opt_eqb_eq _ _ (list_eqb_eq _ _ (opt_eqb_eq _ _ step_eqb_eq))).
  unfold transform_same. destruct a, b; simpl. split.
  - intros H; decompose [and] H; subst; reflexivity.
  - intros H; injection H; intros; subst; tauto.
Qed.
Print Assumptions transform_shallow_compare_exact.
(** Both are equivalence relations; changing only the path keeps components equal. *)
Theorem shallow_compare_equivalence :
  (forall a, sc_shallow_compare a a = true) /\ (forall a b, sc_shallow_compare a b = sc_shallow_compare b a) /\
  (forall a b c, sc_shallow_compare a b = true -> sc_shallow_compare b c = true -> sc_shallow_compare a c = true) /\
  (forall a, transform_shallow_compare a a = true) /\ (forall a b, transform_shallow_compare a b = transform_shallow_compare b a) /\
  (forall a b c, transform_shallow_compare a b = true -> transform_shallow_compare b c = true -> transform_shallow_compare a c = true).
Proof.
  assert (B : forall x y : bool, (x = true <-> y = true) -> x = y) by (intros [|] [|]; intuition congruence).
  split; [|split; [|split; [|split; [|split]]]].
  - intros a. apply readme_viz_shallow_compare. destruct a; simpl; auto. repeat split.
  - intros a b. apply B. rewrite !readme_viz_shallow_compare. destruct a, b; simpl; try tauto. unfold sc_same. intuition.
  - intros a b c. rewrite !readme_viz_shallow_compare. destruct a, b, c; simpl; try tauto. unfold sc_same. intuition congruence.
  - intros a. apply transform_shallow_compare_exact. destruct a as [[]|]; simpl; auto. reflexivity.
  - intros a b. apply B. rewrite !transform_shallow_compare_exact. destruct a as [[]|], b as [[]|]; simpl; try tauto.
    unfold transform_same; simpl. split; intros H; injection H; intros; subst; reflexivity.
  - intros a b c. rewrite !transform_shallow_compare_exact. destruct a as [[]|], b as [[]|], c as [[]|]; simpl; try tauto.
    unfold transform_same; simpl. intros H H'; injection H; injection H'; intros; subst; reflexivity.
Qed.
Print Assumptions shallow_compare_equivalence.
Example shallow_compare_ex : transform_shallow_compare (Some (transform_ref (bs "a"))) (Some (transform_ref (bs "b"))) = true /\
  transform_shallow_compare (Some (transform_ref [])) (Some (mkTransform (Some []) [] [] None None [] [] None None [] [] None)) = false.
Proof. split; reflexivity. Qed.
