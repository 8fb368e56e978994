(** What it means that two datasets or components are the same for a comparison: field by field. *)
From Verif Require Import Base M_Doc M_Components.

(** Both are absent or both are present and related. *)
Definition both {A} (R : A -> A -> Prop) (a b : option A) : Prop :=
  match a, b with None, None => True | Some x, Some y => R x y | _, _ => False end.
(** All public fields of two metas but the path. *)
Definition meta_same (a b : meta) : Prop :=
  md_access_url a = md_access_url b /\ md_accrual a = md_accrual b /\ md_citations a = md_citations b /\
  md_contributors a = md_contributors b /\ md_description a = md_description b /\ md_download_url a = md_download_url b /\
  md_home_url a = md_home_url b /\ md_identifier a = md_identifier b /\ md_keywords a = md_keywords b /\
  md_language a = md_language b /\ md_license a = md_license b /\ md_qri a = md_qri b /\ md_readme_url a = md_readme_url b /\
  md_title a = md_title b /\ md_theme a = md_theme b /\ md_version a = md_version b.
Definition script_same (a b : script_component) : Prop :=
  sc_format a = sc_format b /\ sc_path a = sc_path b /\ sc_qri a = sc_qri b /\ sc_script_path a = sc_script_path b /\
  sc_text a = sc_text b /\ sc_rendered_path a = sc_rendered_path b.
Definition transform_same (a b : transform) : Prop :=
  tf_config a = tf_config b /\ tf_path a = tf_path b /\ tf_qri a = tf_qri b /\ tf_resources a = tf_resources b /\
  tf_script_path a = tf_script_path b /\ tf_text a = tf_text b /\ tf_secrets a = tf_secrets b /\ tf_steps a = tf_steps b /\
  tf_syntax a = tf_syntax b /\ tf_syntax_version a = tf_syntax_version b /\ tf_syntaxes a = tf_syntaxes b.
Definition commit_same (a b : commit) : Prop :=
  cm_author a = cm_author b /\ cm_message a = cm_message b /\ cm_qri a = cm_qri b /\ cm_signature a = cm_signature b /\
  cm_timestamp a = cm_timestamp b /\ cm_title a = cm_title b /\ cm_runid a = cm_runid b.
Definition structure_same (a b : structure) : Prop :=
  st_checksum a = st_checksum b /\ st_compression a = st_compression b /\ st_depth a = st_depth b /\ st_encoding a = st_encoding b /\
  st_err_count a = st_err_count b /\ st_entries a = st_entries b /\ st_format a = st_format b /\
  st_format_config a = st_format_config b /\ st_length a = st_length b /\ st_qri a = st_qri b /\ st_schema a = st_schema b /\
  st_strict a = st_strict b.
(** The fields of two datasets that are neither transient nor set on every save. *)
Definition lasting_same (a b : dataset) : Prop :=
  ds_body_path a = ds_body_path b /\ ds_id a = ds_id b /\ ds_previous a = ds_previous b /\
  both (fun x y => commit_same x y /\ cm_path x = cm_path y) (ds_commit a) (ds_commit b) /\
  both (fun x y => meta_same x y /\ md_path x = md_path y) (ds_meta a) (ds_meta b) /\
  both script_same (ds_readme a) (ds_readme b) /\
  both (fun x y => structure_same x y /\ st_path x = st_path y) (ds_structure a) (ds_structure b) /\
  both (fun x y => sa_path x = sa_path y /\ sa_qri x = sa_qri y /\ sa_stats x = sa_stats y) (ds_stats a) (ds_stats b) /\
  both transform_same (ds_transform a) (ds_transform b) /\ both script_same (ds_viz a) (ds_viz b).
(** The transient fields, other than the number of versions. *)
Definition transient_same (a b : dataset) : Prop :=
  ds_body a = ds_body b /\ ds_body_bytes a = ds_body_bytes b /\ ds_name a = ds_name b /\ ds_path a = ds_path b /\
  ds_peername a = ds_peername b /\ ds_profile a = ds_profile b.
(** A missing dataset or component counts as one without values. *)
Definition no_dataset : dataset := mkDataset None JNull None [] None [] None [] [] [] [] [] None 0 [] None None None None.
Definition no_commit : commit := mkCommit None [] [] [] [] 0 [] [].
Definition no_meta : meta := mkMeta None [] [] None None [] [] [] [] None None None [] [] [] [] None [].
Definition no_structure : structure := mkStructure [] [] 0 [] 0 0 [] None 0 [] [] None false.
Definition present_or {A} (d : A) (o : option A) : A := match o with Some x => x | None => d end.
