(** Model of dstest/compare.go.
    cmp.Diff (package go-cmp) is modelled by its contract: with IgnoreUnexported it returns "" exactly if the exported fields,
    through pointers, are equal; a nil and an empty map or slice differ; times are compared as instants.  The types that hold
    unexported fields are all listed in the calls, so it does not panic.
    Simplification: numbers in dynamic values are not NaN (go-cmp says that a NaN differs from itself). *)
From Verif Require Import Base M_Doc M_Components M_Heap.

(** The fields that cmp.Diff looks at: unexported ones count as unset. *)
Definition meta_exported (m : meta) : meta :=
  mkMeta None (md_access_url m) (md_accrual m) (md_citations m) (md_contributors m) (md_description m)
    (md_download_url m) (md_home_url m) (md_identifier m) (md_keywords m) (md_language m) (md_license m) (md_path m)
    (md_qri m) (md_readme_url m) (md_title m) (md_theme m) (md_version m).
Definition script_exported (c : script_component) : script_component :=
  mkScript (sc_format c) (sc_path c) (sc_qri c) None None (sc_script_path c) (sc_text c) (sc_rendered_path c).
Definition transform_exported (t : transform) : transform :=
  mkTransform (tf_config t) (tf_path t) (tf_qri t) (tf_resources t) None (tf_script_path t) (tf_text t) (tf_secrets t)
    (tf_steps t) (tf_syntax t) (tf_syntax_version t) (tf_syntaxes t).
Definition dataset_exported (d : dataset) : dataset :=
  mkDataset None (ds_body d) (ds_body_bytes d) (ds_body_path d) (ds_commit d) (ds_id d) (option_map meta_exported (ds_meta d))
    (ds_name d) (ds_path d) (ds_peername d) (ds_previous d) (ds_profile d) (option_map script_exported (ds_readme d))
    (ds_num_versions d) (ds_qri d) (ds_structure d) (ds_stats d) (option_map transform_exported (ds_transform d))
    (option_map script_exported (ds_viz d)).

(** dataset.go:240-248, DropTransientValues, of a dataset in memory *)
Definition heap_drop_transient (r : N) (h : heap) : heap :=
  let p := h_ds h r in
  let s := pd_scalars p in
  let s := mkScalars (sl_body_file s) JNull None (sl_body_path s) (sl_id s) [] [] [] (sl_previous s) [] 0 (sl_qri s) in
  mkHeap (upd (h_ds h) r (mkPD s (pd_commit p) (pd_meta p) (pd_readme p) (pd_structure p) (pd_stats p) (pd_transform p) (pd_viz p)))
    (h_commit h) (h_meta h) (h_readme h) (h_structure h) (h_stats h) (h_transform h) (h_viz h).
(** &dataset.Dataset{} *)
Definition zero_pd : pdataset := mkPD (mkScalars None JNull None [] [] [] [] [] [] [] 0 []) None None None None None None None.
Definition alloc (r : N) (h : heap) : heap :=
  mkHeap (upd (h_ds h) r zero_pd) (h_commit h) (h_meta h) (h_readme h) (h_structure h) (h_stats h) (h_transform h) (h_viz h).
(** dstest/compare.go:16-30, CompareDatasets up to the call of cmp.Diff.  [a] and [b] are the addresses of the two new
    datasets; [drop] says that OptDropTransientValues is among the options.  Lines 28 and 29 both drop from a. *)
Definition compare_prepare (drop : bool) (a b : N) (expect got : option N) (h : heap) : heap :=
  let h := heap_assign a [expect] (alloc a h) in
  let h := heap_assign b [got] (alloc b h) in
  if drop then heap_drop_transient a (heap_drop_transient a h) else h.
(** dstest/compare.go:32-39: what is returned is "". *)
Definition no_difference (a b : N) (h : heap) : Prop := dataset_exported (deref h a) = dataset_exported (deref h b).

(** dstest/compare.go:62-130, CompareCommits, CompareMetas and CompareStructures return "". *)
Definition compare_commits (drop : bool) (expect got : option commit) : Prop :=
  let a := commit_assign (commit_ref []) [expect] in
  let b := commit_assign (commit_ref []) [got] in
  let a := if drop then commit_drop_transient (commit_drop_transient a) else a in
  a = b.
Definition compare_metas (drop : bool) (expect got : option meta) : Prop :=
  let a := meta_assign (meta_ref []) [expect] in
  let b := meta_assign (meta_ref []) [got] in
  let a := if drop then meta_drop_transient (meta_drop_transient a) else a in
  meta_exported a = meta_exported b.
Definition compare_structures (drop : bool) (expect got : option structure) : Prop :=
  let a := structure_assign (structure_ref []) [expect] in
  let b := structure_assign (structure_ref []) [got] in
  let a := if drop then structure_drop_transient (structure_drop_transient a) else a in
  a = b.
