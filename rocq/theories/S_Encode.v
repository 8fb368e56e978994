(** Specification of component JSON: which components are written as a bare path and what a written object keeps. *)
From Verif Require Import Base M_Doc M_Components.

Definition kind_or (kind q : bytes) : bytes := if beqb q [] then kind else q.
(** An empty map or slice is not written, so it comes back as nil. *)
Definition some_unless_empty {A} (o : option (list A)) : option (list A) := match o with Some [] => None | _ => o end.

(** Nothing but path and kind is set. *)
Definition commit_blank (c : commit) : Prop := c = mkCommit None [] (cm_path c) (cm_qri c) [] 0 [] [].
Definition stats_blank (s : stats) : Prop := s = mkStats (sa_path s) (sa_qri s) JNull.
Definition sc_blank (c : script_component) : Prop :=
  c = mkScript [] (sc_path c) (sc_qri c) (sc_script_file c) (sc_rendered_file c) [] [] [].
Definition transform_blank (t : transform) : Prop :=
  t = mkTransform None (tf_path t) (tf_qri t) None (tf_script_file t) [] [] None None [] [] None.
(** For a structure only encoding and schema are looked at. *)
Definition structure_blank (s : structure) : Prop := st_encoding s = [] /\ st_schema s = None.
(** For metadata everything but path, kind and the arbitrary members. *)
Definition meta_blank (m : meta) : Prop :=
  m = mkMeta (md_meta m) [] [] None None [] [] [] [] None None None (md_path m) (md_qri m) [] [] None [].
(** For a dataset everything but path, kind, version count and the open body file. *)
Definition dataset_blank (d : dataset) : Prop :=
  d = mkDataset (ds_body_file d) JNull None [] None [] None [] (ds_path d) [] [] [] None (ds_num_versions d) (ds_qri d) None None None None.

(** What an object document keeps. *)
Definition commit_kept (c : commit) : commit :=
  mkCommit (cm_author c) (cm_message c) (cm_path c) (kind_or (bs "cm:0") (cm_qri c)) (cm_signature c) (cm_timestamp c)
    (cm_title c) (cm_runid c).
Definition stats_kept (s : stats) : stats := mkStats (sa_path s) (kind_or (bs "sa:0") (sa_qri s)) (sa_stats s).
Definition sc_kept (kind : bytes) (c : script_component) : script_component :=
  mkScript (sc_format c) [] (kind_or kind (sc_qri c)) None None (sc_script_path c) (sc_text c) (sc_rendered_path c).
Definition transform_kept (t : transform) : transform :=
  mkTransform (some_unless_empty (tf_config t)) (tf_path t) (kind_or (bs "tf:0") (tf_qri t)) (some_unless_empty (tf_resources t)) None
    (tf_script_path t) (tf_text t) None (some_unless_empty (tf_steps t)) (tf_syntax t) (tf_syntax_version t)
    (some_unless_empty (tf_syntaxes t)).
Definition structure_kept (s : structure) : structure :=
  mkStructure (st_checksum s) (st_compression s) (st_depth s) (st_encoding s) (st_err_count s) (st_entries s) (st_format s)
    (some_unless_empty (st_format_config s)) (st_length s) (st_path s) (kind_or (bs "st:0") (st_qri s))
    (some_unless_empty (st_schema s)) (st_strict s).
(** The arbitrary members of written metadata additionally contain the keywords. *)
Definition meta_extra (m : meta) : list (bytes * jdoc) :=
  let a := match md_meta m with Some a => a | None => [] end in
  match md_keywords m with Some l => map_set (bs "keywords") (JArr (map JStr l)) a | None => a end.
Definition meta_kept (m : meta) : meta :=
  mkMeta (some_unless_empty (Some (meta_extra m))) (md_access_url m) (md_accrual m) (md_citations m) (md_contributors m)
    (md_description m) (md_download_url m) (md_home_url m) (md_identifier m) (md_keywords m) (md_language m) (md_license m)
    (md_path m) (bs "md:0") (md_readme_url m) (md_title m) (md_theme m) (md_version m).

(** Which arbitrary members survive: none may be spelled, up to case, like a member of the metadata itself, nor have
    one of the five names that decoding throws away.  The keywords may occur, as decoding puts them there. *)
Definition meta_member_names : list bytes :=
  map bs ["accessURL"; "accrualPeriodicity"; "citations"; "contributors"; "description"; "downloadURL"; "homeURL"; "identifier";
          "keywords"; "language"; "license"; "path"; "qri"; "readmeURL"; "title"; "theme"; "version"]%string.
Definition meta_thrown_away : list bytes := map bs ["data"; "image"; "keyword"; "length"; "timestamp"]%string.
Definition same_up_to_case (a b : bytes) : Prop := map lower_byte a = map lower_byte b.
Definition extra_key_ok (m : meta) (k : bytes) : Prop :=
  (Forall (fun n => ~ same_up_to_case n k) meta_member_names /\ ~ In k meta_thrown_away) \/
  (k = bs "keywords" /\ md_keywords m <> None).
Definition meta_wf (m : meta) : Prop :=
  match md_meta m with None => True | Some a => sorted a /\ Forall (fun kv => extra_key_ok m (fst kv)) a end.
Definition sorted_map {V} (m : gomap V) : Prop := match m with None => True | Some m => sorted m end.
Definition transform_maps_wf (t : transform) : Prop := sorted_map (tf_config t) /\ sorted_map (tf_resources t) /\ sorted_map (tf_syntaxes t).
Definition structure_maps_wf (s : structure) : Prop := sorted_map (st_format_config s) /\ sorted_map (st_schema s).

(** The keys of an object document, in order. *)
Definition doc_keys (d : jdoc) : list bytes := match d with JObj o => map fst o | _ => [] end.
Fixpoint ascending (l : list bytes) : Prop :=
  match l with a :: (b :: _) as l' => bcmp a b = Lt /\ ascending l' | _ => True end.

(** What decoding returns for a component that was encoded. *)
Definition comes_back {A} (path : A -> bytes) (blank : A -> Prop) (ref : bytes -> A) (kept : A -> A) (c c' : A) : Prop :=
  (path c <> [] /\ blank c /\ c' = ref (path c)) \/ (~ (path c <> [] /\ blank c) /\ c' = kept c).
Definition commit_comes_back := comes_back cm_path commit_blank commit_ref commit_kept.
Definition stats_comes_back := comes_back sa_path stats_blank stats_ref stats_kept.
Definition readme_comes_back := comes_back sc_path sc_blank sc_ref (sc_kept (bs "rm:0")).
Definition viz_comes_back := comes_back sc_path sc_blank sc_ref (sc_kept (bs "vz:0")).
Definition transform_comes_back := comes_back tf_path transform_blank transform_ref transform_kept.
Definition structure_comes_back := comes_back st_path structure_blank structure_ref structure_kept.
Definition meta_comes_back := comes_back md_path meta_blank meta_ref meta_kept.
Definition opt_rel {A} (R : A -> A -> Prop) (a b : option A) : Prop :=
  match a, b with None, None => True | Some a, Some b => R a b | _, _ => False end.
Definition dataset_comes_back (d d' : dataset) : Prop :=
  (ds_path d <> [] /\ dataset_blank d /\ d' = dataset_ref (ds_path d)) \/
  (~ (ds_path d <> [] /\ dataset_blank d) /\
   ds_body_file d' = None /\ ds_body d' = ds_body d /\ ds_body_bytes d' = some_unless_empty (ds_body_bytes d) /\
   ds_body_path d' = ds_body_path d /\ opt_rel commit_comes_back (ds_commit d) (ds_commit d') /\ ds_id d' = ds_id d /\
   opt_rel meta_comes_back (ds_meta d) (ds_meta d') /\ ds_name d' = ds_name d /\ ds_path d' = ds_path d /\
   ds_peername d' = ds_peername d /\ ds_previous d' = ds_previous d /\ ds_profile d' = ds_profile d /\
   opt_rel readme_comes_back (ds_readme d) (ds_readme d') /\ ds_num_versions d' = ds_num_versions d /\
   ds_qri d' = kind_or (bs "ds:0") (ds_qri d) /\ opt_rel structure_comes_back (ds_structure d) (ds_structure d') /\
   opt_rel stats_comes_back (ds_stats d) (ds_stats d') /\ opt_rel transform_comes_back (ds_transform d) (ds_transform d') /\
   opt_rel viz_comes_back (ds_viz d) (ds_viz d')).
Definition opt_all {A} (P : A -> Prop) (o : option A) : Prop := match o with Some a => P a | None => True end.
Definition dataset_wf (d : dataset) : Prop :=
  opt_all meta_wf (ds_meta d) /\ opt_all structure_maps_wf (ds_structure d) /\ opt_all transform_maps_wf (ds_transform d).
(** Years 0 to 9999, in nanoseconds from 0001-01-01. *)
Definition encodable_time (t : Z) : Prop := (-31622400000000000 <= t < 315537897600000000000)%Z.

(** The structures and transforms that do not re-encode to the same document: they have a path and, but for an empty
    schema (or, for transforms, empty maps, empty steps or secrets), would have been written as a bare path. *)
Definition structure_unstable (s : structure) : Prop := st_path s <> [] /\ st_encoding s = [] /\ st_schema s = Some [].
Definition empty_or_nil {A} (o : option (list A)) : Prop := o = None \/ o = Some [].
Definition transform_unstable (t : transform) : Prop :=
  tf_path t <> [] /\ ~ transform_blank t /\ empty_or_nil (tf_config t) /\ empty_or_nil (tf_resources t) /\ tf_script_path t = [] /\
  tf_text t = [] /\ empty_or_nil (tf_steps t) /\ tf_syntax t = [] /\ tf_syntax_version t = [] /\ empty_or_nil (tf_syntaxes t).
