(** Model of the dataset components: commit.go, stats.go, viz.go, readme.go, transform.go, structure.go, meta.go
    and of the value level of dataset.go.
    Simplifications: pointers to components and maps are values here (sharing is modelled in M_Heap); an open
    file (qfs.File) is an opaque number; time.Time is a count of nanoseconds since the zero time, in UTC. *)
From Verif Require Import Base M_Doc.

Notation file := (option N).   (* nil or a handle *)

(** ** Assignment helpers: "if m.X != zero { c.X = m.X }" *)
Definition as_str (m c : bytes) : bytes := match m with [] => c | _ => m end.
Definition as_int (m c : Z) : Z := if Z.eqb m 0 then c else m.
Definition as_bool (m c : bool) : bool := if m then true else c.
Definition as_opt {A} (m c : option A) : option A := match m with Some _ => m | None => c end.
Definition as_dyn (m c : jdoc) : jdoc := match m with JNull => c | _ => m end.
(** transform.go:204-211: merge the entries of a non-nil map into the receiver's. *)
Definition as_merge {V} (m c : gomap V) : gomap V :=
  match m with
  | None => c
  | Some m => Some (fold_left (fun acc kv => map_set (fst kv) (snd kv) acc) m (match c with Some c => c | None => [] end))
  end.
Definition is_nil {A} (o : option A) : bool := match o with None => true | Some _ => false end.
Definition is_null (d : jdoc) : bool := match d with JNull => true | _ => false end.
Definition bempty (s : bytes) : bool := match s with [] => true | _ => false end.

(** ** commit.go *)
(** meta.go:431-435, User *)
Record user := mkUser { u_id : bytes; u_name : bytes; u_email : bytes }.
(** commit.go:14-34, Commit *)
Record commit := mkCommit {
  cm_author : option user; cm_message : bytes; cm_path : bytes; cm_qri : bytes; cm_signature : bytes;
  cm_timestamp : Z; cm_title : bytes; cm_runid : bytes }.
(** commit.go:38-40, NewCommitRef; the zero value with a path. *)
Definition commit_ref (p : bytes) : commit := mkCommit None [] p [] [] 0 [] [].
(** commit.go:44-46 *)
Definition commit_drop_transient (c : commit) : commit :=
  mkCommit (cm_author c) (cm_message c) [] (cm_qri c) (cm_signature c) (cm_timestamp c) (cm_title c) (cm_runid c).
(** commit.go:50-53 *)
Definition commit_drop_derived (c : commit) : commit :=
  mkCommit (cm_author c) (cm_message c) [] [] (cm_signature c) (cm_timestamp c) (cm_title c) (cm_runid c).
(** commit.go:56-63 *)
Definition commit_is_empty (c : commit) : bool :=
  is_nil (cm_author c) && bempty (cm_message c) && bempty (cm_signature c) && Z.eqb (cm_timestamp c) 0 &&
  bempty (cm_title c) && bempty (cm_runid c).
(** commit.go:67-98, one source *)
Definition commit_assign1 (c : commit) (m : option commit) : commit :=
  match m with
  | None => c
  | Some m => mkCommit (as_opt (cm_author m) (cm_author c)) (as_str (cm_message m) (cm_message c))
      (as_str (cm_path m) (cm_path c)) (as_str (cm_qri m) (cm_qri c)) (as_str (cm_signature m) (cm_signature c))
      (as_int (cm_timestamp m) (cm_timestamp c)) (as_str (cm_title m) (cm_title c)) (as_str (cm_runid m) (cm_runid c))
  end.
Definition commit_assign (c : commit) (ms : list (option commit)) : commit := fold_left commit_assign1 ms c.

(** ** stats.go:7-47 *)
Record stats := mkStats { sa_path : bytes; sa_qri : bytes; sa_stats : jdoc }.
Definition stats_ref (p : bytes) : stats := mkStats p [] JNull.
Definition stats_drop_derived (s : stats) : stats := mkStats [] [] (sa_stats s).
Definition stats_is_empty (s : stats) : bool := is_null (sa_stats s).
Definition stats_assign1 (c : stats) (m : option stats) : stats :=
  match m with
  | None => c
  | Some m => mkStats (as_str (sa_path m) (sa_path c)) (as_str (sa_qri m) (sa_qri c)) (as_dyn (sa_stats m) (sa_stats c))
  end.
Definition stats_assign (c : stats) (ms : list (option stats)) : stats := fold_left stats_assign1 ms c.

(** ** readme.go:14-35 and viz.go:14-35.  Both types have the same fields and, except for JSON member options and
    kinds, the same methods. *)
Record script_component := mkScript {
  sc_format : bytes; sc_path : bytes; sc_qri : bytes; sc_script_file : file; sc_rendered_file : file;
  sc_script_path : bytes; sc_text : bytes; sc_rendered_path : bytes }.
Definition sc_ref (p : bytes) : script_component := mkScript [] p [] None None [] [] [].
(** readme.go:44-47, viz.go:44-47 *)
Definition sc_drop_transient (c : script_component) : script_component :=
  mkScript (sc_format c) [] (sc_qri c) (sc_script_file c) (sc_rendered_file c) (sc_script_path c) [] (sc_rendered_path c).
(** readme.go:50-53, viz.go:50-53 *)
Definition sc_drop_derived (c : script_component) : script_component :=
  mkScript (sc_format c) [] [] (sc_script_file c) (sc_rendered_file c) (sc_script_path c) (sc_text c) (sc_rendered_path c).
(** readme.go:154-159, viz.go:154-159 *)
Definition sc_is_empty (c : script_component) : bool :=
  bempty (sc_format c) && bempty (sc_text c) && bempty (sc_script_path c) && bempty (sc_rendered_path c).
(** readme.go:163-191, viz.go:163-191: renderedFile is not assigned. *)
Definition sc_assign1 (c : script_component) (m : option script_component) : script_component :=
  match m with
  | None => c
  | Some m => mkScript (as_str (sc_format m) (sc_format c)) (as_str (sc_path m) (sc_path c)) (as_str (sc_qri m) (sc_qri c))
      (as_opt (sc_script_file m) (sc_script_file c)) (sc_rendered_file c) (as_str (sc_script_path m) (sc_script_path c))
      (as_str (sc_text m) (sc_text c)) (as_str (sc_rendered_path m) (sc_rendered_path c))
  end.
Definition sc_assign (c : script_component) (ms : list (option script_component)) : script_component := fold_left sc_assign1 ms c.
(** readme.go:60-72, viz.go:82-94 *)
Definition sc_shallow_compare (a b : option script_component) : bool :=
  match a, b with
  | None, None => true
  | Some a, Some b => beqb (sc_format a) (sc_format b) && beqb (sc_qri a) (sc_qri b) &&
      beqb (sc_script_path a) (sc_script_path b) && beqb (sc_rendered_path a) (sc_rendered_path b) &&
      beqb (sc_text a) (sc_text b)
  | _, _ => false
  end.

(** ** transform.go *)
(** transform.go:328-334, TransformStep *)
Record step := mkStep { sp_name : bytes; sp_path : bytes; sp_syntax : bytes; sp_category : bytes; sp_script : jdoc }.
(** transform.go:19-54, Transform; a TransformResource (transform.go:128-130) is its path. *)
Record transform := mkTransform {
  tf_config : gomap jdoc; tf_path : bytes; tf_qri : bytes; tf_resources : gomap (option bytes);
  tf_script_file : file; tf_script_path : bytes; tf_text : bytes; tf_secrets : gomap bytes;
  tf_steps : goslice (option step); tf_syntax : bytes; tf_syntax_version : bytes; tf_syntaxes : gomap bytes }.
Definition transform_ref (p : bytes) : transform := mkTransform None p [] None None [] [] None None [] [] None.
(** transform.go:56-60 *)
Definition transform_drop_transient (t : transform) : transform :=
  mkTransform (tf_config t) [] (tf_qri t) (tf_resources t) (tf_script_file t) (tf_script_path t) [] None
    (tf_steps t) (tf_syntax t) (tf_syntax_version t) (tf_syntaxes t).
(** transform.go:63-66 *)
Definition transform_drop_derived (t : transform) : transform :=
  mkTransform (tf_config t) [] [] (tf_resources t) (tf_script_file t) (tf_script_path t) (tf_text t) (tf_secrets t)
    (tf_steps t) (tf_syntax t) (tf_syntax_version t) (tf_syntaxes t).
(** transform.go:160-170 *)
Definition transform_is_empty (t : transform) : bool :=
  is_nil (tf_config t) && is_nil (tf_resources t) && bempty (tf_text t) && bempty (tf_script_path t) &&
  is_nil (tf_secrets t) && is_nil (tf_steps t) && bempty (tf_syntax t) && bempty (tf_syntax_version t) &&
  is_nil (tf_syntaxes t).
(** transform.go:198-256 *)
Definition transform_assign1 (t : transform) (m : option transform) : transform :=
  match m with
  | None => t
  | Some m => mkTransform (as_merge (tf_config m) (tf_config t)) (as_str (tf_path m) (tf_path t)) (as_str (tf_qri m) (tf_qri t))
      (as_merge (tf_resources m) (tf_resources t)) (as_opt (tf_script_file m) (tf_script_file t))
      (as_str (tf_script_path m) (tf_script_path t)) (as_str (tf_text m) (tf_text t))
      (as_merge (tf_secrets m) (tf_secrets t)) (as_opt (tf_steps m) (tf_steps t)) (as_str (tf_syntax m) (tf_syntax t))
      (as_str (tf_syntax_version m) (tf_syntax_version t)) (as_opt (tf_syntaxes m) (tf_syntaxes t))
  end.
Definition transform_assign (c : transform) (ms : list (option transform)) : transform := fold_left transform_assign1 ms c.

(** ** structure.go:29-77 *)
Record structure := mkStructure {
  st_checksum : bytes; st_compression : bytes; st_depth : Z; st_encoding : bytes; st_err_count : Z; st_entries : Z;
  st_format : bytes; st_format_config : gomap jdoc; st_length : Z; st_path : bytes; st_qri : bytes;
  st_schema : gomap jdoc; st_strict : bool }.
(** UnmarshalJSON (structure.go:229-244) builds a reference without a kind, NewStructureRef (81-83) with one. *)
Definition structure_ref (p : bytes) : structure := mkStructure [] [] 0 [] 0 0 [] None 0 p [] None false.
Definition new_structure_ref (p : bytes) : structure := mkStructure [] [] 0 [] 0 0 [] None 0 p (bs "st:0") None false.
(** structure.go:87-89 *)
Definition structure_drop_transient (s : structure) : structure :=
  mkStructure (st_checksum s) (st_compression s) (st_depth s) (st_encoding s) (st_err_count s) (st_entries s)
    (st_format s) (st_format_config s) (st_length s) [] (st_qri s) (st_schema s) (st_strict s).
(** structure.go:92-100 *)
Definition structure_drop_derived (s : structure) : structure :=
  mkStructure [] (st_compression s) 0 (st_encoding s) 0 0 (st_format s) (st_format_config s) 0 [] [] (st_schema s) (st_strict s).
(** structure.go:247-259 *)
Definition structure_is_empty (s : structure) : bool :=
  bempty (st_checksum s) && bempty (st_compression s) && Z.eqb (st_depth s) 0 && bempty (st_encoding s) &&
  Z.eqb (st_entries s) 0 && Z.eqb (st_err_count s) 0 && bempty (st_format s) && is_nil (st_format_config s) &&
  Z.eqb (st_length s) 0 && is_nil (st_schema s) && negb (st_strict s).
(** structure.go:263-314 *)
Definition structure_assign1 (s : structure) (m : option structure) : structure :=
  match m with
  | None => s
  | Some m => mkStructure (as_str (st_checksum m) (st_checksum s)) (as_str (st_compression m) (st_compression s))
      (as_int (st_depth m) (st_depth s)) (as_str (st_encoding m) (st_encoding s)) (as_int (st_err_count m) (st_err_count s))
      (as_int (st_entries m) (st_entries s)) (as_str (st_format m) (st_format s)) (as_opt (st_format_config m) (st_format_config s))
      (as_int (st_length m) (st_length s)) (as_str (st_path m) (st_path s)) (as_str (st_qri m) (st_qri s))
      (as_opt (st_schema m) (st_schema s)) (as_bool (st_strict m) (st_strict s))
  end.
Definition structure_assign (c : structure) (ms : list (option structure)) : structure := fold_left structure_assign1 ms c.
(** structure.go:155-179, Abstract *)
Definition structure_abstract (s : structure) : structure :=
  mkStructure [] [] 0 (st_encoding s) 0 0 (st_format s) (st_format_config s) 0 [] [] None (st_strict s).

(** ** meta.go *)
(** meta.go:456-459, License; 478-482, Citation *)
Record license := mkLicense { li_type : bytes; li_url : bytes }.
Record citation := mkCitation { ci_name : bytes; ci_url : bytes; ci_email : bytes }.
(** meta.go:17-64, Meta *)
Record meta := mkMeta {
  md_meta : gomap jdoc; md_access_url : bytes; md_accrual : bytes; md_citations : goslice (option citation);
  md_contributors : goslice (option user); md_description : bytes; md_download_url : bytes; md_home_url : bytes;
  md_identifier : bytes; md_keywords : goslice bytes; md_language : goslice bytes; md_license : option license;
  md_path : bytes; md_qri : bytes; md_readme_url : bytes; md_title : bytes; md_theme : goslice bytes; md_version : bytes }.
Definition meta_ref (p : bytes) : meta := mkMeta None [] [] None None [] [] [] [] None None None p [] [] [] None [].
(** meta.go:68-70 *)
Definition meta_drop_transient (m : meta) : meta :=
  mkMeta (md_meta m) (md_access_url m) (md_accrual m) (md_citations m) (md_contributors m) (md_description m)
    (md_download_url m) (md_home_url m) (md_identifier m) (md_keywords m) (md_language m) (md_license m) []
    (md_qri m) (md_readme_url m) (md_title m) (md_theme m) (md_version m).
(** meta.go:73-76 *)
Definition meta_drop_derived (m : meta) : meta :=
  mkMeta (md_meta m) (md_access_url m) (md_accrual m) (md_citations m) (md_contributors m) (md_description m)
    (md_download_url m) (md_home_url m) (md_identifier m) (md_keywords m) (md_language m) (md_license m) []
    [] (md_readme_url m) (md_title m) (md_theme m) (md_version m).
(** meta.go:79-95: the arbitrary map is not looked at. *)
Definition meta_is_empty (m : meta) : bool :=
  bempty (md_access_url m) && bempty (md_accrual m) && is_nil (md_citations m) && is_nil (md_contributors m) &&
  bempty (md_description m) && bempty (md_download_url m) && bempty (md_home_url m) && bempty (md_identifier m) &&
  is_nil (md_keywords m) && is_nil (md_language m) && is_nil (md_license m) && bempty (md_readme_url m) &&
  bempty (md_title m) && is_nil (md_theme m) && bempty (md_version m).
(** meta.go:240-302 *)
Definition meta_assign1 (c : meta) (m : option meta) : meta :=
  match m with
  | None => c
  | Some m => mkMeta (as_opt (md_meta m) (md_meta c)) (as_str (md_access_url m) (md_access_url c)) (as_str (md_accrual m) (md_accrual c))
      (as_opt (md_citations m) (md_citations c)) (as_opt (md_contributors m) (md_contributors c))
      (as_str (md_description m) (md_description c)) (as_str (md_download_url m) (md_download_url c))
      (as_str (md_home_url m) (md_home_url c)) (as_str (md_identifier m) (md_identifier c))
      (as_opt (md_keywords m) (md_keywords c)) (as_opt (md_language m) (md_language c)) (as_opt (md_license m) (md_license c))
      (as_str (md_path m) (md_path c)) (as_str (md_qri m) (md_qri c)) (as_str (md_readme_url m) (md_readme_url c))
      (as_str (md_title m) (md_title c)) (as_opt (md_theme m) (md_theme c)) (as_str (md_version m) (md_version c))
  end.
Definition meta_assign (c : meta) (ms : list (option meta)) : meta := fold_left meta_assign1 ms c.

(** ** dataset.go:46-93 (value level) *)
Record dataset := mkDataset {
  ds_body_file : file; ds_body : jdoc; ds_body_bytes : option bytes; ds_body_path : bytes;
  ds_commit : option commit; ds_id : bytes; ds_meta : option meta; ds_name : bytes; ds_path : bytes; ds_peername : bytes;
  ds_previous : bytes; ds_profile : bytes; ds_readme : option script_component; ds_num_versions : Z; ds_qri : bytes;
  ds_structure : option structure; ds_stats : option stats; ds_transform : option transform; ds_viz : option script_component }.
Definition dataset_ref (p : bytes) : dataset :=
  mkDataset None JNull None [] None [] None [] p [] [] [] None 0 [] None None None None.
(** dataset.go:97-113 *)
Definition dataset_is_empty (d : dataset) : bool :=
  is_null (ds_body d) && is_nil (ds_body_bytes d) && bempty (ds_body_path d) && is_nil (ds_commit d) && bempty (ds_id d) &&
  is_nil (ds_meta d) && bempty (ds_name d) && bempty (ds_peername d) && bempty (ds_previous d) && bempty (ds_profile d) &&
  is_nil (ds_structure d) && is_nil (ds_transform d) && is_nil (ds_readme d) && is_nil (ds_stats d) && is_nil (ds_viz d).
(** dataset.go:240-248 *)
Definition dataset_drop_transient (d : dataset) : dataset :=
  mkDataset (ds_body_file d) JNull None (ds_body_path d) (ds_commit d) (ds_id d) (ds_meta d) [] [] []
    (ds_previous d) [] (ds_readme d) 0 (ds_qri d) (ds_structure d) (ds_stats d) (ds_transform d) (ds_viz d).
(** dataset.go:251-277 *)
Definition dataset_drop_derived (d : dataset) : dataset :=
  mkDataset (ds_body_file d) (ds_body d) (ds_body_bytes d) (ds_body_path d) (option_map commit_drop_derived (ds_commit d))
    (ds_id d) (option_map meta_drop_derived (ds_meta d)) (ds_name d) [] (ds_peername d) (ds_previous d) (ds_profile d)
    (option_map sc_drop_derived (ds_readme d)) (ds_num_versions d) [] (option_map structure_drop_derived (ds_structure d))
    (option_map stats_drop_derived (ds_stats d)) (option_map transform_drop_derived (ds_transform d))
    (option_map sc_drop_derived (ds_viz d)).

(** dataset.go:126-165, PathMap; None is a nil *Dataset.  [put_path] is one of its nine guarded assignments. *)
Definition put_path (ignore : list bytes) (k : bytes) (p : option bytes) (m : list (bytes * bytes)) : list (bytes * bytes) :=
  match p with Some v => if existsb (beqb k) ignore then m else map_set k v m | None => m end.
Definition path_map (d : option dataset) (ignore : list bytes) : list (bytes * bytes) :=
  match d with
  | None => []
  | Some d =>
      let some_str s := match s with [] => None | _ => Some s end in
      let m := put_path ignore (bs "body") (some_str (ds_body_path d)) [] in
      let m := put_path ignore (bs "commit") (option_map cm_path (ds_commit d)) m in
      let m := put_path ignore (bs "meta") (option_map md_path (ds_meta d)) m in
      let m := put_path ignore (bs "dataset") (some_str (ds_path d)) m in
      let m := put_path ignore (bs "readme") (option_map sc_path (ds_readme d)) m in
      let m := put_path ignore (bs "structure") (option_map st_path (ds_structure d)) m in
      let m := put_path ignore (bs "transform") (option_map tf_path (ds_transform d)) m in
      let m := put_path ignore (bs "viz") (option_map sc_path (ds_viz d)) m in
      put_path ignore (bs "stats") (option_map sa_path (ds_stats d)) m
  end.

(** dataset.go:352-429, one source, at value level: a nil component of the receiver takes the source's. *)
Definition as_comp {A} (assign1 : A -> option A -> A) (m c : option A) : option A :=
  match c with None => m | Some c => Some (assign1 c m) end.
Definition dataset_assign1 (d : dataset) (s : option dataset) : dataset :=
  match s with
  | None => d
  | Some s =>
      let commit := as_comp commit_assign1 (ds_commit s) (ds_commit d) in
      mkDataset (as_opt (ds_body_file s) (ds_body_file d)) (as_dyn (ds_body s) (ds_body d))
        (as_opt (ds_body_bytes s) (ds_body_bytes d)) (as_str (ds_body_path s) (ds_body_path d))
        (* dataset.go:427: ds.Commit.Assign(d.Commit) once more; on a nil receiver it does nothing *)
        (option_map (fun c => commit_assign1 c (ds_commit s)) commit)
        (as_str (ds_id d) (ds_id s))     (* dataset.go:377: only if the receiver has none *)
        (as_comp meta_assign1 (ds_meta s) (ds_meta d)) (as_str (ds_name s) (ds_name d)) (as_str (ds_path s) (ds_path d))
        (as_str (ds_peername s) (ds_peername d)) (as_str (ds_previous s) (ds_previous d)) (as_str (ds_profile s) (ds_profile d))
        (as_comp sc_assign1 (ds_readme s) (ds_readme d)) (ds_num_versions d) (ds_qri d)
        (as_comp structure_assign1 (ds_structure s) (ds_structure d)) (as_comp stats_assign1 (ds_stats s) (ds_stats d))
        (as_comp transform_assign1 (ds_transform s) (ds_transform d)) (as_comp sc_assign1 (ds_viz s) (ds_viz d))
  end.
Definition dataset_assign (d : dataset) (ss : list (option dataset)) : dataset := fold_left dataset_assign1 ss d.

(** transform.go:177-195, ShallowCompare *)
Definition step_eqb (a b : step) : bool :=
  beqb (sp_name a) (sp_name b) && beqb (sp_path a) (sp_path b) && beqb (sp_syntax a) (sp_syntax b) &&
  beqb (sp_category a) (sp_category b) && jdoc_eqb (sp_script a) (sp_script b).
Definition transform_shallow_compare (a b : option transform) : bool :=
  match a, b with
  | None, None => true
  | Some a, Some b =>
      beqb (tf_syntax a) (tf_syntax b) && beqb (tf_syntax_version a) (tf_syntax_version b) && beqb (tf_qri a) (tf_qri b) &&
      beqb (tf_script_path a) (tf_script_path b) && beqb (tf_text a) (tf_text b) &&
      map_eqb jdoc_eqb (tf_config a) (tf_config b) && map_eqb beqb (tf_secrets a) (tf_secrets b) &&
      opt_eqb (list_eqb (opt_eqb step_eqb)) (tf_steps a) (tf_steps b) &&
      map_eqb (opt_eqb beqb) (tf_resources a) (tf_resources b) && map_eqb beqb (tf_syntaxes a) (tf_syntaxes b)
  | _, _ => false
  end.
