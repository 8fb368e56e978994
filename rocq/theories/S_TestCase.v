(** What a directory has to hold to be a test case, and which datasets are equal to their golden files. *)
From Verif Require Import Base M_Doc M_Components S_Encode S_Compare M_TestCase.

(** A file that is read as a dataset, or none. *)
Definition dataset_at (decode : bytes -> res dataset) (d : folder) (name : bytes) (o : option dataset) : Prop :=
  (d name = Missing /\ o = None) \/ (exists b ds, d name = Plain b /\ decode b = Ok ds /\ o = Some ds).
(** Names are tried in order; what cannot be opened is as good as missing, what opens has to be readable. *)
Definition passed_over (n : node) : Prop := n = Missing \/ exists e, n = Closed e.
Inductive found (d : folder) (names : list bytes) : option (bytes * bytes) -> Prop :=
| fo_none : Forall (fun n => passed_over (d n)) names -> found d names None
| fo_some : forall pre n post b, names = pre ++ n :: post -> Forall (fun n => passed_over (d n)) pre -> d n = Plain b -> found d names (Some (n, b)).
Definition tried_bodies : list bytes := [bs "body.cbor"; bs "body.json"; bs "body.csv"; bs "body.xlsx"; bs "body.ndjson"].

(** The parts of a directory. *)
Record parts := mkParts { p_input : option dataset; p_body : option (bytes * bytes); p_transform : option (bytes * bytes);
  p_viz : option (bytes * bytes); p_readme : option (bytes * bytes); p_expect : option dataset }.
Definition holds_parts (decode : bytes -> res dataset) (d : folder) (p : parts) : Prop :=
  dataset_at decode d (bs "input.dataset.json") (p_input p) /\ found d tried_bodies (p_body p) /\ found d [bs "transform.star"] (p_transform p) /\
  found d [bs "template.html"] (p_viz p) /\ found d [bs "readme.md"] (p_readme p) /\ dataset_at decode d (bs "expect.dataset.json") (p_expect p).
Definition some_part (p : parts) : Prop :=
  p_input p <> None \/ p_body p <> None \/ p_transform p <> None \/ p_viz p <> None \/ p_readme p <> None \/ p_expect p <> None.

(** [gives tc f name b]: the handle f is a file of the test case with that name and content. *)
Definition gives (tc : test_case) (f : option N) (name b : bytes) : Prop :=
  exists k, f = Some k /\ In (k, (name, b)) (tc_files tc) /\ forall nb, In (k, nb) (tc_files tc) -> nb = (name, b).
Definition name_and_bytes (o : option (bytes * bytes)) (name : bytes) (b : option bytes) : Prop :=
  match o with Some (n, c) => name = n /\ b = Some c | None => name = [] /\ b = None end.
Definition same_script (a b : script_component) : Prop := script_same a b /\ sc_rendered_file a = sc_rendered_file b.
(** The input dataset: as in the file, or empty; with the name of the case and with the files that were found. *)
Definition equipped (p : parts) (tc : test_case) : Prop :=
  let i := match p_input p with Some i => i | None => no_dataset end in let j := tc_input tc in
  (ds_name j = tc_name tc /\ ds_body j = ds_body i /\ ds_body_bytes j = ds_body_bytes i /\ ds_body_path j = ds_body_path i /\ ds_commit j = ds_commit i /\
   ds_id j = ds_id i /\ ds_meta j = ds_meta i /\ ds_path j = ds_path i /\ ds_peername j = ds_peername i /\ ds_previous j = ds_previous i /\
   ds_profile j = ds_profile i /\ ds_num_versions j = ds_num_versions i /\ ds_qri j = ds_qri i /\ ds_structure j = ds_structure i /\ ds_stats j = ds_stats i) /\
  match p_body p with Some (n, b) => gives tc (ds_body_file j) (bs "/" ++ n) b | None => ds_body_file j = ds_body_file i end /\
  match p_transform p with
  | Some (n, b) => exists t, ds_transform j = Some t /\ gives tc (tf_script_file t) n b /\ transform_same t (present_or (transform_ref []) (ds_transform i))
  | None => ds_transform j = ds_transform i end /\
  match p_viz p with
  | Some (n, b) => exists c, ds_viz j = Some c /\ gives tc (sc_script_file c) n b /\ same_script c (present_or (sc_ref []) (ds_viz i))
  | None => ds_viz j = ds_viz i end /\
  match p_readme p with
  | Some (n, b) => exists c, ds_readme j = Some c /\ gives tc (sc_script_file c) n b /\ same_script c (present_or (sc_ref []) (ds_readme i))
  | None => ds_readme j = ds_readme i end.
Definition case_of (dir : bytes) (p : parts) (tc : test_case) : Prop :=
  tc_path tc = dir /\ name_and_bytes (p_body p) (tc_body_name tc) (tc_body tc) /\ name_and_bytes (p_transform p) (tc_transform_name tc) (tc_transform tc) /\
  name_and_bytes (p_viz p) (tc_viz_name tc) (tc_viz tc) /\ name_and_bytes (p_readme p) (tc_readme_name tc) (tc_readme tc) /\ tc_expect tc = p_expect p /\ equipped p tc.
(** The last element of a path. *)
Inductive last_element (n : bytes) : bytes -> Prop :=
| le_alone : forall sl, Forall (fun c => c = 47%N) sl -> last_element n (n ++ sl)
| le_in : forall dir sl, Forall (fun c => c = 47%N) sl -> last_element n (dir ++ 47%N :: n ++ sl).
Definition plain_name (n : bytes) : Prop := n <> [] /\ ~ In 47%N n.

(** Datasets that compare equal to what their golden file is read as: kinds are set unless a component is a bare reference,
    there are no empty maps and lists, no secrets, and readme and viz have no path. *)
Definition kind_fits (bare : Prop) (q : bytes) : Prop := (bare /\ q = []) \/ (~ bare /\ q <> []).
Definition commit_settles (c : commit) : Prop := kind_fits (cm_path c <> [] /\ commit_blank c) (cm_qri c).
Definition stats_settles (s : stats) : Prop := kind_fits (sa_path s <> [] /\ stats_blank s) (sa_qri s).
Definition script_settles (c : script_component) : Prop :=
  (sc_path c <> [] /\ sc_blank c /\ sc_qri c = []) \/ (~ (sc_path c <> [] /\ sc_blank c) /\ sc_qri c <> [] /\ sc_path c = []).
Definition transform_settles (t : transform) : Prop :=
  kind_fits (tf_path t <> [] /\ transform_blank t) (tf_qri t) /\ tf_secrets t = None /\ tf_config t <> Some [] /\ tf_resources t <> Some [] /\ tf_steps t <> Some [] /\ tf_syntaxes t <> Some [].
Definition structure_settles (s : structure) : Prop :=
  (st_path s <> [] /\ s = structure_ref (st_path s)) \/
  (~ (st_path s <> [] /\ structure_blank s) /\ st_qri s <> [] /\ st_format_config s <> Some [] /\ st_schema s <> Some []).
Definition meta_settles (m : meta) : Prop :=
  (md_path m <> [] /\ meta_blank m /\ md_qri m = []) \/ (~ (md_path m <> [] /\ meta_blank m) /\ md_qri m = bs "md:0").
Definition settles (d : dataset) : Prop :=
  ds_body_bytes d <> Some [] /\ opt_all commit_settles (ds_commit d) /\ opt_all meta_settles (ds_meta d) /\ opt_all script_settles (ds_readme d) /\
  opt_all structure_settles (ds_structure d) /\ opt_all stats_settles (ds_stats d) /\ opt_all transform_settles (ds_transform d) /\ opt_all script_settles (ds_viz d).
