(** Model of dstest/dstest.go (test cases read from directories) and dstest/golden.go (golden files).
    A directory is a function from the names of its entries to what opening and reading them gives.  File handles that a test
    case makes (qfs.NewMemfileBytes) are numbered 1 to 4 and listed with name and content in [tc_files].
    Not modelled: testCaseCache, which is written and never read; DatasetChecksum; log and t.Helper; RenderedFile.
    Simplifications: filepath.Join(dir, name) is dir, "/" and name (no cleaning), fmt.Sprintf("%s/body.%s") likewise, and a
    directory is not listed while it is being changed. *)
From Verif Require Import Base M_Doc M_Formats M_Components M_Encode M_Json M_JsonWrite M_DocText M_Heap M_Compare M_Doc.

(** What is there under a name: nothing, something os.Open fails for, something that opens but whose reading fails after some
    bytes (as for a directory), a file. *)
Inductive node := Missing | Closed (e : err) | Unread (b : bytes) (e : err) | Plain (b : bytes).
Definition folder := bytes -> node.

(** An error and whether os.IsNotExist, or comparison with os.ErrNotExist, says that it is one of a missing file. *)
Inductive fault := NotExist | Fault (e : err).
(** ioutil.ReadFile *)
Definition read_file (n : node) : bytes + fault :=
  match n with Missing => inr NotExist | Closed e | Unread _ e => inr (Fault e) | Plain b => inl b end.
(** os.Open and, if there is no error, ioutil.ReadAll *)
Definition open_read (n : node) : option (bytes * option err) :=
  match n with Missing | Closed _ => None | Unread b e => Some (b, Some e) | Plain b => Some (b, None) end.
(** !os.IsNotExist of the error of os.Stat, which needs no permission to read the file *)
Definition stat_exists (n : node) : bool := match n with Missing => false | _ => true end.

(** dstest.go:121-122, 276-277: the file names tried, in the order of SupportedDataFormats *)
Definition body_names : list bytes := map (fun f => bs "body." ++ format_string f) supported_formats.
(** dstest.go:118-128, BodyFilepath; the name without "dir/", or os.ErrNotExist *)
Definition body_filepath (d : folder) : option bytes := find (fun n => stat_exists (d n)) body_names.
(** dstest.go:275-284, ReadBodyData, and, for one name, 287-314: ReadInputTransformScript and so on *)
Fixpoint read_first (d : folder) (names : list bytes) : (bytes * bytes) + fault :=
  match names with
  | [] => inr NotExist
  | n :: names => match open_read (d n) with
                  | Some (b, None) => inl (b, n)
                  | Some (_, Some e) => inr (Fault e)
                  | None => read_first d names
                  end
  end.
Definition read_body_data (d : folder) : (bytes * bytes) + fault := read_first d body_names.

(** dstest.go:33-64, TestCase, and the files made for its input dataset *)
Record test_case := mkCase {
  tc_path : bytes; tc_name : bytes; tc_body_name : bytes; tc_body : option bytes; tc_transform_name : bytes; tc_transform : option bytes;
  tc_viz_name : bytes; tc_viz : option bytes; tc_readme_name : bytes; tc_readme : option bytes; tc_input : dataset;
  tc_expect : option dataset; tc_files : list (N * (bytes * bytes)) }.

(** dataset.go SetBodyFile; transform.go, viz.go, readme.go SetScriptFile: only the handle changes. *)
Definition set_body_file (d : dataset) (f : file) : dataset :=
  mkDataset f (ds_body d) (ds_body_bytes d) (ds_body_path d) (ds_commit d) (ds_id d) (ds_meta d) (ds_name d) (ds_path d) (ds_peername d)
    (ds_previous d) (ds_profile d) (ds_readme d) (ds_num_versions d) (ds_qri d) (ds_structure d) (ds_stats d) (ds_transform d) (ds_viz d).
Definition set_name (d : dataset) (n : bytes) : dataset :=
  mkDataset (ds_body_file d) (ds_body d) (ds_body_bytes d) (ds_body_path d) (ds_commit d) (ds_id d) (ds_meta d) n (ds_path d) (ds_peername d)
    (ds_previous d) (ds_profile d) (ds_readme d) (ds_num_versions d) (ds_qri d) (ds_structure d) (ds_stats d) (ds_transform d) (ds_viz d).
Definition or_new {A} (zero : A) (o : option A) : A := match o with Some a => a | None => zero end.
Definition tf_set_script (f : file) (t : transform) : transform :=
  mkTransform (tf_config t) (tf_path t) (tf_qri t) (tf_resources t) f (tf_script_path t) (tf_text t) (tf_secrets t) (tf_steps t) (tf_syntax t)
    (tf_syntax_version t) (tf_syntaxes t).
Definition sc_set_script (f : file) (c : script_component) : script_component :=
  mkScript (sc_format c) (sc_path c) (sc_qri c) f (sc_rendered_file c) (sc_script_path c) (sc_text c) (sc_rendered_path c).
Definition with_transform (d : dataset) (f : file) : dataset :=
  mkDataset (ds_body_file d) (ds_body d) (ds_body_bytes d) (ds_body_path d) (ds_commit d) (ds_id d) (ds_meta d) (ds_name d) (ds_path d) (ds_peername d)
    (ds_previous d) (ds_profile d) (ds_readme d) (ds_num_versions d) (ds_qri d) (ds_structure d) (ds_stats d)
    (Some (tf_set_script f (or_new (transform_ref []) (ds_transform d)))) (ds_viz d).
Definition with_viz (d : dataset) (f : file) : dataset :=
  mkDataset (ds_body_file d) (ds_body d) (ds_body_bytes d) (ds_body_path d) (ds_commit d) (ds_id d) (ds_meta d) (ds_name d) (ds_path d) (ds_peername d)
    (ds_previous d) (ds_profile d) (ds_readme d) (ds_num_versions d) (ds_qri d) (ds_structure d) (ds_stats d) (ds_transform d)
    (Some (sc_set_script f (or_new (sc_ref []) (ds_viz d)))).
Definition with_readme (d : dataset) (f : file) : dataset :=
  mkDataset (ds_body_file d) (ds_body d) (ds_body_bytes d) (ds_body_path d) (ds_commit d) (ds_id d) (ds_meta d) (ds_name d) (ds_path d) (ds_peername d)
    (ds_previous d) (ds_profile d) (Some (sc_set_script f (or_new (sc_ref []) (ds_readme d)))) (ds_num_versions d) (ds_qri d) (ds_structure d)
    (ds_stats d) (ds_transform d) (ds_viz d).

(** filepath.Base: the last element of a path, without trailing slashes; "." of nothing, "/" of slashes only *)
Fixpoint drop_slashes (r : bytes) : bytes := match r with c :: r' => if N.eqb c 47 then drop_slashes r' else r | [] => [] end.
Fixpoint until_slash (r acc : bytes) : bytes := match r with c :: r' => if N.eqb c 47 then acc else until_slash r' (c :: acc) | [] => acc end.
Definition base (p : bytes) : bytes :=
  match p with [] => bs "." | _ => match drop_slashes (rev p) with [] => bs "/" | r => until_slash r [] end end.

Section Load.
  (** Decoding of a dataset from bytes, M_DocText.dataset_of_bytes of some number format and nesting limit *)
  Variable decode : bytes -> res dataset.

  (** dstest.go:263-272, ReadDataset *)
  Definition read_dataset (d : folder) (name : bytes) : dataset + fault :=
    match read_file (d name) with
    | inl b => match decode b with Ok ds => inl ds | Err e => inr (Fault e) | Panic | OutOfFuel => inr (Fault (EMsg "not reached")) end
    | inr f => inr f
    end.
  (** One optional part: the error, or what was found *)
  Definition optional {A} (msg : string) (r : A + fault) : res (option A) :=
    match r with inl a => Ok (Some a) | inr NotExist => Ok None | inr (Fault e) => Err (EWrap msg 0 e) end.
  (** dstest.go:150-260, NewTestCaseFromDir.  The partly filled case that accompanies an error is left out. *)
  Definition new_test_case (dir : bytes) (d : folder) : res test_case :=
    let name := base dir in
    input <- optional "reading input dataset" (read_dataset d (bs "input.dataset.json")) ;;
    let ds := set_name (or_new (dataset_ref []) input) name in
    body <- optional "error reading test case body" (read_body_data d) ;;
    let ds := match body with Some _ => set_body_file ds (Some 1%N) | None => ds end in
    tf <- optional "reading transform script" (read_first d [bs "transform.star"]) ;;
    let ds := match tf with Some _ => with_transform ds (Some 2%N) | None => ds end in
    vz <- optional "reading viz script" (read_first d [bs "template.html"]) ;;
    let ds := match vz with Some _ => with_viz ds (Some 3%N) | None => ds end in
    rm <- optional "reading readme script" (read_first d [bs "readme.md"]) ;;
    let ds := match rm with Some _ => with_readme ds (Some 4%N) | None => ds end in
    expect <- optional "error loading expect dataset" (read_dataset d (bs "expect.dataset.json")) ;;
    let named o := match o with Some (_, n) => n | None => [] end in
    let content o := match o with Some (b, _) => Some b | None => None end : option bytes in
    let handle k pre o := match o with Some (b, n) => [(k, (pre ++ n, b))] | None => [] end : list (N * (bytes * bytes)) in
    if is_nil input && is_nil body && is_nil tf && is_nil vz && is_nil rm && is_nil expect then Err (EMsg "no test data at path")
    else Ok (mkCase dir name (named body) (content body) (named tf) (content tf) (named vz) (content vz) (named rm) (content rm) ds expect
               (handle 1%N (bs "/") body ++ handle 2%N [] tf ++ handle 3%N [] vz ++ handle 4%N [] rm)).

  (** dstest.go:131-145, LoadTestCases: the entries of the directory, each a directory with its files or something else *)
  Definition load_test_cases (dir : bytes) (entries : list (bytes * option folder)) : list (bytes * test_case) :=
    fold_left (fun tcs e =>
      match snd e with
      | Some d => match new_test_case (dir ++ bs "/" ++ fst e) d with Ok tc => map_set (fst e) tc tcs | _ => tcs end
      | None => tcs
      end) entries [].

  (** golden.go:30-43, LoadGoldenFile; t.Fatalf is an error *)
  Definition load_golden (n : node) : res dataset :=
    match read_file n with
    | inl b => decode b
    | inr NotExist => Err (EMsg "opening JSON golden file")
    | inr (Fault e) => Err (EWrap "opening JSON golden file" 0 e)
    end.
End Load.

(** json.MarshalIndent(v, "", "  "), on the document that is written; [n] is the depth. *)
Definition new_line (n : nat) : bytes := 10%N :: repeat 32%N (2 * n).
Fixpoint indented (n : nat) (d : jdoc) : bytes :=
  match d with
  | JArr (x :: l) => 91%N :: new_line (S n) ++ indented (S n) x ++ flat_map (fun y => 44%N :: new_line (S n) ++ indented (S n) y) l ++ new_line n ++ [93%N]
  | JObj (kv :: o) => 123%N :: new_line (S n) ++ (quote (fst kv) ++ bs ": " ++ indented (S n) (snd kv)) ++
      flat_map (fun kv => 44%N :: new_line (S n) ++ (quote (fst kv) ++ bs ": " ++ indented (S n) (snd kv))) o ++ new_line n ++ [125%N]
  | _ => doc_text d
  end.
Definition to_indented (d : dataset) : res bytes := doc <- dataset_encode d ;; Ok (indented 0 doc).

(** Two datasets in memory, expected at address 1 and found at address 2 *)
Definition pointed {A} (a : N) (o : option A) : option N := match o with Some _ => Some a | None => None end.
Definition in_memory (a : N) (d : dataset) : pdataset :=
  mkPD (mkScalars (ds_body_file d) (ds_body d) (ds_body_bytes d) (ds_body_path d) (ds_id d) (ds_name d) (ds_path d) (ds_peername d) (ds_previous d)
          (ds_profile d) (ds_num_versions d) (ds_qri d))
    (pointed a (ds_commit d)) (pointed a (ds_meta d)) (pointed a (ds_readme d)) (pointed a (ds_structure d)) (pointed a (ds_stats d))
    (pointed a (ds_transform d)) (pointed a (ds_viz d)).
Definition two_datasets (e g : dataset) : heap :=
  let two {A} (zero : A) (f : dataset -> option A) := fun a : N => or_new zero (f (if N.eqb a 1 then e else g)) in
  mkHeap (fun a => if N.eqb a 1 then in_memory 1 e else in_memory 2 g) (two (commit_ref []) ds_commit) (two (meta_ref []) ds_meta) (two (sc_ref []) ds_readme)
    (two (structure_ref []) ds_structure) (two (stats_ref []) ds_stats) (two (transform_ref []) ds_transform) (two (sc_ref []) ds_viz).
(** dstest/compare.go:16-40, CompareDatasets without options returns "" *)
Definition same_datasets (e g : dataset) : Prop :=
  no_difference 3 4 (compare_prepare false 3 4 (Some 1%N) (Some 2%N) (two_datasets e g)).

(** golden.go:20-27, 47-58, CompareGoldenDatasetAndUpdateIfEnvVarSet with UpdateGoldenFileIfEnvVarSet: what becomes of the
    test and of the golden file.  [update]: QRI_UPDATE_GOLDEN_FILES is not empty.  Writing the file is assumed to succeed; a
    dataset that cannot be marshalled makes it panic, which ends the test. *)
Inductive verdict := Passed | Mismatch | Fatal.
Inductive golden_run (decode : bytes -> res dataset) (update : bool) (got : dataset) (n : node) : verdict -> node -> Prop :=
| gr_fatal : forall e, load_golden decode n = Err e -> golden_run decode update got n Fatal n
| gr_same : forall e, load_golden decode n = Ok e -> same_datasets e got -> golden_run decode update got n Passed n
| gr_keep : forall e, load_golden decode n = Ok e -> ~ same_datasets e got -> update = false -> golden_run decode update got n Mismatch n
| gr_write : forall e b, load_golden decode n = Ok e -> ~ same_datasets e got -> update = true -> to_indented got = Ok b ->
    golden_run decode update got n Mismatch (Plain b)
| gr_panic : forall e x, load_golden decode n = Ok e -> ~ same_datasets e got -> update = true -> to_indented got = Err x -> golden_run decode update got n Fatal n.
