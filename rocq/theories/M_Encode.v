(** Model of MarshalJSON, MarshalJSONObject and UnmarshalJSON of the components and of Dataset: commit.go, stats.go,
    readme.go, viz.go, transform.go, structure.go, meta.go, dataset.go.
    Simplifications: documents are trees (M_Doc), so strings are taken to be valid UTF-8 (encoding/json replaces
    other bytes); a value the Go struct holds in an interface{} is the document it encodes to; receivers that the
    code writes to while encoding (readme.go:200, viz.go:203, dataset.go:438) are returned as a second result. *)
From Verif Require Import Base M_Doc M_Components.

Definition default_kind (kind q : bytes) : bytes := match q with [] => kind | _ => q end.
(** A member without omitempty is always written. *)
Definition always (d : jdoc) : option jdoc := Some d.
(** map[string]V, omitempty *)
Definition oe_mapv {A} (enc : A -> jdoc) (m : gomap A) : option jdoc :=
  oe_map (option_map (map (fun kv => (fst kv, enc (snd kv)))) m).

(** ** meta.go:431-435, 456-459, 478-482: plain structs *)
Definition user_members (u : user) := [(bs "id", oe_str (u_id u)); (bs "name", oe_str (u_name u)); (bs "email", oe_str (u_email u))].
Definition enc_user (u : user) : jdoc := JObj (members (user_members u)).
Definition user_names := [bs "id"; bs "name"; bs "email"].
Definition struct_of {A} (obj : list (bytes * jdoc) -> res A) (zero : A) (d : jdoc) : res A :=
  match d with JObj o => obj o | JNull => Ok zero | _ => dtype_error end.
Definition dec_user : jdoc -> res user := struct_of (fun o =>
  i <- d_str (routed user_names (bs "id") o) ;; n <- d_str (routed user_names (bs "name") o) ;;
  e <- d_str (routed user_names (bs "email") o) ;; Ok (mkUser i n e)) (mkUser [] [] []).
Definition license_members (l : license) := [(bs "type", oe_str (li_type l)); (bs "url", oe_str (li_url l))].
Definition enc_license (l : license) : jdoc := JObj (members (license_members l)).
Definition license_names := [bs "type"; bs "url"].
Definition dec_license : jdoc -> res license := struct_of (fun o =>
  t <- d_str (routed license_names (bs "type") o) ;; u <- d_str (routed license_names (bs "url") o) ;;
  Ok (mkLicense t u)) (mkLicense [] []).
Definition citation_members (c : citation) := [(bs "name", oe_str (ci_name c)); (bs "url", oe_str (ci_url c)); (bs "email", oe_str (ci_email c))].
Definition enc_citation (c : citation) : jdoc := JObj (members (citation_members c)).
Definition citation_names := [bs "name"; bs "url"; bs "email"].
Definition dec_citation : jdoc -> res citation := struct_of (fun o =>
  n <- d_str (routed citation_names (bs "name") o) ;; u <- d_str (routed citation_names (bs "url") o) ;;
  e <- d_str (routed citation_names (bs "email") o) ;; Ok (mkCitation n u e)) (mkCitation [] [] []).

(** ** commit.go *)
(** time.Time.MarshalJSON refuses years outside 0..9999; nanoseconds since 0001-01-01. *)
Definition min_time : Z := (- 366 * 86400 * 1000000000)%Z.
Definition max_time : Z := (3652059 * 86400 * 1000000000)%Z.
Definition time_encodes (t : Z) : bool := (min_time <=? t)%Z && (t <? max_time)%Z.
(** commit.go:112-129 *)
Definition commit_members (c : commit) : list (bytes * option jdoc) :=
  [(bs "author", oe_ptr enc_user (cm_author c)); (bs "message", oe_str (cm_message c)); (bs "path", oe_str (cm_path c));
   (bs "qri", oe_str (default_kind (bs "cm:0") (cm_qri c))); (bs "signature", oe_str (cm_signature c));
   (bs "timestamp", always (JTime (cm_timestamp c))); (bs "title", always (JStr (cm_title c))); (bs "runID", oe_str (cm_runid c))].
Definition commit_object (c : commit) : res jdoc :=
  if time_encodes (cm_timestamp c) then Ok (JObj (members (commit_members c)))
  else Err (EMsg "Time.MarshalJSON: year outside of range [0,9999]").
(** commit.go:103-108 *)
Definition commit_encode (c : commit) : res jdoc :=
  if negb (bempty (cm_path c)) && commit_is_empty c then Ok (JStr (cm_path c)) else commit_object c.
(** commit.go:135-150 *)
Definition commit_names := [bs "author"; bs "message"; bs "path"; bs "qri"; bs "signature"; bs "timestamp"; bs "title"; bs "runID"].
Definition commit_decode : jdoc -> res commit := ref_or_object commit_ref (fun o =>
  let f n := routed commit_names n o in
  a <- d_ptr dec_user (f (bs "author")) ;; m <- d_str (f (bs "message")) ;; p <- d_str (f (bs "path")) ;; q <- d_str (f (bs "qri")) ;;
  s <- d_str (f (bs "signature")) ;; t <- d_time (f (bs "timestamp")) ;; ti <- d_str (f (bs "title")) ;; r <- d_str (f (bs "runID")) ;;
  Ok (mkCommit a m p q s t ti r)).

(** ** stats.go:53-92 *)
Definition stats_members (s : stats) : list (bytes * option jdoc) :=
  [(bs "path", oe_str (sa_path s)); (bs "qri", oe_str (default_kind (bs "sa:0") (sa_qri s))); (bs "stats", oe_dyn (sa_stats s))].
Definition stats_object (s : stats) : res jdoc := Ok (JObj (members (stats_members s))).
Definition stats_encode (s : stats) : res jdoc :=
  if negb (bempty (sa_path s)) && stats_is_empty s then Ok (JStr (sa_path s)) else stats_object s.
Definition stats_names := [bs "path"; bs "qri"; bs "stats"].
Definition stats_decode : jdoc -> res stats := ref_or_object stats_ref (fun o =>
  p <- d_str (routed stats_names (bs "path") o) ;; q <- d_str (routed stats_names (bs "qri") o) ;;
  s <- d_dyn (routed stats_names (bs "stats") o) ;; Ok (mkStats p q s)).

(** ** readme.go:194-265 and viz.go:196-268.  MarshalJSONObject builds a map, which encodes with sorted keys, and
    leaves the path out.  [kind] is rm:0 or vz:0. *)
Definition sc_with_qri (c : script_component) (q : bytes) : script_component :=
  mkScript (sc_format c) (sc_path c) q (sc_script_file c) (sc_rendered_file c) (sc_script_path c) (sc_text c) (sc_rendered_path c).
Definition put_str (k : bytes) (s : bytes) (m : list (bytes * jdoc)) : list (bytes * jdoc) :=
  match s with [] => m | _ => map_set k (JStr s) m end.
Definition sc_object (c : script_component) : res jdoc :=
  let m := [(bs "qri", JStr (sc_qri c))] in
  let m := put_str (bs "format") (sc_format c) m in
  let m := put_str (bs "text") (sc_text c) m in
  let m := put_str (bs "scriptPath") (sc_script_path c) m in
  Ok (JObj (put_str (bs "renderedPath") (sc_rendered_path c) m)).
Definition sc_encode (kind : bytes) (c : script_component) : res jdoc * script_component :=
  if negb (bempty (sc_path c)) && sc_is_empty c then (Ok (JStr (sc_path c)), c)
  else let c := sc_with_qri c (default_kind kind (sc_qri c)) in (sc_object c, c).
Definition sc_names := [bs "format"; bs "path"; bs "qri"; bs "scriptPath"; bs "text"; bs "renderedPath"].
Definition sc_decode (kind : bytes) : jdoc -> res script_component := ref_or_object sc_ref (fun o =>
  let f n := routed sc_names n o in
  fo <- d_str (f (bs "format")) ;; p <- d_str (f (bs "path")) ;; q <- d_str (f (bs "qri")) ;; s <- d_str (f (bs "scriptPath")) ;;
  t <- d_str (f (bs "text")) ;; r <- d_str (f (bs "renderedPath")) ;;
  Ok (mkScript fo p (default_kind kind q) None None s t r)).
Definition readme_encode := sc_encode (bs "rm:0").
Definition readme_decode := sc_decode (bs "rm:0").
Definition viz_encode := sc_encode (bs "vz:0").
Definition viz_decode := sc_decode (bs "vz:0").

(** ** transform.go *)
(** transform.go:128-151, TransformResource *)
Definition enc_resource (p : bytes) : jdoc := JObj [(bs "path", JStr p)].
Definition dec_resource : jdoc -> res bytes :=
  ref_or_object (fun s => s) (fun o => d_str (routed [bs "path"] (bs "path") o)).
(** transform.go:328-334, TransformStep *)
Definition step_members (s : step) : list (bytes * option jdoc) :=
  [(bs "name", always (JStr (sp_name s))); (bs "path", oe_str (sp_path s)); (bs "syntax", always (JStr (sp_syntax s)));
   (bs "category", always (JStr (sp_category s))); (bs "script", always (sp_script s))].
Definition enc_step (s : step) : jdoc := JObj (members (step_members s)).
Definition step_names := [bs "name"; bs "path"; bs "syntax"; bs "category"; bs "script"].
Definition dec_step : jdoc -> res step := struct_of (fun o =>
  let f n := routed step_names n o in
  n <- d_str (f (bs "name")) ;; p <- d_str (f (bs "path")) ;; s <- d_str (f (bs "syntax")) ;; c <- d_str (f (bs "category")) ;;
  x <- d_dyn (f (bs "script")) ;; Ok (mkStep n p s c x)) (mkStep [] [] [] [] JNull).
(** transform.go:272-290: every field but the secrets and the script file *)
Definition transform_members (t : transform) : list (bytes * option jdoc) :=
  [(bs "config", oe_map (tf_config t)); (bs "path", oe_str (tf_path t)); (bs "qri", oe_str (default_kind (bs "tf:0") (tf_qri t)));
   (bs "resources", oe_mapv (enc_ptr enc_resource) (tf_resources t)); (bs "scriptPath", oe_str (tf_script_path t));
   (bs "text", oe_str (tf_text t)); (bs "secrets", oe_mapv JStr None); (bs "steps", oe_slice (enc_ptr enc_step) (tf_steps t));
   (bs "syntax", oe_str (tf_syntax t)); (bs "syntaxVersion", oe_str (tf_syntax_version t)); (bs "syntaxes", oe_mapv JStr (tf_syntaxes t))].
Definition transform_object (t : transform) : res jdoc := Ok (JObj (members (transform_members t))).
(** transform.go:263-269 *)
Definition transform_encode (t : transform) : res jdoc :=
  if negb (bempty (tf_path t)) && transform_is_empty t then Ok (JStr (tf_path t)) else transform_object t.
(** transform.go:293-307 *)
Definition transform_names := [bs "config"; bs "path"; bs "qri"; bs "resources"; bs "scriptPath"; bs "text"; bs "secrets";
  bs "steps"; bs "syntax"; bs "syntaxVersion"; bs "syntaxes"].
Definition transform_decode : jdoc -> res transform := ref_or_object transform_ref (fun o =>
  let f n := routed transform_names n o in
  c <- d_map (f (bs "config")) ;; p <- d_str (f (bs "path")) ;; q <- d_str (f (bs "qri")) ;; r <- d_mapv (dec_ptr dec_resource) (f (bs "resources")) ;;
  sp <- d_str (f (bs "scriptPath")) ;; tx <- d_str (f (bs "text")) ;; se <- d_mapv dec_str (f (bs "secrets")) ;;
  st <- d_slice (dec_ptr dec_step) (f (bs "steps")) ;; sy <- d_str (f (bs "syntax")) ;; sv <- d_str (f (bs "syntaxVersion")) ;;
  ss <- d_mapv dec_str (f (bs "syntaxes")) ;;
  Ok (mkTransform c p q r None sp tx se st sy sv ss)).

(** ** structure.go *)
(** structure.go:200-227; the struct order of structure.go:29-77 decides the member order. *)
Definition structure_members (s : structure) : list (bytes * option jdoc) :=
  [(bs "checksum", oe_str (st_checksum s)); (bs "compression", oe_str (st_compression s)); (bs "depth", oe_int (st_depth s));
   (bs "encoding", oe_str (st_encoding s)); (bs "errCount", oe_int (st_err_count s)); (bs "entries", oe_int (st_entries s));
   (bs "format", always (JStr (st_format s))); (bs "formatConfig", oe_map (st_format_config s)); (bs "length", oe_int (st_length s));
   (bs "path", oe_str (st_path s)); (bs "qri", always (JStr (default_kind (bs "st:0") (st_qri s)))); (bs "schema", oe_map (st_schema s));
   (bs "strict", oe_bool (st_strict s))].
Definition structure_object (s : structure) : res jdoc := Ok (JObj (members (structure_members s))).
(** structure.go:191-197 *)
Definition structure_encode (s : structure) : res jdoc :=
  if negb (bempty (st_path s)) && bempty (st_encoding s) && is_nil (st_schema s) then Ok (JStr (st_path s)) else structure_object s.
(** structure.go:230-245 *)
Definition structure_names := [bs "checksum"; bs "compression"; bs "depth"; bs "encoding"; bs "errCount"; bs "entries"; bs "format";
  bs "formatConfig"; bs "length"; bs "path"; bs "qri"; bs "schema"; bs "strict"].
Definition structure_decode : jdoc -> res structure := ref_or_object structure_ref (fun o =>
  let f n := routed structure_names n o in
  ch <- d_str (f (bs "checksum")) ;; co <- d_str (f (bs "compression")) ;; de <- d_int (f (bs "depth")) ;; en <- d_str (f (bs "encoding")) ;;
  er <- d_int (f (bs "errCount")) ;; es <- d_int (f (bs "entries")) ;; fo <- d_str (f (bs "format")) ;; fc <- d_map (f (bs "formatConfig")) ;;
  le <- d_int (f (bs "length")) ;; pa <- d_str (f (bs "path")) ;; q <- d_str (f (bs "qri")) ;; sc <- d_map (f (bs "schema")) ;; st <- d_bool (f (bs "strict")) ;;
  Ok (mkStructure ch co de en er es fo fc le pa q sc st)).

(** ** meta.go *)
(** meta.go:319-370: a copy of the arbitrary map with the set fields written over it; the map encodes with sorted keys. *)
Definition put_opt (k : bytes) (d : option jdoc) (m : list (bytes * jdoc)) : list (bytes * jdoc) :=
  match d with Some d => map_set k d m | None => m end.
Definition enc_list {A} (enc : A -> jdoc) (l : list A) : jdoc := JArr (map enc l).
Definition meta_fields (c : meta) : list (bytes * option jdoc) :=
  [(bs "qri", Some (JStr (bs "md:0")));
   (bs "accessURL", oe_str (md_access_url c)); (bs "citations", option_map (enc_list (enc_ptr enc_citation)) (md_citations c));
   (bs "contributors", option_map (enc_list (enc_ptr enc_user)) (md_contributors c)); (bs "description", oe_str (md_description c));
   (bs "downloadURL", oe_str (md_download_url c)); (bs "homeURL", oe_str (md_home_url c)); (bs "identifier", oe_str (md_identifier c));
   (bs "keywords", option_map (enc_list JStr) (md_keywords c)); (bs "language", option_map (enc_list JStr) (md_language c));
   (bs "license", option_map enc_license (md_license c)); (bs "path", oe_str (md_path c)); (bs "readmeURL", oe_str (md_readme_url c));
   (bs "theme", option_map (enc_list JStr) (md_theme c)); (bs "title", oe_str (md_title c));
   (bs "accrualPeriodicity", oe_str (md_accrual c)); (bs "version", oe_str (md_version c))].
Definition put_all (l : list (bytes * option jdoc)) (m : list (bytes * jdoc)) : list (bytes * jdoc) :=
  fold_left (fun m kd => put_opt (fst kd) (snd kd) m) l m.
Definition meta_object (c : meta) : res jdoc :=
  Ok (JObj (put_all (meta_fields c) (match md_meta c with Some m => m | None => [] end))).
(** meta.go:306-314 *)
Definition meta_encode (c : meta) : res jdoc :=
  if negb (bempty (md_path c)) && meta_is_empty c then Ok (JStr (md_path c)) else meta_object c.
(** meta.go:20-64: the members of the struct, and 398-420: the keys that are deleted from the arbitrary map *)
Definition meta_names := [bs "accessURL"; bs "accrualPeriodicity"; bs "citations"; bs "contributors"; bs "description";
  bs "downloadURL"; bs "homeURL"; bs "identifier"; bs "keywords"; bs "language"; bs "license"; bs "path"; bs "qri"; bs "readmeURL";
  bs "title"; bs "theme"; bs "version"].
Definition meta_deleted := [bs "accessURL"; bs "accrualPeriodicity"; bs "citations"; bs "contributors"; bs "data"; bs "description";
  bs "downloadURL"; bs "homeURL"; bs "identifier"; bs "image"; bs "keyword"; bs "path"; bs "qri"; bs "language"; bs "length";
  bs "license"; bs "readmeURL"; bs "theme"; bs "timestamp"; bs "title"; bs "version"].
Definition del_all (ks : list bytes) (m : list (bytes * jdoc)) : list (bytes * jdoc) := fold_left (fun m k => map_del k m) ks m.
Definition non_empty (m : list (bytes * jdoc)) : gomap jdoc := match m with [] => None | _ => Some m end.
(** meta.go:379-428 *)
Definition meta_decode : jdoc -> res meta := ref_or_object meta_ref (fun o =>
  let f n := routed meta_names n o in
  au <- d_str (f (bs "accessURL")) ;; ac <- d_str (f (bs "accrualPeriodicity")) ;; ci <- d_slice (dec_ptr dec_citation) (f (bs "citations")) ;;
  co <- d_slice (dec_ptr dec_user) (f (bs "contributors")) ;; de <- d_str (f (bs "description")) ;; dn <- d_str (f (bs "downloadURL")) ;;
  ho <- d_str (f (bs "homeURL")) ;; id <- d_str (f (bs "identifier")) ;; ke <- d_slice dec_str (f (bs "keywords")) ;; la <- d_slice dec_str (f (bs "language")) ;;
  li <- d_ptr dec_license (f (bs "license")) ;; pa <- d_str (f (bs "path")) ;; q <- d_str (f (bs "qri")) ;; re <- d_str (f (bs "readmeURL")) ;;
  ti <- d_str (f (bs "title")) ;; th <- d_slice dec_str (f (bs "theme")) ;; ve <- d_str (f (bs "version")) ;;
  Ok (mkMeta (non_empty (del_all meta_deleted (to_map o))) au ac ci co de dn ho id ke la li pa q re ti th ve)).

(** ** dataset.go:433-466 *)
Definition ptr_res {A} (enc : A -> res jdoc) (o : option A) : res (option jdoc) :=
  match o with None => Ok None | Some a => d <- enc a ;; Ok (Some d) end.
Definition oe_b64 (b : option bytes) : option jdoc := match b with Some (x :: l) => Some (JB64 (x :: l)) | _ => None end.
(** The dataset after encoding: its kind and those of readme and viz are filled in.  dataset.go:433-441; a failing
    commit stops the encoding before the readme, which is not shown here. *)
Definition dataset_after_encode (d : dataset) : dataset :=
  if negb (bempty (ds_path d)) && dataset_is_empty d then d
  else mkDataset (ds_body_file d) (ds_body d) (ds_body_bytes d) (ds_body_path d) (ds_commit d) (ds_id d) (ds_meta d) (ds_name d)
    (ds_path d) (ds_peername d) (ds_previous d) (ds_profile d) (option_map (fun c => snd (readme_encode c)) (ds_readme d))
    (ds_num_versions d) (default_kind (bs "ds:0") (ds_qri d)) (ds_structure d) (ds_stats d) (ds_transform d)
    (option_map (fun c => snd (viz_encode c)) (ds_viz d)).
Definition dataset_members (d : dataset) (cm md rm st sa tf vz : option jdoc) : list (bytes * option jdoc) :=
  [(bs "body", oe_dyn (ds_body d)); (bs "bodyBytes", oe_b64 (ds_body_bytes d)); (bs "bodyPath", oe_str (ds_body_path d));
   (bs "commit", cm); (bs "id", oe_str (ds_id d)); (bs "meta", md); (bs "name", oe_str (ds_name d)); (bs "path", oe_str (ds_path d));
   (bs "peername", oe_str (ds_peername d)); (bs "previousPath", oe_str (ds_previous d)); (bs "profileID", oe_str (ds_profile d));
   (bs "readme", rm); (bs "numVersions", oe_int (ds_num_versions d));
   (bs "qri", always (JStr (default_kind (bs "ds:0") (ds_qri d)))); (bs "structure", st); (bs "stats", sa); (bs "transform", tf);
   (bs "viz", vz)].
Definition dataset_encode (d : dataset) : res jdoc :=
  if negb (bempty (ds_path d)) && dataset_is_empty d then Ok (JStr (ds_path d))
  else cm <- ptr_res commit_encode (ds_commit d) ;; md <- ptr_res meta_encode (ds_meta d) ;;
       rm <- ptr_res (fun c => fst (readme_encode c)) (ds_readme d) ;; st <- ptr_res structure_encode (ds_structure d) ;;
       sa <- ptr_res stats_encode (ds_stats d) ;; tf <- ptr_res transform_encode (ds_transform d) ;;
       vz <- ptr_res (fun c => fst (viz_encode c)) (ds_viz d) ;;
       Ok (JObj (members (dataset_members d cm md rm st sa tf vz))).
(** dataset.go:449-466 *)
Definition dataset_names := [bs "body"; bs "bodyBytes"; bs "bodyPath"; bs "commit"; bs "id"; bs "meta"; bs "name"; bs "path";
  bs "peername"; bs "previousPath"; bs "profileID"; bs "readme"; bs "numVersions"; bs "qri"; bs "structure"; bs "stats";
  bs "transform"; bs "viz"].
Definition dataset_decode : jdoc -> res dataset := ref_or_object dataset_ref (fun o =>
  let f n := routed dataset_names n o in
  bo <- d_dyn (f (bs "body")) ;; bb <- d_b64 (f (bs "bodyBytes")) ;; bp <- d_str (f (bs "bodyPath")) ;; cm <- d_ptr commit_decode (f (bs "commit")) ;;
  id <- d_str (f (bs "id")) ;; md <- d_ptr meta_decode (f (bs "meta")) ;; na <- d_str (f (bs "name")) ;; pa <- d_str (f (bs "path")) ;;
  pe <- d_str (f (bs "peername")) ;; pr <- d_str (f (bs "previousPath")) ;; pf <- d_str (f (bs "profileID")) ;; rm <- d_ptr readme_decode (f (bs "readme")) ;;
  nv <- d_int (f (bs "numVersions")) ;; q <- d_str (f (bs "qri")) ;; st <- d_ptr structure_decode (f (bs "structure")) ;;
  sa <- d_ptr stats_decode (f (bs "stats")) ;; tf <- d_ptr transform_decode (f (bs "transform")) ;; vz <- d_ptr viz_decode (f (bs "viz")) ;;
  Ok (mkDataset None bo bb bp cm id md na pa pe pr pf rm nv q st sa tf vz)).
