(** Model of Dataset.Assign with component pointers (dataset.go:352-429).
    Components live at addresses of per-type stores, dataset structs at addresses of their own; the receiver and the
    sources are given by address, so any sharing between them is possible.
    Simplification: a transform's maps are part of the transform object; two transforms never share a map. *)
From Verif Require Import Base M_Doc M_Components.

(** dataset.go:46-93: the fields of a dataset struct which are not component pointers *)
Record scalars := mkScalars {
  sl_body_file : file; sl_body : jdoc; sl_body_bytes : option bytes; sl_body_path : bytes; sl_id : bytes;
  sl_name : bytes; sl_path : bytes; sl_peername : bytes; sl_previous : bytes; sl_profile : bytes;
  sl_num_versions : Z; sl_qri : bytes }.
(** dataset.go:46-93, a dataset struct in memory *)
Record pdataset := mkPD {
  pd_scalars : scalars; pd_commit : option N; pd_meta : option N; pd_readme : option N; pd_structure : option N;
  pd_stats : option N; pd_transform : option N; pd_viz : option N }.
Record heap := mkHeap {
  h_ds : N -> pdataset; h_commit : N -> commit; h_meta : N -> meta; h_readme : N -> script_component;
  h_structure : N -> structure; h_stats : N -> stats; h_transform : N -> transform; h_viz : N -> script_component }.

Definition upd {A} (st : N -> A) (a : N) (v : A) : N -> A := fun x => if N.eqb x a then v else st x.

(** "if ds.X == nil && d.X != nil { ds.X = d.X } else if ds.X != nil { ds.X.Assign(d.X) }" (e.g. dataset.go:372-376):
    the receiver's pointer and the store afterwards. *)
Definition slot {A} (assign1 : A -> option A -> A) (recv src : option N) (st : N -> A) : option N * (N -> A) :=
  match recv with
  | None => (src, st)
  | Some a => (Some a, upd st a (assign1 (st a) (option_map st src)))
  end.

(** dataset.go:359-370, 377-379, 385-399 *)
Definition scalars_assign1 (d s : scalars) : scalars :=
  mkScalars (as_opt (sl_body_file s) (sl_body_file d)) (as_dyn (sl_body s) (sl_body d))
    (as_opt (sl_body_bytes s) (sl_body_bytes d)) (as_str (sl_body_path s) (sl_body_path d)) (as_str (sl_id d) (sl_id s))
    (as_str (sl_name s) (sl_name d)) (as_str (sl_path s) (sl_path d)) (as_str (sl_peername s) (sl_peername d))
    (as_str (sl_previous s) (sl_previous d)) (as_str (sl_profile s) (sl_profile d)) (sl_num_versions d) (sl_qri d).

(** dataset.go:353-428, one source *)
Definition heap_assign1 (r : N) (h : heap) (src : option N) : heap :=
  match src with
  | None => h
  | Some s =>
      let p := h_ds h r in
      let q := h_ds h s in
      let '(cm, hcm) := slot commit_assign1 (pd_commit p) (pd_commit q) (h_commit h) in
      let '(md, hmd) := slot meta_assign1 (pd_meta p) (pd_meta q) (h_meta h) in
      let '(sa, hsa) := slot stats_assign1 (pd_stats p) (pd_stats q) (h_stats h) in
      let '(st, hst) := slot structure_assign1 (pd_structure p) (pd_structure q) (h_structure h) in
      let '(tf, htf) := slot transform_assign1 (pd_transform p) (pd_transform q) (h_transform h) in
      let '(vz, hvz) := slot sc_assign1 (pd_viz p) (pd_viz q) (h_viz h) in
      let '(rm, hrm) := slot sc_assign1 (pd_readme p) (pd_readme q) (h_readme h) in
      (* dataset.go:427; by then d.Commit is the receiver's own pointer if d is the receiver *)
      let qcm := if N.eqb s r then cm else pd_commit q in
      let hcm2 := match cm with None => hcm | Some a => upd hcm a (commit_assign1 (hcm a) (option_map hcm qcm)) end in
      mkHeap (upd (h_ds h) r (mkPD (scalars_assign1 (pd_scalars p) (pd_scalars q)) cm md rm st sa tf vz))
        hcm2 hmd hrm hst hsa htf hvz
  end.
Definition heap_assign (r : N) (srcs : list (option N)) (h : heap) : heap := fold_left (heap_assign1 r) srcs h.

(** What a reader of the dataset at an address sees. *)
Definition deref (h : heap) (a : N) : dataset :=
  let p := h_ds h a in
  let s := pd_scalars p in
  mkDataset (sl_body_file s) (sl_body s) (sl_body_bytes s) (sl_body_path s) (option_map (h_commit h) (pd_commit p)) (sl_id s)
    (option_map (h_meta h) (pd_meta p)) (sl_name s) (sl_path s) (sl_peername s) (sl_previous s) (sl_profile s)
    (option_map (h_readme h) (pd_readme p)) (sl_num_versions s) (sl_qri s) (option_map (h_structure h) (pd_structure p))
    (option_map (h_stats h) (pd_stats p)) (option_map (h_transform h) (pd_transform p)) (option_map (h_viz h) (pd_viz p)).
