(** Specification of Assign, PathMap and ShallowCompare. *)
From Verif Require Import Base M_Doc M_Components.

Definition present {A} (l : list (option A)) : list A := flat_map (fun o => match o with Some a => [a] | None => [] end) l.

(** [r] is the last value in [srcs] that is set, or [old] if none is. *)
Definition last_set {A} (set : A -> Prop) (old : A) (srcs : list A) (r : A) : Prop :=
  (exists before after, srcs = before ++ r :: after /\ set r /\ Forall (fun x => ~ set x) after) \/
  (r = old /\ Forall (fun x => ~ set x) srcs).
(** [r] is [old] if that is set, else the first set value of [srcs], else [old]. *)
Definition first_set {A} (set : A -> Prop) (old : A) (srcs : list A) (r : A) : Prop :=
  (set old /\ r = old) \/
  (~ set old /\ exists before after, srcs = before ++ r :: after /\ set r /\ Forall (fun x => ~ set x) before) \/
  (~ set old /\ r = old /\ Forall (fun x => ~ set x) srcs).

Definition str_set (s : bytes) : Prop := s <> [].
Definition int_set (z : Z) : Prop := z <> 0%Z.
Definition flag_set (b : bool) : Prop := b = true.
Definition ptr_set {A} (o : option A) : Prop := o <> None.
Definition dyn_set (d : jdoc) : Prop := d <> JNull.

(** A member of a possibly nil map. *)
Definition gomap_get {V} (k : bytes) (m : gomap V) : option V := match m with None => None | Some m => map_get k m end.
Definition gomap_wf {V} (m : gomap V) : Prop := match m with None => True | Some m => sorted m end.

(** Collapse a list of optional components: the first one present, with the later ones assigned onto it. *)
Definition collapse {A} (assign : A -> list (option A) -> A) (l : list (option A)) : option A :=
  match present l with [] => None | c :: rest => Some (assign c (map Some rest)) end.

(** The path PathMap should give for a component name, None if the component is absent. *)
Definition nonempty (s : bytes) : option bytes := match s with [] => None | _ => Some s end.
Definition component_path (d : dataset) (name : bytes) : option bytes :=
  if beqb name (bs "body") then nonempty (ds_body_path d)
  else if beqb name (bs "dataset") then nonempty (ds_path d)
  else if beqb name (bs "commit") then option_map cm_path (ds_commit d)
  else if beqb name (bs "meta") then option_map md_path (ds_meta d)
  else if beqb name (bs "readme") then option_map sc_path (ds_readme d)
  else if beqb name (bs "stats") then option_map sa_path (ds_stats d)
  else if beqb name (bs "structure") then option_map st_path (ds_structure d)
  else if beqb name (bs "transform") then option_map tf_path (ds_transform d)
  else if beqb name (bs "viz") then option_map sc_path (ds_viz d)
  else None.

(** Equality up to path and open files. *)
Definition sc_same (a b : script_component) : Prop :=
  sc_format a = sc_format b /\ sc_qri a = sc_qri b /\ sc_script_path a = sc_script_path b /\
  sc_rendered_path a = sc_rendered_path b /\ sc_text a = sc_text b.
Definition transform_same (a b : transform) : Prop :=
  a = mkTransform (tf_config b) (tf_path a) (tf_qri b) (tf_resources b) (tf_script_file a) (tf_script_path b) (tf_text b)
        (tf_secrets b) (tf_steps b) (tf_syntax b) (tf_syntax_version b) (tf_syntaxes b).
Definition opt_same {A} (same : A -> A -> Prop) (a b : option A) : Prop :=
  match a, b with None, None => True | Some a, Some b => same a b | _, _ => False end.
