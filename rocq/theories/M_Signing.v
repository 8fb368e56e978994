(** Model of the bytes that are signed for a dataset: dataset.go:169-232. *)
From Verif Require Import Base M_Strings M_Time M_Formats M_Doc M_Components.

(** strings.Join *)
Fixpoint strings_join (sep : bytes) (xs : list bytes) : bytes :=
  match xs with [] => [] | [x] => x | x :: r => x ++ sep ++ strings_join sep r end.

(** kind.go:11-30 *)
Definition kind_body := bs "bd:0".
Definition kind_commit := bs "cm:0".
Definition kind_meta := bs "md:0".
Definition kind_readme := bs "rm:0".
Definition kind_structure := bs "st:0".
Definition kind_transform := bs "tf:0".
Definition kind_stats := bs "sa:0".
Definition kind_viz := bs "vz:0".

(** One "if … { sigComponents = append(sigComponents, …) }" *)
Definition sig_add (cond : bool) (part : res bytes) (acc : res (list bytes)) : res (list bytes) :=
  if cond then
    match acc, part with
    | Ok l, Ok p => Ok (l ++ [p])
    | Ok _, Err e => Err e
    | Ok _, Panic => Panic
    | Ok _, OutOfFuel => OutOfFuel
    | r, _ => r
    end
  else acc.
(** "ds.X != nil && ds.X.Path != empty" *)
Definition has_path {A} (path : A -> bytes) (c : option A) : bool :=
  match c with None => false | Some c => negb (bempty (path c)) end.
Definition path_or {A} (path : A -> bytes) (c : option A) : bytes := match c with None => [] | Some c => path c end.

(** dataset.go:185-217, SigningBytes *)
Definition sig_components (d : dataset) : res (list bytes) :=
  let a := Ok [] in
  let a := sig_add (negb (bempty (ds_id d))) (Ok (bs "id:" ++ ds_id d)) a in
  let a := sig_add (negb (bempty (ds_body_path d))) (component_type_prefix kind_body (ds_body_path d)) a in
  let ts := match ds_commit d with None => 0%Z | Some c => cm_timestamp c end in
  let a := sig_add (match ds_commit d with None => false | Some c => negb (Z.eqb (cm_timestamp c) 0) end)
             (component_type_prefix kind_commit (rfc3339 ts)) a in
  let a := sig_add (has_path md_path (ds_meta d)) (component_type_prefix kind_meta (path_or md_path (ds_meta d))) a in
  let a := sig_add (has_path sc_path (ds_readme d)) (component_type_prefix kind_readme (path_or sc_path (ds_readme d))) a in
  let a := sig_add (has_path st_path (ds_structure d)) (component_type_prefix kind_structure (path_or st_path (ds_structure d))) a in
  let a := sig_add (has_path tf_path (ds_transform d)) (component_type_prefix kind_transform (path_or tf_path (ds_transform d))) a in
  let a := sig_add (has_path sa_path (ds_stats d)) (component_type_prefix kind_stats (path_or sa_path (ds_stats d))) a in
  sig_add (has_path sc_path (ds_viz d)) (component_type_prefix kind_viz (path_or sc_path (ds_viz d))) a.
Definition signing_bytes (d : dataset) : res bytes :=
  match sig_components d with
  | Ok l => Ok (strings_join [cLF] l)
  | Err e => Err e
  | Panic => Panic
  | OutOfFuel => OutOfFuel
  end.

(** dataset.go:224-232, SignableBytes *)
Definition signable_bytes (d : dataset) : res bytes :=
  match ds_commit d with
  | None => Err (EMsg "commit is required")
  | Some c =>
      match ds_structure d with
      | None => Err (EMsg "structure is required")
      | Some s => Ok (rfc3339 (cm_timestamp c) ++ [cLF] ++ st_checksum s)
      end
  end.
