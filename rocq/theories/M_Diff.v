(** Model of dsdiff/dsdiff.go.  Package gojsondiff is a parameter: comparing two JSON texts gives some diff, or
    fails; a diff is modified or not, and has deltas, each with a printed form. *)
From Verif Require Import Base M_Decimal M_Components.

(** strings.Title of the Go standard library, for ASCII texts: the first letter of every word in upper case. *)
Definition upper (c : N) : N := if N.leb 97 c && N.leb c 122 then c - 32 else c.
Definition in_word (c : N) : bool :=
  (N.leb 48 c && N.leb c 57) || (N.leb 65 c && N.leb c 90) || (N.leb 97 c && N.leb c 122) || N.eqb c 95.
Fixpoint title_from (start : bool) (s : bytes) : bytes :=
  match s with
  | [] => []
  | c :: r => (if start then upper c else c) :: title_from (negb (in_word c)) r
  end.
Definition title (s : bytes) : bytes := title_from true s.

Section Diff.
  (** jdiff.Diff: Modified, the printed forms of Deltas *)
  Variable D : Type.
  Variable modified : D -> bool.
  Variable deltas : D -> list bytes.
  (** differ.Compare *)
  Variable compare : bytes -> bytes -> res D.
  (** decoding d.a and formatting with or without colour (dsdiff.go:56-70); the delta formatter (75-80) *)
  Variable ascii_format : bool -> bytes -> D -> res bytes.
  Variable delta_format : D -> res bytes.

  (** dsdiff.go:14-18, SubDiff; the embedded Diff is an interface that may be nil. *)
  Record sub_diff : Type := mkSub { sd_diff : option D; sd_kind : bytes; sd_a : bytes; sd_b : bytes }.

  Definition wrap_format (r : res bytes) : res bytes :=
    match r with Err e => Err (EWrap "error summarizing" 0 e) | r => r end.
  (** dsdiff.go:31-87, SummarizeToString; None is a nil pointer.  Deltas and Modified of a nil interface panic. *)
  Definition summarize (d : option sub_diff) (how : bytes) : res bytes :=
    let known := existsb (beqb how) [bs "simple"; bs "listKeys"; bs "plusMinusColor"; bs "plusMinus"; bs "delta"] in
    match d with
    | None => if known then Panic else Ok []
    | Some sd =>
        match sd_diff sd with
        | None => Panic
        | Some x =>
            let ds := deltas x in
            let plural := if Nat.ltb 1 (length ds) then bs "s" else [] in
            let n := dec (N.of_nat (length ds)) in
            if negb (known && modified x) then Ok []
            else if beqb how (bs "simple") then Ok (title (sd_kind sd) ++ bs " Changed. (" ++ n ++ bs " change" ++ plural ++ bs ")")
            else if beqb how (bs "listKeys") then
              let named := fold_left (fun acc del => acc ++ [10; 9]%N ++ bs "- modified " ++ del) ds [] in
              Ok (title (sd_kind sd) ++ bs ": " ++ n ++ bs " change" ++ plural ++ named)
            else if beqb how (bs "delta") then wrap_format (delta_format x)
            else wrap_format (ascii_format (beqb how (bs "plusMinusColor")) (sd_a sd) x)
        end
    end.

  (** dsdiff.go:218-229, DiffJSON *)
  Definition diff_json (a b kind : bytes) : res sub_diff :=
    match compare a b with
    | Ok d => Ok (mkSub (Some d) kind a b)
    | Err e => Err (EWrap "error comparing" 0 e)
    | Panic => Panic
    | OutOfFuel => OutOfFuel
    end.
  Definition empty_diff (kind : bytes) : sub_diff := mkSub None kind [] [].
  (** Encoding both sides and comparing them (dsdiff.go:99-107 and likewise 147-155, 173-181, 202-210). *)
  Definition diff_encoded (a b : res bytes) (kind : bytes) : res sub_diff :=
    match a with
    | Ok x =>
        match b with
        | Ok y => diff_json x y kind
        | Err e => Err (EWrap "error marshalling b" 0 e)
        | Panic => Panic
        | OutOfFuel => OutOfFuel
        end
    | Err e => Err (EWrap "error marshalling a" 0 e)
    | Panic => Panic
    | OutOfFuel => OutOfFuel
    end.
  (** MarshalJSONObject of the components; the models of it are in M_Components and after. *)
  Variable enc_structure : structure -> res bytes.
  Variable enc_transform : transform -> res bytes.
  Variable enc_meta : meta -> res bytes.
  Variable enc_viz : script_component -> res bytes.

  Definition or_new {A : Type} (new : A) (x : option A) : A := match x with Some x => x | None => new end.
  Definition same_long (p q : bytes) : bool := Nat.ltb 1 (length p) && Nat.ltb 1 (length q) && beqb p q.
  (** dsdiff.go:90-108 *)
  Definition diff_structure (a b : option structure) : res sub_diff :=
    let a := or_new (structure_ref []) a in
    let b := or_new (structure_ref []) b in
    diff_encoded (enc_structure a) (enc_structure b) (bs "structure").
  (** dsdiff.go:111-121: both branches return the empty diff. *)
  Definition diff_data (a b : dataset) : res sub_diff := Ok (empty_diff (bs "data")).
  (** dsdiff.go:124-156 *)
  Definition set_script_path (p : bytes) (t : transform) : transform :=
    mkTransform (tf_config t) (tf_path t) (tf_qri t) (tf_resources t) (tf_script_file t) p (tf_text t) (tf_secrets t)
      (tf_steps t) (tf_syntax t) (tf_syntax_version t) (tf_syntaxes t).
  Definition diff_transform (a b : option transform) : res sub_diff :=
    let l := or_new (transform_ref []) a in
    let r := or_new (transform_ref []) b in
    let r := if negb (bempty (tf_script_path l)) && negb (bempty (tf_script_path r)) then set_script_path (tf_script_path l) r else r in
    if same_long (tf_path l) (tf_path r) then Ok (empty_diff (bs "transform"))
    else diff_encoded (enc_transform l) (enc_transform r) (bs "transform").
  (** dsdiff.go:159-182 *)
  Definition diff_meta (a b : option meta) : res sub_diff :=
    let a := or_new (meta_ref []) a in
    let b := or_new (meta_ref []) b in
    if (if Nat.ltb 1 (length (md_path a)) && Nat.ltb 1 (length (md_path b)) then beqb (md_path a) (md_path b)
        else meta_is_empty a && meta_is_empty b)
    then Ok (empty_diff (bs "meta"))
    else diff_encoded (enc_meta a) (enc_meta b) (bs "meta").
  (** dsdiff.go:185-211 *)
  Definition diff_viz (a b : option script_component) : res sub_diff :=
    let a := or_new (sc_ref []) a in
    let b := or_new (sc_ref []) b in
    if same_long (sc_path a) (sc_path b) then Ok (empty_diff (bs "viz"))
    else diff_encoded (enc_viz a) (enc_viz b) (bs "viz").

  (** One part of DiffDatasets (e.g. dsdiff.go:251-259): if there is one on either side, its diff goes into the
      result unless it is the empty one. *)
  Definition add_part (present always : bool) (d : res sub_diff) (m : list (bytes * option sub_diff)) : res (list (bytes * option sub_diff)) :=
    if present then
      match d with
      | Ok sd => match sd_diff sd, always with None, false => Ok m | _, _ => Ok (map_set (sd_kind sd) (Some sd) m) end
      | Err e => Err e
      | Panic => Panic
      | OutOfFuel => OutOfFuel
      end
    else Ok m.
  Definition and_then {A B : Type} (x : res A) (f : A -> res B) : res B :=
    match x with Ok a => f a | Err e => Err e | Panic => Panic | OutOfFuel => OutOfFuel end.
  Definition some {A : Type} (x : option A) : bool := match x with Some _ => true | None => false end.
  (** dsdiff.go:247-310, DiffDatasets; [data] are the bytes of the StructuredDataTuple.  The map returned beside
      an error is not modelled. *)
  Definition diff_datasets (a b : dataset) (data : option (bytes * bytes)) : res (list (bytes * option sub_diff)) :=
    and_then (add_part (some (ds_structure a) || some (ds_structure b)) false (diff_structure (ds_structure a) (ds_structure b)) []) (fun m =>
    and_then (match data with
              | Some (x, y) => add_part true true (diff_json x y (bs "data")) m
              | None => add_part true false (diff_data a b) m
              end) (fun m =>
    and_then (add_part (some (ds_meta a) || some (ds_meta b)) false (diff_meta (ds_meta a) (ds_meta b)) m) (fun m =>
    and_then (add_part (some (ds_transform a) || some (ds_transform b)) false (diff_transform (ds_transform a) (ds_transform b)) m) (fun m =>
    add_part (some (ds_viz a) || some (ds_viz b)) false (diff_viz (ds_viz a) (ds_viz b)) m)))).

  (** dsdiff.go:320-350, MapDiffsToString: the loop over the keys. *)
  Fixpoint first_summary (keys : list bytes) (m : list (bytes * option sub_diff)) (how : bytes) : res bytes :=
    match keys with
    | [] => Ok []
    | k :: r =>
        match map_get k m with
        | Some (Some sd) =>
            match summarize (Some sd) how with
            | Ok [] => first_summary r m how
            | Ok t => Ok t
            | Err e => Err (EWrap "error summarizing" 0 e)
            | x => x
            end
        | _ => first_summary r m how
        end
    end.
  Definition map_diffs_to_string (m : list (bytes * option sub_diff)) (how : bytes) : res bytes :=
    first_summary [bs "structure"; bs "data"; bs "transform"; bs "meta"; bs "viz"] m how.
End Diff.
