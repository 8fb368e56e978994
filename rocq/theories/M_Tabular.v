(** Model of package tabular: tabular/tabular.go. *)
From Verif Require Import Base M_Decimal M_Formats.

(** tabular/tabular.go:104-117, ColType.UnmarshalJSON and MarshalJSON are on decoded documents below. *)
Definition col_type := list bytes.
(** tabular/tabular.go:84-91, HasType *)
Fixpoint has_type (ct : col_type) (t : bytes) : bool :=
  match ct with [] => false | x :: r => if beqb x t then true else has_type r t end.

(** The messages collected: which column has which problem. *)
Inductive problem : Type :=
| NotAnObject (i : nat)
| NoTitle (i : nat)
| NoType (i : nat)
| BadName (i : nat)
| NotUnique (i : nat).

(** Letters, underscore, dollar; digits after the first (tabular/tabular.go:40, validMachineTitle). *)
Definition name_start (c : N) : bool :=
  ((97 <=? c) && (c <=? 122) || (65 <=? c) && (c <=? 90) || (c =? 95) || (c =? 36))%N.
Definition name_char (c : N) : bool := name_start c || is_digit c.
Definition machine_title (t : bytes) : bool :=
  match t with c :: r => name_start c && forallb name_char r | [] => false end.
(** tabular/tabular.go:45-65, ValidMachineTitles: the problems found; no problem is a nil error.  [seen] is
    the set of titles so far. *)
Fixpoint title_problems (i : nat) (seen : list bytes) (titles : list bytes) : list problem :=
  match titles with
  | [] => []
  | t :: r =>
      (if machine_title t then [] else [BadName i]) ++
      (if existsb (beqb t) seen then [NotUnique i] else []) ++
      title_problems (S i) (t :: seen) r
  end.

Section Tabular.
  Context {F : Type}.
  Notation gval := (gval F).

  (** tabular/tabular.go:68-73.  A nil Validation and an empty one are not distinguished; none is ever made
      empty. *)
  Record column : Type := mkCol { c_title : bytes; c_type : col_type; c_desc : bytes; c_valid : list (bytes * gval) }.
  (** tabular/tabular.go:31-37, Titles *)
  Definition titles (cols : list column) : list bytes := map c_title cols.
  Definition valid_machine_titles (cols : list column) : list problem := title_problems 0 [] (titles cols).

  (** The strings among some values (tabular/tabular.go:179-184). *)
  Fixpoint string_values (l : list gval) : list bytes :=
    match l with
    | [] => []
    | VStr t :: r => t :: string_values r
    | _ :: r => string_values r
    end.
  (** The body of the loop over a column schema (tabular/tabular.go:167-197): the column so far and the flags
      setTitle, setType. *)
  Definition col_step (st : column * bool * bool) (kv : bytes * gval) : column * bool * bool :=
    let '(c, st_title, st_type) := st in
    let '(k, v) := kv in
    if beqb k (bs "title") then
      match v with VStr t => (mkCol t (c_type c) (c_desc c) (c_valid c), true, st_type) | _ => st end
    else if beqb k (bs "type") then
      match v with
      | VStr x => (mkCol (c_title c) [x] (c_desc c) (c_valid c), st_title, true)
      | VArr l => (mkCol (c_title c) (string_values l) (c_desc c) (c_valid c), st_title, true)
      | _ => (c, st_title, true)
      end
    else if beqb k (bs "description") then
      match v with VStr d => (mkCol (c_title c) (c_type c) d (c_valid c), st_title, st_type) | _ => st end
    else (mkCol (c_title c) (c_type c) (c_desc c) (map_set k v (c_valid c)), st_title, st_type).
  Definition new_col (i : nat) : column := mkCol (bs "col_" ++ itoa (Z.of_nat i)) [bs "string"] [] [].

  (** One column (tabular/tabular.go:155-205).  Go ranges over a map in any order: [order] lists the pairs of
      the map in the order of the iteration. *)
  Definition make_col (order : list (bytes * gval) -> list (bytes * gval)) (i : nat) (f : gval) : column * list problem :=
    match f with
    | VMap m =>
        let '(c, t1, t2) := fold_left col_step (order m) (new_col i, false, false) in
        (c, (if t1 then [] else [NoTitle i]) ++ (if t2 then [] else [NoType i]))
    | _ => (new_col i, [NotAnObject i])
    end.
  Fixpoint make_cols (order : list (bytes * gval) -> list (bytes * gval)) (i : nat) (fs : list gval) : list column * list problem :=
    match fs with
    | [] => ([], [])
    | f :: r =>
        let '(c, ps) := make_col order i f in
        let '(cs, qs) := make_cols order (S i) r in
        (c :: cs, ps ++ qs)
    end.
  Definition err_tabular (m : string) : err := EMsg ("invalid tabular schema: " ++ m).
  (** tabular/tabular.go:138-210, arrayWrapperColumns *)
  Definition array_columns order (sch : list (bytes * gval)) : res (list column * list problem) :=
    match opt_get (bs "items") sch with
    | VMap item =>
        match opt_get (bs "items") item with
        | VArr items => Ok (make_cols order 0 items)
        | _ => Err (err_tabular "items.items must be an array")
        end
    | _ => Err (err_tabular "top level 'items' property must be an object")
    end.
  (** tabular/tabular.go:118-136, ColumnsFromJSONSchema; objectWrapperColumns (212-214) is an error. *)
  Definition columns_from_schema order (sch : list (bytes * gval)) : res (list column * list problem) :=
    match opt_get (bs "type") sch with
    | VStr t =>
        if beqb t (bs "array") then array_columns order sch
        else if beqb t (bs "object") then Err (EMsg "unfinished")
        else Err (err_tabular "not a valid type to describe the top level of a tablular schema")
    | _ => Err (err_tabular "top-level 'type' field is required")
    end.

  (** ColType.MarshalJSON on documents (tabular/tabular.go:95-104); no document if there is no type: the nil
      result makes json.Marshal fail. *)
  Definition col_type_encode (ct : col_type) : option gval :=
    match ct with
    | [] => None
    | [t] => Some (VStr t)
    | _ => Some (VArr (map VStr ct))
    end.
  (** ColType.UnmarshalJSON on documents (tabular/tabular.go:107-121).  json.Unmarshal of null into a string
      leaves it empty. *)
  Fixpoint all_strings (l : list gval) : option (list bytes) :=
    match l with
    | [] => Some []
    | VStr t :: r => option_map (cons t) (all_strings r)
    | VNil :: r => option_map (cons []) (all_strings r)
    | _ => None
    end.
  Definition col_type_decode (v : gval) : option col_type :=
    match v with
    | VStr t => Some [t]
    | VNil => Some [[]]
    | VArr l => all_strings l
    | _ => None
    end.
End Tabular.
