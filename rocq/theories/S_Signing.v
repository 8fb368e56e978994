(** Specification of signing bytes: which values of a dataset a signature covers. *)
From Verif Require Import Base M_Components.
Local Open Scope Z_scope.

(** The Gregorian calendar, by its rules. *)
Definition leap_year (y : Z) : bool := (y mod 4 =? 0) && (negb (y mod 100 =? 0) || (y mod 400 =? 0)).
Definition days_in_month (y m : Z) : Z :=
  if m =? 2 then (if leap_year y then 29 else 28)
  else if (m =? 4) || (m =? 6) || (m =? 9) || (m =? 11) then 30 else 31.
Definition next_date (p : Z * Z * Z) : Z * Z * Z :=
  let '(y, m, d) := p in
  if d <? days_in_month y m then (y, m, d + 1) else if m <? 12 then (y, m + 1, 1) else (y + 1, 1, 1).

Definition path_of {A} (path : A -> bytes) (o : option A) : bytes := match o with None => [] | Some a => path a end.
(** The commit time in whole seconds; absent when there is no commit or its time is the zero time. *)
Definition covered_second (d : dataset) : option Z :=
  match ds_commit d with
  | None => None
  | Some c => if cm_timestamp c =? 0 then None else Some (cm_timestamp c / 1000000000)
  end.
(** Everything SigningBytes may depend on. *)
Record covered := Covered {
  cv_id : bytes; cv_body : bytes; cv_second : option Z; cv_meta : bytes; cv_readme : bytes; cv_structure : bytes;
  cv_transform : bytes; cv_stats : bytes; cv_viz : bytes }.
Definition covered_by (d : dataset) : covered :=
  Covered (ds_id d) (ds_body_path d) (covered_second d) (path_of md_path (ds_meta d)) (path_of sc_path (ds_readme d))
    (path_of st_path (ds_structure d)) (path_of tf_path (ds_transform d)) (path_of sa_path (ds_stats d)) (path_of sc_path (ds_viz d)).
(** No covered text contains a line feed. *)
Definition one_line (c : covered) : Prop :=
  Forall (fun s => ~ In cLF s) [cv_id c; cv_body c; cv_meta c; cv_readme c; cv_structure c; cv_transform c; cv_stats c; cv_viz c].

(** A line of the signing bytes: two-letter tag, colon, value. *)
Definition line (tag v : bytes) : bytes := tag ++ [58%N] ++ v.
(** The lines for one value: none when it is empty. *)
Definition lines_for (tag v : bytes) : list bytes := match v with [] => [] | _ => [line tag v] end.
(** Lines separated by line feeds. *)
Fixpoint lines_text (ls : list bytes) : bytes :=
  match ls with [] => [] | [l] => l | l :: r => l ++ [cLF] ++ lines_text r end.
(** Fixed-width decimal fields. *)
Definition two_digits (n : Z) : bytes := [Z.to_N (48 + n / 10); Z.to_N (48 + n mod 10)].
Definition four_digits (n : Z) : bytes := two_digits (n / 100) ++ two_digits (n mod 100).
(** Lines in ascending order. *)
Fixpoint ascending (ls : list bytes) : Prop :=
  match ls with a :: ((b :: _) as r) => bcmp a b = Lt /\ ascending r | _ => True end.
