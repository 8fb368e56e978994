(** What it means that nothing is set in a component, and that a component is a mere reference. *)
From Verif Require Import Base M_Doc M_Components S_Encode.

(** Nothing but path and kind is set in a structure. *)
Definition structure_bare (s : structure) : Prop :=
  s = mkStructure [] [] 0 [] 0 0 [] None 0 (st_path s) (st_qri s) None false.

(** Every source that is there is such. *)
Definition sources {A} (P : A -> Prop) (l : list (option A)) : Prop := forall a, In (Some a) l -> P a.
