(** What a diff of two datasets says. *)
From Verif Require Import Base M_Decimal M_Components.
Notation length := List.length.

(** The order in which components are named. *)
Definition priority : list bytes := [bs "structure"; bs "data"; bs "transform"; bs "meta"; bs "viz"].
(** The first component with something to say, all before it having nothing to say; or nobody has. *)
Definition speaks_first (says : bytes -> bytes -> Prop) (text : bytes) : Prop :=
  (exists before k after, priority = before ++ k :: after /\ text <> [] /\ says k text /\ forall j, In j before -> says j []) \/
  (text = [] /\ forall j, In j priority -> says j []).

(** One line about a component: its name with a capital, the number of changes. *)
Definition capital (kind name : bytes) : Prop :=
  In (kind, name) [(bs "structure", bs "Structure"); (bs "data", bs "Data"); (bs "transform", bs "Transform"); (bs "meta", bs "Meta"); (bs "viz", bs "Viz")].
Definition changes (n : nat) : bytes := dec (N.of_nat n) ++ bs (if Nat.leb n 1 then " change" else " changes").

(** Two versions stored at the same place. *)
Definition same_place (p q : bytes) : Prop := (2 <= length p)%nat /\ p = q.
(** A component that is left out counts as an empty one. *)
Definition filled {A : Type} (new : A) (x : option A) (y : A) : Prop := x = Some y \/ x = None /\ y = new.
(** A transform but for its script path. *)
Definition transform_rest (t : transform) :=
  (tf_config t, tf_path t, tf_qri t, tf_resources t, tf_script_file t, tf_text t, tf_secrets t, tf_steps t, tf_syntax t, (tf_syntax_version t, tf_syntaxes t)).
(** The transform on the right, with the script path of the one on the left if both have one. *)
Definition right_transform (l r r' : transform) : Prop :=
  transform_rest r' = transform_rest r /\
  ((tf_script_path l = [] \/ tf_script_path r = []) /\ tf_script_path r' = tf_script_path r \/
   tf_script_path l <> [] /\ tf_script_path r <> [] /\ tf_script_path r' = tf_script_path l).
