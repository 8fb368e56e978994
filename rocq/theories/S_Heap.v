(** Specification of sharing: which object each component slot of the receiver ends up with, and what "no sharing" means. *)
From Verif Require Import Base M_Doc M_Components M_Heap S_Components.

(** The first pointer present. *)
Definition owner (l : list (option N)) : option N := hd_error (present l).

(** The sequence of pointers involved in one slot: the receiver's, then the sources'. *)
Definition slot_ptrs (get : pdataset -> option N) (h : heap) (r : N) (srcs : list (option N)) : list (option N) :=
  get (h_ds h r) :: map (fun s => get (h_ds h s)) (present srcs).

(** No component object is reachable from two of the datasets (or twice from one list). *)
Definition unshared (h : heap) (r : N) (srcs : list (option N)) : Prop :=
  ~ In (Some r) srcs /\
  NoDup (present (slot_ptrs pd_commit h r srcs)) /\ NoDup (present (slot_ptrs pd_meta h r srcs)) /\
  NoDup (present (slot_ptrs pd_readme h r srcs)) /\ NoDup (present (slot_ptrs pd_structure h r srcs)) /\
  NoDup (present (slot_ptrs pd_stats h r srcs)) /\ NoDup (present (slot_ptrs pd_transform h r srcs)) /\
  NoDup (present (slot_ptrs pd_viz h r srcs)).

Definition all_components (p : pdataset) : Prop :=
  pd_commit p <> None /\ pd_meta p <> None /\ pd_readme p <> None /\ pd_structure p <> None /\
  pd_stats p <> None /\ pd_transform p <> None /\ pd_viz p <> None.

(** [p] and [q] have no component object in common. *)
Definition disjoint_ptr (a b : option N) : Prop := forall x, a = Some x -> b = Some x -> False.
Definition disjoint (p q : pdataset) : Prop :=
  disjoint_ptr (pd_commit p) (pd_commit q) /\ disjoint_ptr (pd_meta p) (pd_meta q) /\ disjoint_ptr (pd_readme p) (pd_readme q) /\
  disjoint_ptr (pd_structure p) (pd_structure q) /\ disjoint_ptr (pd_stats p) (pd_stats q) /\
  disjoint_ptr (pd_transform p) (pd_transform q) /\ disjoint_ptr (pd_viz p) (pd_viz q).
