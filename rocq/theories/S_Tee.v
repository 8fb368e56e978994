(** What a reader delivers. *)
From Verif Require Import Base.
Notation length := List.length.

(** From state [r] on, calls of Read, with whatever buffers, deliver the bytes [d] in order, each at least one
    if the buffer has room, and then the error [e], again and again. *)
Definition delivers {R : Type} (rd : nat -> R -> bytes * option err * R) (r : R) (d : bytes) (e : err) : Prop :=
  exists P : R -> bytes -> Prop, P r d /\
  forall r d, P r d -> forall k, exists x d', fst (fst (rd k r)) = x /\ d = x ++ d' /\ (length x <= k)%nat /\
    (snd (fst (rd k r)) = None /\ (0 < k -> x <> [])%nat \/ snd (fst (rd k r)) = Some e /\ d' = []) /\ P (snd (rd k r)) d'.
