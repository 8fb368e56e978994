(** Specification of CR normalisation, independent of the model. *)
From Verif Require Import Base.

(** [inserts s o rest]: reading part of [s] delivered [o] and left [rest]; [o] is the consumed part with a LF
    added after some carriage returns that were not followed by LF (or were the last byte). *)
Inductive inserts : bytes -> bytes -> bytes -> Prop :=
| ins_stop : forall s, inserts s [] s
| ins_keep : forall c s o rest, inserts s o rest -> inserts (c :: s) (c :: o) rest
| ins_add : forall s o rest, hd_error s <> Some cLF -> inserts s o rest ->
    inserts (cCR :: s) (cCR :: cLF :: o) rest.

(** Every lone CR replaced by CR LF. *)
Fixpoint normalise (s : bytes) : bytes :=
  match s with
  | [] => []
  | c :: t =>
      if N.eqb c cCR && match t with x :: _ => negb (N.eqb x cLF) | [] => true end
      then cCR :: cLF :: normalise t
      else c :: normalise t
  end.

(** In [o], position [i] holds a CR that is not followed by a LF inside [o]. *)
Definition bare_cr_at (o : bytes) (i : nat) : Prop :=
  nth_error o i = Some cCR /\ nth_error o (S i) <> Some cLF.

(** The stream has no CR other than in CR LF pairs. *)
Definition no_lone_cr (s : bytes) : Prop := forall i, ~ bare_cr_at s i.
