(** What a page asks for, and what it is to be given. *)
From Verif Require Import Base.

(** Both numbers not negative: a window; otherwise everything. *)
Definition asked {A} (offset limit : Z) (l part : list A) : Prop :=
  ((offset < 0 \/ limit < 0)%Z /\ part = l) \/
  ((0 <= offset /\ 0 <= limit)%Z /\ exists pre post, l = pre ++ part ++ post /\
     (Z.of_nat (length pre) = offset \/ ((Z.of_nat (length l) < offset)%Z /\ pre = l)) /\
     (Z.of_nat (length part) = limit \/ ((Z.of_nat (length part) < limit)%Z /\ post = []))).
(** The value of the last pair with a key. *)
Definition last_pair {A} (kvs : list (bytes * A)) (k : bytes) (o : option A) : Prop :=
  match o with
  | Some v => exists pre post, kvs = pre ++ (k, v) :: post /\ ~ In k (map fst post)
  | None => ~ In k (map fst kvs)
  end.
