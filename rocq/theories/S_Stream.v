(** Specification vocabulary for entry readers and writers: observable histories. *)
From Verif Require Import Base.

(** Calling ReadEntry repeatedly from [s] returns the entries [es] one by one and then the error [e],
    leaving state [s']. *)
Inductive yields {F S : Type} (rd : S -> res (entry F) * S) : S -> list (entry F) -> err -> S -> Prop :=
| y_end : forall s e s', rd s = (Err e, s') -> yields rd s [] e s'
| y_cons : forall s x s1 es e s', rd s = (Ok x, s1) -> yields rd s1 es e s' -> yields rd s (x :: es) e s'.

(** Exactly the entries [es] are read from [s], without error so far. *)
Inductive reads {F S : Type} (rd : S -> res (entry F) * S) : S -> list (entry F) -> S -> Prop :=
| r_nil : forall s, reads rd s [] s
| r_cons : forall s x s1 es s', rd s = (Ok x, s1) -> reads rd s1 es s' -> reads rd s (x :: es) s'.

(** The writer accepts exactly the entries [es], in order. *)
Inductive accepts {F W : Type} (wr : W -> entry F -> option err * W) : W -> list (entry F) -> W -> Prop :=
| a_nil : forall w, accepts wr w [] w
| a_cons : forall w x w1 es w', wr w x = (None, w1) -> accepts wr w1 es w' -> accepts wr w (x :: es) w'.

(** The callback is called on [es] with indexes [i], [i+1], ... and accepts them all. *)
Inductive visits {F C : Type} (fn : C -> Z -> entry F -> option err * C) :
    C -> Z -> list (entry F) -> C -> Prop :=
| v_nil : forall c i, visits fn c i [] c
| v_cons : forall c i x c1 es c', fn c i x = (None, c1) -> visits fn c1 (i + 1) es c' ->
    visits fn c i (x :: es) c'.

(** The window of a list: [limit] negative means unlimited. *)
Definition window {A : Type} (offset limit : Z) (l : list A) : list A :=
  let rest := skipn (Z.to_nat offset) l in
  if (limit <? 0)%Z then rest else firstn (Z.to_nat limit) rest.

(** The last value bound to a key. *)
Definition last_value {F : Type} (k : bytes) (es : list (entry F)) : option (gval F) :=
  match find (fun e => beqb k (e_key e)) (rev es) with Some e => Some (e_val e) | None => None end.
