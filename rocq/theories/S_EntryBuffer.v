(** What the calls on an EntryBuffer return, in terms of queues of values, and of a reader and a writer apart. *)
From Verif Require Import Base M_Bufio M_Convert M_EntryBuffer.

(** [back v v']: v is accepted by WriteEntry and v' is what it is when read again; [refuses v]: it is not accepted. *)
Section Queues.
  Variable back : gval N -> gval N -> Prop.
  Variable refuses : gval N -> Prop.

  (** A first-in first-out queue under any calls: n entries have been read, q are waiting.  An empty queue answers
      EOF, and may be filled again; closing changes nothing. *)
  Inductive fifo : Z -> list (gval N) -> list call -> list reply -> Prop :=
  | ff_end : forall n q, fifo n q [] []
  | ff_write : forall n q e v cs rs, back (e_val e) v -> fifo n (q ++ [v]) cs rs -> fifo n q (CWrite e :: cs) (Wrote None :: rs)
  | ff_refuse : forall n q e x cs rs, refuses (e_val e) -> x <> EOF -> fifo n q cs rs -> fifo n q (CWrite e :: cs) (Wrote (Some x) :: rs)
  | ff_take : forall n q v cs rs, fifo (n + 1) q cs rs -> fifo n (v :: q) (CRead :: cs) (Read (Ok (mkEntry n [] v)) :: rs)
  | ff_empty : forall n cs rs, fifo n [] cs rs -> fifo n [] (CRead :: cs) (Read (Err EOF) :: rs)
  | ff_close : forall n q cs rs, fifo n q cs rs -> fifo n q (CClose :: cs) (Closed None :: rs).

  (** The reads of a closed queue: what is waiting, then EOF once, then other errors. *)
  Inductive spent : nat -> list reply -> Prop :=
  | sp_end : spent 0 []
  | sp_more : forall k x rs, x <> EOF -> spent k rs -> spent (S k) (Read (Err x) :: rs).
  Inductive drained : Z -> list (gval N) -> nat -> list reply -> Prop :=
  | dr_end : forall n q, drained n q 0 []
  | dr_take : forall n q v k rs, drained (n + 1) q k rs -> drained n (v :: q) (S k) (Read (Ok (mkEntry n [] v)) :: rs)
  | dr_eof : forall n k rs, spent k rs -> drained n [] (S k) (Read (Err EOF) :: rs).
  (** A queue that answers an error other than EOF while it is empty and not closed. *)
  Inductive tape : Z -> list (gval N) -> list call -> list reply -> Prop :=
  | tp_end : forall n q, tape n q [] []
  | tp_write : forall n q e v cs rs, back (e_val e) v -> tape n (q ++ [v]) cs rs -> tape n q (CWrite e :: cs) (Wrote None :: rs)
  | tp_take : forall n q v cs rs, tape (n + 1) q cs rs -> tape n (v :: q) (CRead :: cs) (Read (Ok (mkEntry n [] v)) :: rs)
  | tp_empty : forall n x cs rs, x <> EOF -> tape n [] cs rs -> tape n [] (CRead :: cs) (Read (Err x) :: rs)
  | tp_close : forall n q k rs, drained n q k rs -> tape n q (CClose :: repeat CRead k) (Closed None :: rs).
End Queues.

(** The results of calls on a reader or a writer alone. *)
Section Alone.
  Context {S W : Type}.
  Variable rd : S -> res (entry N) * S.
  Variable wr : W -> entry N -> option err * W.
  Fixpoint take (n : nat) (s : S) : list (res (entry N)) :=
    match n with O => [] | Datatypes.S n => let '(x, s') := rd s in x :: take n s' end.
  Fixpoint put (w : W) (es : list (entry N)) : list (option err) * W :=
    match es with [] => ([], w) | e :: es => let '(x, w') := wr w e in let '(xs, w2) := put w' es in (x :: xs, w2) end.
End Alone.

(** The entries of the writes of a history, and the replies to a history in which every read answers x. *)
Fixpoint written (cs : list call) : list (entry N) :=
  match cs with CWrite e :: cs => e :: written cs | _ :: cs => written cs | [] => [] end.
Fixpoint answered (x : res (entry N)) (cs : list call) (os : list (option err)) : list reply :=
  match cs, os with
  | CWrite _ :: cs, o :: os => Wrote o :: answered x cs os
  | _ :: cs, os => Read x :: answered x cs os
  | [], _ => []
  end.
Definition is_write (c : call) : Prop := match c with CWrite _ => True | _ => False end.
Definition is_step (c : call) : Prop := match c with CWrite _ | CRead => True | _ => False end.
Definition no_bytes (c : call) : Prop := c <> CBytes.
