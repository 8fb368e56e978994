(** Model of dsio/identity.go: the producer goroutine and a consumer that calls ReadEntry and Close in any
    order, as an interleaving transition system.  The unbuffered channel is a rendezvous; nothing ever
    closes it.  The racy flag r.done is modelled sequentially consistently (the weakest adversary). *)
From Verif Require Import Base.

Section Identity.
  Context {E : Type}.

  (** Where the consumer is. *)
  Inductive cpc : Type :=
  | CIdle                     (* between calls *)
  | CReadWait                 (* in ReadEntry, done was seen false, blocked in <-r.entries (identity.go:46) *)
  | CCloseTest                (* in Close, about to test r.done (identity.go:51,53) *)
  | CCloseWait.               (* in Close, blocked in <-r.entries (identity.go:54) *)

  (** Observable results of the consumer's calls, oldest first. *)
  Inductive event : Type :=
  | EvEntry (e : E)           (* ReadEntry returned e, nil *)
  | EvEOF                     (* ReadEntry returned io.EOF *)
  | EvDrained (e : E)         (* Close dropped an entry *)
  | EvClosed.                 (* Close returned *)

  (** [i_todo]: entries the goroutine still has to send; [i_done]: r.done. *)
  Record istate : Type := mkI { i_todo : list E; i_done : bool; i_pc : cpc; i_log : list event }.

  (** identity.go:12-24: the constructor starts the goroutine. *)
  Definition iinit (data : list E) : istate := mkI data false CIdle [].

  Inductive istep : istate -> istate -> Prop :=
  (** identity.go:67,80: after the last send the goroutine sets r.done. *)
  | st_done : forall pc log, istep (mkI [] false pc log) (mkI [] true pc log)
  (** identity.go:41-44: ReadEntry tests r.done. *)
  | st_read_eof : forall todo log, istep (mkI todo true CIdle log) (mkI todo true CIdle (log ++ [EvEOF]))
  | st_read_wait : forall todo log, istep (mkI todo false CIdle log) (mkI todo false CReadWait log)
  (** identity.go:46 with identity.go:65,78: rendezvous. *)
  | st_read_recv : forall x todo d log,
      istep (mkI (x :: todo) d CReadWait log) (mkI todo d CIdle (log ++ [EvEntry x]))
  (** identity.go:50-58: Close. *)
  | st_close : forall todo d log, istep (mkI todo d CIdle log) (mkI todo d CCloseTest log)
  | st_close_done : forall todo log, istep (mkI todo true CCloseTest log) (mkI todo true CIdle (log ++ [EvClosed]))
  | st_close_wait : forall todo log, istep (mkI todo false CCloseTest log) (mkI todo false CCloseWait log)
  | st_close_recv : forall x todo d log,
      istep (mkI (x :: todo) d CCloseWait log) (mkI todo d CCloseTest (log ++ [EvDrained x])).

  Inductive isteps : istate -> istate -> Prop :=
  | is_refl : forall s, isteps s s
  | is_step : forall s s1 s', istep s s1 -> isteps s1 s' -> isteps s s'.
End Identity.
Arguments istate : clear implicits.
Arguments event : clear implicits.

(** identity.go:73-84: iterateSlice sends Entry{Index: i, Value: val}. *)
Fixpoint slice_entries {F : Type} (i : Z) (vs : list (gval F)) : list (entry F) :=
  match vs with
  | [] => []
  | v :: vs' => mkEntry i [] v :: slice_entries (i + 1) vs'
  end.

(** identity.go:60-71: iterateMap sends Entry{Key: key, Value: val}; the iteration order [order] is any
    permutation of the map's bindings. *)
Definition map_entries {F : Type} (order : list (bytes * gval F)) : list (entry F) :=
  map (fun kv => mkEntry 0 (fst kv) (snd kv)) order.
