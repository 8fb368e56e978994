(** The destination of a writer: an io.Writer whose calls may fail. *)
From Verif Require Import Base.

(** What arrived so far, and for each later Write call either success or how many bytes are taken before
    which error; calls after the end of the plan succeed. *)
Record sink : Type := mkSink { k_out : bytes; k_plan : list (option (nat * err)) }.

(** io.Writer.Write: all bytes and no error, or some of them and an error. *)
Definition sink_write (data : bytes) (k : sink) : option err * sink :=
  match k_plan k with
  | [] => (None, mkSink (k_out k ++ data) [])
  | None :: p => (None, mkSink (k_out k ++ data) p)
  | Some (n, e) :: p => (Some e, mkSink (k_out k ++ firstn n data) p)
  end.
Definition good_sink : sink := mkSink [] [].
