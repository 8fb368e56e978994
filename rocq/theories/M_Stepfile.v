(** Model of stepfile/stepfile.go. *)
From Verif Require Import Base M_Strings.

(** The separator literal "\n---\n" (stepfile/stepfile.go:43,58). *)
Definition step_sep : bytes := [10; 45; 45; 45; 10]%N.

(** transform.go TransformStep.Script (interface{}), by its dynamic type as inspected in
    stepfile/stepfile.go:64-82: an io.Reader (its bytes and its final error, None for EOF), a string, a
    []byte, or anything else. *)
Inductive script : Type :=
| ScReader (data : bytes) (fail : option err)
| ScString (s : bytes)
| ScBytes (s : bytes)
| ScOther.

(** An io.Writer: bytes accepted so far and, per call, whether it fails (writing nothing).
    Simplification: a failing call writes no bytes. *)
Record sink : Type := mkSink { k_out : bytes; k_fail : list bool }.
Definition sink_write (p : bytes) (w : sink) : option err * sink :=
  match k_fail w with
  | true :: f => (Some (EMsg "write failed"), mkSink (k_out w) f)
  | false :: f => (None, mkSink (k_out w ++ p) f)
  | [] => (None, mkSink (k_out w ++ p) [])
  end.

(** stepfile/stepfile.go:64-82, writeStepScript.  io.Copy is one write of all the data (simplification), none
    if there is no data, then the reader's error if any. *)
Definition write_step_script (s : script) (w : sink) : option err * sink :=
  match s with
  | ScReader [] fail => (fail, w)
  | ScReader d fail =>
      match sink_write d w with
      | (None, w') => (fail, w')
      | (Some e, w') => (Some e, w')
      end
  | ScString v => sink_write v w
  | ScBytes v => sink_write v w
  | ScOther => (Some (EMsg "unrecognized script type"), w)
  end.

(** stepfile/stepfile.go:52-62, Write.  The result of writing the separator (line 58) is ignored. *)
Fixpoint step_write (steps : list script) (w : sink) : option err * sink :=
  match steps with
  | [] => (None, w)
  | s :: rest =>
      match write_step_script s w with
      | (Some e, w') => (Some e, w')
      | (None, w') =>
          match rest with
          | [] => (None, w')
          | _ => step_write rest (snd (sink_write step_sep w'))
          end
      end
  end.

(** stepfile/stepfile.go:37-49, Read on the fully read data. *)
Definition step_read (data : bytes) : list script := map ScString (split step_sep data).
