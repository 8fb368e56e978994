(** Model of the readers of package io that preview/preview.go and dsviz/render.go put around files:
    io.TeeReader, io.LimitReader, io.MultiReader, bytes.Buffer and ioutil.ReadAll (Go standard library,
    written from its documented behaviour), and of code that uses a file only by calling Read. *)
From Verif Require Import Base M_Bufio.

(** An open file: any source, a bytes.Buffer, or io.MultiReader(buffer, file) with both, one or none of its
    readers left. *)
Inductive file : Type :=
| FSrc (s : src)
| FBuf (b : bytes)
| FMulti2 (b : bytes) (f : file)
| FMulti1 (f : file)
| FMulti0.
(** The second reader of a MultiReader: it is dropped when it reports io.EOF. *)
Definition last_reader (x : bytes * option err * file) : bytes * option err * file :=
  let '(d, e, f) := x in (d, e, match e with Some EOF => FMulti0 | _ => FMulti1 f end).
(** Read(p) with len(p) = k *)
Fixpoint file_read (k : nat) (f : file) : bytes * option err * file :=
  match f with
  | FSrc s => let '(d, e, s') := src_read k s in (d, e, FSrc s')
  | FBuf [] => ([], Some EOF, FBuf [])
  | FBuf b => (firstn k b, None, FBuf (skipn k b))
  | FMulti2 [] f => last_reader (file_read k f)
  | FMulti2 b f => (firstn k b, None, FMulti2 (skipn k b) f)
  | FMulti1 f => last_reader (file_read k f)
  | FMulti0 => ([], Some EOF, FMulti0)
  end.

Section Readers.
  Context {R : Type}.
  Variable rd : nat -> R -> bytes * option err * R.
  (** io.TeeReader: what is read is also written to a buffer. *)
  Definition tee_read (k : nat) (t : R * bytes) : bytes * option err * (R * bytes) :=
    let '(d, e, r) := rd k (fst t) in (d, e, (r, snd t ++ d)).
  (** io.LimitReader *)
  Definition limit_read (k : nat) (l : R * nat) : bytes * option err * (R * nat) :=
    match snd l with
    | O => ([], Some EOF, l)
    | n => let '(d, e, r) := rd (Nat.min k n) (fst l) in (d, e, (r, (n - length d)%nat))
    end.
  (** ioutil.ReadAll: the i-th Read gets a buffer of [sizes i] + 1 bytes. *)
  Fixpoint read_all (fuel : nat) (sizes : nat -> nat) (r : R) : option (bytes * option err * R) :=
    match fuel with
    | O => None
    | S f =>
        let '(d, e, r') := rd (S (sizes f)) r in
        match e with
        | Some EOF => Some (d, None, r')
        | Some e => Some (d, Some e, r')
        | None =>
            match read_all f sizes r' with
            | Some (d', e', r'') => Some (d ++ d', e', r'')
            | None => None
            end
        end
    end.
End Readers.

(** Code that uses a file by calling Read with buffers of its choice, and ends with a result. *)
Inductive prog (A : Type) : Type :=
| Ret (a : A)
| Read (k : nat) (next : bytes -> option err -> prog A).
Arguments Ret {A} _.
Arguments Read {A} _ _.
Section Run.
  Context {R A : Type}.
  Variable rd : nat -> R -> bytes * option err * R.
  Fixpoint run (p : prog A) (r : R) : A * R :=
    match p with
    | Ret a => (a, r)
    | Read k next => let '(d, e, r') := rd k r in run (next d e) r'
    end.
End Run.
