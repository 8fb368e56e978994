(** Model of io.Reader sources and of bufio.Reader (Go standard library), as used by
    dsio/json.go:55, dsio/cbor.go:58, dsio/replacecr/replace_cr.go:21,28.
    Written from the documented behaviour of package bufio. *)
From Verif Require Import Base.

(** An io.Reader: remaining bytes, the error delivered at the end (io.EOF or an I/O error), and a schedule.
    Each Read consumes one schedule item [(m, early)]: at most [S m] bytes are returned, and if the
    read exhausts the source, [early] says whether the final error comes together with the data or
    with the next call.  When the schedule runs out reads are as long as the caller's buffer.
    Simplification: no empty reads without error. *)
Record src : Type := mkSrc {
  s_rem : bytes;
  s_fin : err;
  s_sched : list (nat * bool)
}.

Definition sched_head (s : src) (k : nat) : nat * bool * list (nat * bool) :=
  match s_sched s with
  | [] => (k, false, [])
  | (m, early) :: t => (S m, early, t)
  end.

(** Read(p) with len(p) = k. *)
Definition src_read (k : nat) (s : src) : bytes * option err * src :=
  match s_rem s with
  | [] => ([], Some (s_fin s), s)
  | _ =>
      let '(m, early, sch) := sched_head s k in
      let n := Nat.min k m in
      let rem' := skipn n (s_rem s) in
      (firstn n (s_rem s),
       match rem' with [] => if early then Some (s_fin s) else None | _ => None end,
       mkSrc rem' (s_fin s) sch)
  end.

(** bufio.Reader: [b_buf] is buf[r:w], [b_cap] is len(buf). *)
Record bufr : Type := mkBuf {
  b_buf : bytes;
  b_cap : nat;
  b_err : option err;
  b_src : src
}.

(** bufio.NewReaderSize: at least 16 bytes.  Simplification: the source is not itself a bufio.Reader. *)
Definition new_bufr (size : nat) (s : src) : bufr :=
  mkBuf [] (Nat.max 16 size) None s.

(** bufio.Reader.fill: slides the data to the front, then one Read into the free space. *)
Definition fill (b : bufr) : bufr :=
  let '(d, e, s') := src_read (b_cap b - length (b_buf b)) (b_src b) in
  mkBuf (b_buf b ++ d) (b_cap b) (match e with Some x => Some x | None => b_err b end) s'.

(** bufio.Reader.Buffered *)
Definition buffered (b : bufr) : nat := length (b_buf b).

Definition clear_err (b : bufr) : bufr := mkBuf (b_buf b) (b_cap b) None (b_src b).
Definition set_buf (b : bufr) (l : bytes) : bufr := mkBuf l (b_cap b) (b_err b) (b_src b).

(** bufio.Reader.ReadByte: "for r == w { if err != nil return readErr; fill }".  One fill always
    suffices: it either adds a byte or sets the error. *)
Definition read_byte (b : bufr) : res byte * bufr :=
  match b_buf b with
  | x :: t => (Ok x, set_buf b t)
  | [] =>
      match b_err b with
      | Some e => (Err e, clear_err b)
      | None =>
          let b' := fill b in
          match b_buf b' with
          | x :: t => (Ok x, set_buf b' t)
          | [] =>
              match b_err b' with
              | Some e => (Err e, clear_err b')
              | None => (OutOfFuel, b')
              end
          end
      end
  end.

(** The fill loop of bufio.Reader.Peek:
    for w-r < n && w-r < len(buf) && err == nil { fill() } *)
Fixpoint peek_fill (fuel : nat) (n : nat) (b : bufr) : bufr :=
  match fuel with
  | O => b
  | S fuel' =>
      if (buffered b <? n)%nat && (buffered b <? b_cap b)%nat
         && match b_err b with None => true | Some _ => false end
      then peek_fill fuel' n (fill b)
      else b
  end.

Definition err_buffer_full : err := EMsg "bufio: buffer full".
Definition err_negative_count : err := EMsg "bufio: negative count".

(** bufio.Reader.Peek(n).  Returns the bytes, the error and the new state. *)
Definition peek (n : Z) (b : bufr) : bytes * option err * bufr :=
  if (n <? 0)%Z then ([], Some err_negative_count, b)
  else
    let n' := Z.to_nat n in
    let b' := peek_fill (S (Nat.min n' (b_cap b))) n' b in
    if (b_cap b <? n')%nat then (b_buf b', Some err_buffer_full, b')
    else if (buffered b' <? n')%nat then
      (b_buf b',
       match b_err b' with Some e => Some e | None => Some err_buffer_full end,
       clear_err b')
    else (firstn n' (b_buf b'), None, b').

(** bufio.Reader.Discard(n); callers in the repository ignore its results. *)
Fixpoint discard_loop (fuel : nat) (remain : nat) (b : bufr) : bufr :=
  match fuel with
  | O => b
  | S fuel' =>
      let b1 := if (buffered b =? 0)%nat then fill b else b in
      let skip := Nat.min (buffered b1) remain in
      let b2 := set_buf b1 (skipn skip (b_buf b1)) in
      let remain' := (remain - skip)%nat in
      if (remain' =? 0)%nat then b2
      else match b_err b2 with
           | Some _ => clear_err b2
           | None => discard_loop fuel' remain' b2
           end
  end.
Definition discard (n : Z) (b : bufr) : bufr :=
  if (n <=? 0)%Z then b else discard_loop (S (Z.to_nat n)) (Z.to_nat n) b.

(** Programs that use a bufio.Reader only through ReadByte, Peek and Discard. *)
Inductive prog (A : Type) : Type :=
| PRet (a : A)
| PReadByte (k : res byte -> prog A)
| PPeek (n : Z) (k : bytes -> option err -> prog A)
| PDiscard (n : Z) (k : prog A).
Arguments PRet {A} _.
Arguments PReadByte {A} _.
Arguments PPeek {A} _ _.
Arguments PDiscard {A} _ _.

Fixpoint pbind {A B : Type} (p : prog A) (f : A -> prog B) : prog B :=
  match p with
  | PRet a => f a
  | PReadByte k => PReadByte (fun r => pbind (k r) f)
  | PPeek n k => PPeek n (fun d e => pbind (k d e) f)
  | PDiscard n k => PDiscard n (pbind k f)
  end.

(** Run a program on the buffered reader. *)
Fixpoint run_buf {A : Type} (p : prog A) (b : bufr) : A * bufr :=
  match p with
  | PRet a => (a, b)
  | PReadByte k => let '(r, b') := read_byte b in run_buf (k r) b'
  | PPeek n k => let '(d, e, b') := peek n b in run_buf (k d e) b'
  | PDiscard n k => run_buf k (discard n b)
  end.

(** Run a program directly on the remaining bytes of a stream that ends with error [fin], as seen through
    a buffer of [cap] bytes.  This is the reference semantics: no schedule, no buffer contents. *)
Fixpoint run_list {A : Type} (cap : nat) (fin : err) (p : prog A) (s : bytes) : A * bytes :=
  match p with
  | PRet a => (a, s)
  | PReadByte k =>
      match s with
      | [] => run_list cap fin (k (Err fin)) []
      | c :: t => run_list cap fin (k (Ok c)) t
      end
  | PPeek n k =>
      if (n <? 0)%Z then run_list cap fin (k [] (Some err_negative_count)) s
      else if (Z.of_nat cap <? n)%Z then run_list cap fin (k (firstn cap s) (Some err_buffer_full)) s
      else if (Z.of_nat (length s) <? n)%Z then run_list cap fin (k s (Some fin)) s
      else run_list cap fin (k (firstn (Z.to_nat n) s) None) s
  | PDiscard n k => run_list cap fin k (skipn (Z.to_nat n) s)
  end.
