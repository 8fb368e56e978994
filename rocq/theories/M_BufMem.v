(** bufio.Reader with its backing array (Go standard library), to say what a slice returned by Peek holds later.
    Refines M_Bufio: there [b_buf] is the contents of buf[r:w], here the array and the two indices are kept. *)
From Verif Require Import Base M_Bufio M_Decimal M_Cbor.

Record mem := mkMem { m_arr : bytes; m_r : nat; m_w : nat; m_err : option err; m_src : src }.
(** buf[r:w] *)
Definition m_data (m : mem) : bytes := firstn (m_w m - m_r m) (skipn (m_r m) (m_arr m)).
Definition new_mem (size : nat) (s : src) : mem := mkMem (repeat 0%N (Nat.max 16 size)) 0 0 None s.
(** copy(a[i:], d) *)
Definition copy_at (i : nat) (d a : bytes) : bytes := firstn i a ++ d ++ skipn (i + length d) a.
(** bufio.Reader.fill *)
Definition m_fill (m : mem) : mem :=
  let d := m_data m in
  let arr := copy_at 0 d (m_arr m) in
  let '(got, e, s') := src_read (length (m_arr m) - length d) (m_src m) in
  mkMem (copy_at (length d) got arr) 0 (length d + length got) (match e with Some x => Some x | None => m_err m end) s'.
Definition m_clear (m : mem) : mem := mkMem (m_arr m) (m_r m) (m_w m) None (m_src m).
Definition m_skip (k : nat) (m : mem) : mem := mkMem (m_arr m) (m_r m + k) (m_w m) (m_err m) (m_src m).
(** bufio.Reader.ReadByte *)
Definition m_read_byte (m : mem) : res byte * mem :=
  match m_data m with
  | x :: _ => (Ok x, m_skip 1 m)
  | [] =>
      match m_err m with
      | Some e => (Err e, m_clear m)
      | None =>
          let m' := m_fill m in
          match m_data m' with
          | x :: _ => (Ok x, m_skip 1 m')
          | [] => match m_err m' with Some e => (Err e, m_clear m') | None => (OutOfFuel, m') end
          end
      end
  end.
Fixpoint m_peek_fill (fuel n : nat) (m : mem) : mem :=
  match fuel with
  | O => m
  | S f => if (length (m_data m) <? n)%nat && (length (m_data m) <? length (m_arr m))%nat && match m_err m with None => true | Some _ => false end
           then m_peek_fill f n (m_fill m) else m
  end.
(** bufio.Reader.Peek: the slice starts at the returned index of the array. *)
Definition m_peek (n : Z) (m : mem) : nat * bytes * option err * mem :=
  if (n <? 0)%Z then (0%nat, [], Some err_negative_count, m)
  else
    let n' := Z.to_nat n in
    let m' := m_peek_fill (S (Nat.min n' (length (m_arr m)))) n' m in
    if (length (m_arr m) <? n')%nat then (m_r m', m_data m', Some err_buffer_full, m')
    else if (length (m_data m') <? n')%nat then
      (m_r m', m_data m', match m_err m' with Some e => Some e | None => Some err_buffer_full end, m_clear m')
    else (m_r m', firstn n' (m_data m'), None, m').
(** bufio.Reader.Discard *)
Fixpoint m_discard_loop (fuel remain : nat) (m : mem) : mem :=
  match fuel with
  | O => m
  | S f =>
      let m1 := if (length (m_data m) =? 0)%nat then m_fill m else m in
      let skip := Nat.min (length (m_data m1)) remain in
      let m2 := m_skip skip m1 in
      let remain' := (remain - skip)%nat in
      if (remain' =? 0)%nat then m2
      else match m_err m2 with Some _ => m_clear m2 | None => m_discard_loop f remain' m2 end
  end.
Definition m_discard (n : Z) (m : mem) : mem := if (n <=? 0)%Z then m else m_discard_loop (S (Z.to_nat n)) (Z.to_nat n) m.

Fixpoint run_mem {A : Type} (p : sprog nat A) (m : mem) : A * mem :=
  match p with
  | SRet a => (a, m)
  | SReadByte k => let '(r, m') := m_read_byte m in run_mem (k r) m'
  | SPeek n k => let '(x, d, e, m') := m_peek n m in run_mem (k x d e) m'
  | SDiscard n k => run_mem k (m_discard n m)
  end.

(** What a slice starting at index [x], of the length of [s], holds in memory [m]. *)
Definition holds (m : mem) (x : nat) (s : bytes) : bytes := firstn (length s) (skipn x (m_arr m)).
(** dsio/cbor.go: a new reader on a source, read until ReadEntry fails, with the buffer's memory at the end. *)
Definition cbor_read_mem (obj : bool) (s : src) : list (centry nat) * res unit * mem :=
  let k := length (s_rem s) in
  run_mem (cbor_read_loop (S k) (S (2 * k)) obj cbor_start) (new_mem cbor_buf_size s).
(** The entries as the caller finds them after the last read. *)
Definition entry_now (m : mem) (e : centry nat) : entry N := mkEntry (ce_index e) (ce_key e) (observe (holds m) (ce_val e)).
Definition cbor_kept (obj : bool) (s : src) : list (entry N) * res unit :=
  let '(es, out, m) := cbor_read_mem obj s in (map (entry_now m) es, out).
