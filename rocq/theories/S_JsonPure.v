(** What the JSON reader does, said without a buffer: the calls of the grammar layer interpreted on the
    plain list of unread bytes. *)
From Verif Require Import Base M_Json.

Fixpoint skip_ws (s : bytes) : bytes :=
  match s with
  | c :: t => if is_ws c then skip_ws t else s
  | [] => []
  end.

(** Characters accepted by readNumber, and the rest. *)
Fixpoint num_span (s : bytes) : bytes * bytes :=
  match s with
  | c :: t => if is_num_char c then let '(a, b) := num_span t in (c :: a, b) else ([], s)
  | [] => ([], [])
  end.

(** After the opening quote: the text up to the first unescaped quote, and the rest after it. *)
Fixpoint str_span (s : bytes) : option (bytes * bytes) :=
  match s with
  | [] => None
  | c :: t =>
      if N.eqb c 34 then Some ([], t)
      else if N.eqb c 92 then
        match t with
        | [] => None
        | d :: t' => match str_span t' with Some (a, b) => Some (c :: d :: a, b) | None => None end
        end
      else match str_span t with Some (a, b) => Some (c :: a, b) | None => None end
  end.

Fixpoint is_prefix (p s : bytes) : bool :=
  match p, s with
  | [], _ => true
  | x :: p', y :: s' => N.eqb x y && is_prefix p' s'
  | _ :: _, [] => false
  end.

(** The unread input as far as it can be known without knowing the buffer boundaries.
    [Dead]: the input ended inside a string or a literal; at most some lowercase letters are left.
    [Lost]: a literal was misspelled; how much of it was consumed depends on the buffer boundaries. *)
Inductive pst : Type := Live (s : bytes) | Dead | Lost.

Definition is_lower (c : N) : bool := ((97 <=? c) && (c <=? 122))%N.

(** [None]: the outcome depends on the buffer boundaries. *)
Fixpoint run_pure {A : Type} (p : jprog A) (ps : pst) : option A * pst :=
  match p with
  | JRet a => (Some a, ps)
  | JFill k => run_pure k ps
  | JTok ch k =>
      match ps with
      | Live s =>
          match skip_ws s with
          | c :: t => if N.eqb c ch then run_pure (k true) (Live t) else run_pure (k false) (Live (c :: t))
          | [] => run_pure (k false) (Live [])
          end
      | Dead => if is_lower ch then (None, Lost) else run_pure (k false) Dead
      | Lost => (None, Lost)
      end
  | JLit tok k =>
      match ps with
      | Live s =>
          let s' := skip_ws s in
          if is_prefix tok s' then run_pure (k true) (Live (skipn (length tok) s'))
          else if is_prefix s' tok && forallb is_lower s' then run_pure (k false) Dead
          else run_pure (k false) Lost
      | _ => (None, Lost)
      end
  | JPeek k =>
      match ps with
      | Live s => run_pure (k (hd 0%N (skip_ws s))) (Live (skip_ws s))
      | _ => (None, Lost)
      end
  | JSkip k =>
      match ps with
      | Live s => run_pure k (Live (skip_ws s))
      | Dead => run_pure k Dead
      | Lost => (None, Lost)
      end
  | JStr k =>
      match ps with
      | Live s =>
          match skip_ws s with
          | c :: t =>
              if N.eqb c 34 then
                match str_span t with
                | Some (a, b) => run_pure (k (inl (c :: a ++ [34%N]))) (Live b)
                | None => run_pure (k (inr err_closing)) Dead
                end
              else run_pure (k (inr err_string)) (Live (c :: t))
          | [] => run_pure (k (inr err_string)) (Live [])
          end
      | _ => (None, Lost)
      end
  | JNum k =>
      match ps with
      | Live s => let '(a, b) := num_span (skip_ws s) in run_pure (k a) (Live b)
      | _ => (None, Lost)
      end
  end.
