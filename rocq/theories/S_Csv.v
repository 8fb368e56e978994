(** What a CSV text says: its records, without lines, buffers or calls. *)
From Verif Require Import Base M_Utf8.

Definition begins (p s : bytes) : Prop := exists r, s = p ++ r.
Definition occurs (p s : bytes) : Prop := exists a b, s = a ++ p ++ b.
(** What is left after the line that T begins with. *)
Definition line_rest (T r : bytes) : Prop := (exists a, T = a ++ 10%N :: r /\ ~ In 10%N a) \/ (~ In 10%N T /\ r = []).

(** [tidy fin d t]: line endings.  CR LF is one line break.  A lone CR is one too, or stays as it is; the
    last one of a text may vanish. *)
Inductive tidy (fin : err) : bytes -> bytes -> Prop :=
| td_nil : tidy fin [] []
| td_keep : forall c s o, c <> 13%N -> tidy fin s o -> tidy fin (c :: s) (c :: o)
| td_crlf : forall s o, tidy fin s o -> tidy fin (13%N :: 10%N :: s) (10%N :: o)
| td_lone_lf : forall s o, ~ begins [10%N] s -> tidy fin s o -> tidy fin (13%N :: s) (10%N :: o)
| td_lone_cr : forall s o, ~ begins [10%N] s -> s <> [] \/ fin <> EOF -> tidy fin s o -> tidy fin (13%N :: s) (13%N :: o)
| td_last : fin = EOF -> tidy fin [13%N] [].

(** White space: the code points of the Unicode property White_Space, except the line break. *)
Definition blanks : list N := [9; 11; 12; 13; 32; 133; 160; 5760; 8192; 8193; 8194; 8195; 8196; 8197; 8198; 8199; 8200; 8201; 8202; 8232; 8233; 8239; 8287; 12288]%N.
Definition blank_text (p : bytes) : Prop := exists rs, Forall (fun r => In r blanks) rs /\ p = flat_map encode_rune rs.

Section Text.
  (** Quotes are read lazily; white space before a cell is left out; the separator; how the text ends: EOF, or a failing source. *)
  Variable lazy trim : bool.
  Variable comma : bytes.
  Variable fin : err.

  (** A cell without quotes around it. *)
  Definition plain (f : bytes) : Prop :=
    ~ In 10%N f /\ ~ occurs comma f /\ if lazy then ~ begins [34%N] f else ~ In 34%N f.
  Definition stops (T : bytes) : Prop := T = [] \/ begins [10%N] T \/ begins comma T.

  Inductive qend : Type := Closed (T : bytes) | Open | Bad (r : bytes).
  (** [quoted T v o]: after an opening quote, T has the contents v and then ends as o says: a closing quote
      with T left, the end of the text, or a quote that should not be there. *)
  Inductive quoted : bytes -> bytes -> qend -> Prop :=
  | q_char : forall c T v o, c <> 34%N -> quoted T v o -> quoted (c :: T) (c :: v) o
  | q_two : forall T v o, quoted T v o -> quoted (34%N :: 34%N :: T) (34%N :: v) o
  | q_close : forall T, stops T -> quoted (34%N :: T) [] (Closed T)
  | q_stray : forall T v o, ~ stops T -> ~ begins [34%N] T -> lazy = true -> quoted T v o -> quoted (34%N :: T) (34%N :: v) o
  | q_bad : forall T r, ~ stops T -> ~ begins [34%N] T -> lazy = false -> line_rest T r -> quoted (34%N :: T) [] (Bad r)
  | q_open : quoted [] [] Open.

  Inductive flaw : Type := BareQuote | StrayQuote | Source (e : err).
  (** The end of the text in a record: no flaw, or that of the source. *)
  Definition at_end (o : option flaw) : Prop := (fin = EOF /\ o = None) \/ (fin <> EOF /\ o = Some (Source fin)).

  (** Where a cell starts when T is left: after white space, or here. *)
  Definition skips (T T' : bytes) : Prop :=
    if trim then exists p, T = p ++ T' /\ blank_text p /\ forall b, In b blanks -> ~ begins (encode_rune b) T' else T' = T.
  (** [cells T fs o r]: T begins with a record of cells fs, with flaw o (fs are then the cells before it,
      or anything if the source fails), and r is what follows. *)
  Inductive cells : bytes -> list bytes -> option flaw -> bytes -> Prop :=
  | c_last : forall f r, plain f -> cells (f ++ 10%N :: r) [f] None r
  | c_last_end : forall f o, plain f -> at_end o -> cells f [f] o []
  | c_next : forall f T T' fs o r, plain f -> skips T T' -> cells T' fs o r -> cells (f ++ comma ++ T) (f :: fs) o r
  | c_bare : forall f T r, lazy = false -> plain f -> f <> [] -> line_rest T r -> cells (f ++ 34%N :: T) [] (Some BareQuote) r
  | c_quoted : forall T v r, quoted T v (Closed (10%N :: r)) -> cells (34%N :: T) [v] None r
  | c_quoted_end : forall T v o, quoted T v (Closed []) -> at_end o -> cells (34%N :: T) [v] o []
  | c_quoted_next : forall T v T2 T' fs o r, quoted T v (Closed (comma ++ T2)) -> skips T2 T' -> cells T' fs o r -> cells (34%N :: T) (v :: fs) o r
  | c_stray : forall T v r, quoted T v (Bad r) -> cells (34%N :: T) [] (Some StrayQuote) r
  | c_open : forall T v, quoted T v Open -> fin = EOF -> lazy = false -> cells (34%N :: T) [] (Some StrayQuote) []
  | c_open_lazy : forall T v, quoted T v Open -> fin = EOF -> lazy = true -> cells (34%N :: T) [v] None []
  | c_open_fails : forall T v fs, quoted T v Open -> fin <> EOF -> cells (34%N :: T) fs (Some (Source fin)) [].

  (** The first record of a text, after empty lines; [None]: there is none. *)
  Inductive record : bytes -> option (list bytes * option flaw) -> bytes -> Prop :=
  | r_eof : fin = EOF -> record [] None []
  | r_blank : forall T o r, record T o r -> record (10%N :: T) o r
  | r_cells : forall T T' fs o r, ~ (T = [] /\ fin = EOF) -> ~ begins [10%N] T -> skips T T' -> cells T' fs o r -> record T (Some (fs, o)) r.

  (** What a reader answers: a row, the end, a flaw, or that the number of cells is wrong. *)
  Inductive answer : Type := Row (fs : list bytes) | End | Flaw (f : flaw) | Count.
  (** [answers w T as]: successive answers.  [w] is the number of cells a row should have: negative, any;
      0, that of the next row. *)
  Inductive answers : Z -> bytes -> list answer -> Prop :=
  | an_nil : forall w T, answers w T []
  | an_end : forall w T r l, record T None r -> answers w r l -> answers w T (End :: l)
  | an_flaw : forall w T fs f r l, record T (Some (fs, Some f)) r ->
      answers (if (w =? 0)%Z then Z.of_nat (length fs) else w) r l -> answers w T (Flaw f :: l)
  | an_row : forall w T fs r l, record T (Some (fs, None)) r -> (w <= 0)%Z \/ w = Z.of_nat (length fs) ->
      answers (if (w =? 0)%Z then Z.of_nat (length fs) else w) r l -> answers w T (Row fs :: l)
  | an_count : forall w T fs r l, record T (Some (fs, None)) r -> (0 < w)%Z -> w <> Z.of_nat (length fs) ->
      answers w r l -> answers w T (Count :: l).
End Text.

(** Line endings inside a cell: CR LF becomes LF, a lone CR becomes LF or stays. *)
Inductive endings : bytes -> bytes -> Prop :=
| e_nil : endings [] []
| e_keep : forall c s o, c <> 13%N -> endings s o -> endings (c :: s) (c :: o)
| e_crlf : forall s o, endings s o -> endings (13%N :: 10%N :: s) (10%N :: o)
| e_lf : forall s o, ~ begins [10%N] s -> endings s o -> endings (13%N :: s) (10%N :: o)
| e_cr : forall s o, ~ begins [10%N] s -> endings s o -> endings (13%N :: s) (13%N :: o).

(** The text of a row. *)
Section Line.
  Variable comma : bytes.
  Definition doubled (f : bytes) : bytes := flat_map (fun c => if N.eqb c 34 then [34; 34]%N else [c]) f.
  (** A cell stands as it is if it has no quote, line break or separator, or in quotes, with quotes doubled. *)
  Inductive written : bytes -> bytes -> Prop :=
  | w_plain : forall f, ~ In 34%N f -> ~ In 10%N f -> ~ In 13%N f -> ~ occurs comma f -> written f f
  | w_quoted : forall f, f <> [] -> written f (34%N :: doubled f ++ [34%N]).
  Inductive line_text : list bytes -> bytes -> Prop :=
  | lt_none : line_text [] []
  | lt_one : forall f t, written f t -> line_text [f] t
  | lt_more : forall f t fs u, fs <> [] -> written f t -> line_text fs u -> line_text (f :: fs) (t ++ comma ++ u).
  Inductive table_text : list (list bytes) -> bytes -> Prop :=
  | tt_nil : table_text [] []
  | tt_row : forall fs t rows u, line_text fs t -> table_text rows u -> table_text (fs :: rows) (t ++ 10%N :: u).
End Line.

(** Rows that leave an empty line. *)
Definition blank_row (fs : list bytes) : bool := match fs with [] => true | [[]] => true | _ => false end.
(** What reading rows answers when w cells are expected, as in [answers]. *)
Fixpoint counted (w : Z) (rows : list (list bytes)) : list answer :=
  match rows with
  | [] => []
  | fs :: r =>
      if blank_row fs then counted w r
      else (if (w <=? 0)%Z || (w =? Z.of_nat (length fs))%Z then Row fs else Count)
           :: counted (if (w =? 0)%Z then Z.of_nat (length fs) else w) r
  end.

(** With a header row, the first row is not data. *)
Fixpoint after_header (l : list answer) : list answer :=
  match l with
  | [] => []
  | Row _ :: r => r
  | a :: r => a :: after_header r
  end.
