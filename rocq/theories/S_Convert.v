(** Vocabulary for conversions between formats. *)
From Verif Require Import Base M_Bufio S_Stream M_Formats M_Convert.

(** What of the entries is asked for. *)
Definition chosen {A : Type} (all : bool) (offset limit : Z) (l : list A) : list A := if all then l else window offset limit l.
(** A structure of a format whose schema says array or object. *)
Definition typed (sh : shape) (f : Z) (tlt : bytes) : Prop :=
  structure_data_format (sh_format sh) = f /\ exists m, sh_schema sh = Some m /\ map_get (bs "type") m = Some (VStr tlt).
(** The entries before the first one whose key is empty or was there before. *)
Fixpoint fresh_keys (seen : list bytes) (kvs : list (bytes * gval N)) : list (bytes * gval N) :=
  match kvs with
  | [] => []
  | (k, v) :: r => if beqb k [] || existsb (beqb k) seen then [] else (k, v) :: fresh_keys (k :: seen) r
  end.

Section Content.
  Variable unpack : bytes -> src -> res src.
  Variable pack : bytes -> bytes -> bytes.
  (** [content comp s data]: the source holds data, compressed as the structure says. *)
  Definition content (comp : bytes) (s : src) (data : bytes) : Prop :=
    (comp = [] /\ s_rem s = data) \/ exists f s', parse_compression comp = Some f /\ unpack f s = Ok s' /\ s_rem s' = data.
  (** [delivered comp data b]: b is data, compressed as the structure says. *)
  Definition delivered (comp data b : bytes) : Prop :=
    (comp = [] /\ b = data) \/ exists f, parse_compression comp = Some f /\ b = pack f data.
  (** No compression, or one of the two known ones. *)
  Definition known (comp : bytes) : Prop := comp = [] \/ exists f, parse_compression comp = Some f.
  (** Unpacking what was packed. *)
  Definition lossless : Prop := forall f b s, s_rem s = pack f b -> exists s', unpack f s = Ok s' /\ s_rem s' = b.
End Content.
