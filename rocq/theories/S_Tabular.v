(** Which columns a schema describes. *)
From Verif Require Import Base M_Decimal M_Tabular.

Section Spec.
  Context {F : Type}.
  Notation gval := (gval F).
  (** The members of an object. *)
  Definition member (m : list (bytes * gval)) (k : string) (v : gval) : Prop := map_get (bs k) m = Some v.
  Definition is_text (v : gval) : Prop := exists t, v = VStr t.

  (** [texts l ts]: ts are the strings of l, in order. *)
  Inductive texts : list gval -> list bytes -> Prop :=
  | tx_nil : texts [] []
  | tx_take : forall t l ts, texts l ts -> texts (VStr t :: l) (t :: ts)
  | tx_skip : forall v l ts, ~ is_text v -> texts l ts -> texts (v :: l) ts.

  Definition title_rule (i : nat) (m : list (bytes * gval)) (title : bytes) : Prop :=
    member m "title" (VStr title) \/ (forall t, ~ member m "title" (VStr t)) /\ title = bs "col_" ++ itoa (Z.of_nat i).
  Definition type_rule (m : list (bytes * gval)) (ct : list bytes) : Prop :=
    (exists t, member m "type" (VStr t) /\ ct = [t]) \/
    (exists l, member m "type" (VArr l) /\ texts l ct) \/
    (forall t, ~ member m "type" (VStr t)) /\ (forall l, ~ member m "type" (VArr l)) /\ ct = [bs "string"].
  Definition desc_rule (m : list (bytes * gval)) (d : bytes) : Prop :=
    member m "description" (VStr d) \/ (forall t, ~ member m "description" (VStr t)) /\ d = [].
  Definition valid_rule (m : list (bytes * gval)) (r : list (bytes * gval)) : Prop :=
    forall k, map_get k r = if existsb (beqb k) [bs "title"; bs "type"; bs "description"] then None else map_get k m.
  (** A problem is noted exactly if it is there. *)
  Definition noted (P : Prop) (p : problem) (ps : list problem) : Prop := P /\ ps = [p] \/ ~ P /\ ps = [].
  (** [column_rule i f c ps]: item f at position i describes column c, with problems ps. *)
  Inductive column_rule (i : nat) : gval -> column -> list problem -> Prop :=
  | cr_other : forall f, (forall m, f <> VMap m) ->
      column_rule i f (mkCol (bs "col_" ++ itoa (Z.of_nat i)) [bs "string"] [] []) [NotAnObject i]
  | cr_object : forall m c ps qs, title_rule i m (c_title c) -> type_rule m (c_type c) -> desc_rule m (c_desc c) -> valid_rule m (c_valid c) -> sorted (c_valid c) ->
      noted (forall t, ~ member m "title" (VStr t)) (NoTitle i) ps ->
      noted (forall v, ~ member m "type" v) (NoType i) qs ->
      column_rule i (VMap m) c (ps ++ qs).
  Inductive columns_rule : nat -> list gval -> list column -> list problem -> Prop :=
  | cs_nil : forall i, columns_rule i [] [] []
  | cs_cons : forall i f fs c cs ps qs, column_rule i f c ps -> columns_rule (S i) fs cs qs ->
      columns_rule i (f :: fs) (c :: cs) (ps ++ qs).
End Spec.
(** Names that can be used as identifiers. *)
Definition identifier (t : bytes) : Prop :=
  exists c r, t = c :: r /\ (97 <= c <= 122 \/ 65 <= c <= 90 \/ c = 95 \/ c = 36)%N /\
    Forall (fun c => 97 <= c <= 122 \/ 65 <= c <= 90 \/ c = 95 \/ c = 36 \/ 48 <= c <= 57)%N r.
