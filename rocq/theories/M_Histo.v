(** Model of dsstats/histosketch/histosketch.go.  The arithmetic is a parameter: float64 (M_Float) in the code;
    exact rationals serve to tell rounding errors from errors of the algorithm.  Weights (centroid.m, Sketch.count)
    are integers here; as float64 they are exact below 2^53. *)
From Coq Require Import ZArith.
From Verif Require Import Base.

Section Sketch.
  Variable F : Type.
  Variables flt fle feq : F -> F -> bool.
  Variables fadd fsub fmul fdiv : F -> F -> F.
  Variable fsqrt : F -> F.
  Variable of_Z : Z -> F.
  Variables fmax fmin : F.            (* math.MaxFloat64 and its negation *)

  (** histosketch.go:42-45 *)
  Record centroid : Type := mkC { c_p : F; c_m : Z }.
  (** histosketch.go:54-59; [sk_cap] is cap(h.cs). *)
  Record sketch : Type := mkSk { sk_cs : list centroid; sk_cap : nat; sk_count : Z; sk_min : F; sk_max : F }.
  (** histosketch.go:62-67, New *)
  Definition sk_new (n : nat) : res sketch :=
    match n with O => Panic | S _ => Ok (mkSk [] (S n) 0 fmax fmin) end.

  (** sort.Search: the binary search of the standard library. *)
  Fixpoint bsearch (f : nat -> bool) (fuel i j : nat) : nat :=
    match fuel with
    | O => i
    | S k => if (i <? j)%nat then
               let h := Nat.div (i + j) 2 in
               if f h then bsearch f k i h else bsearch f k (S h) j
             else i
    end.
  Definition sort_search (n : nat) (f : nat -> bool) : nat := bsearch f (S n) 0 n.
  Definition at_cs (f : centroid -> bool) (cs : list centroid) (i : nat) : bool :=
    match nth_error cs i with Some c => f c | None => true end.

  (** histosketch.go:47-51, centroid.Merge *)
  Definition c_merge (c d : centroid) : centroid :=
    let s := (Z.abs (c_m c) + Z.abs (c_m d))%Z in
    mkC (fdiv (fadd (fmul (c_p c) (of_Z (Z.abs (c_m c)))) (fmul (c_p d) (of_Z (Z.abs (c_m d))))) (of_Z s)) (- s).
  (** histosketch.go:118-126: the index of the first closest pair. *)
  Fixpoint closest (i mi : nat) (md : F) (cs : list centroid) : nat :=
    match cs with
    | c :: ((d :: _) as r) =>
        let g := fsub (c_p d) (c_p c) in
        if flt g md then closest (S i) i g r else closest (S i) mi md r
    | _ => mi
    end.
  (** histosketch.go:128-134: merge the centroids mi and mi+1. *)
  Definition merge_at (mi : nat) (cs : list centroid) : list centroid :=
    match skipn mi cs with
    | c :: d :: r => firstn mi cs ++ c_merge c d :: r
    | _ => cs
    end.
  (** histosketch.go:90-135, AddMany *)
  Definition add_many (v : F) (n : Z) (h : sketch) : sketch :=
    let mn := if flt v (sk_min h) then v else sk_min h in
    let mx := if flt (sk_max h) v then v else sk_max h in
    let cs := sk_cs h in
    let k := sort_search (length cs) (at_cs (fun c => fle v (c_p c)) cs) in
    let fresh :=
      let cs' := firstn k cs ++ mkC v n :: skipn k cs in
      let cs2 := if (length cs' <? sk_cap h)%nat then cs' else merge_at (closest 0 0 fmax cs') cs' in
      mkSk cs2 (sk_cap h) (sk_count h + n) mn mx in
    match nth_error cs k with
    | Some c =>
        if feq (c_p c) v then
          mkSk (firstn k cs ++ mkC (c_p c) (c_m c + (if c_m c <? 0 then -1 else 1) * n)%Z :: skipn (S k) cs)
               (sk_cap h) (sk_count h + n) mn mx
        else fresh
    | None => fresh
    end.
  (** histosketch.go:85-87, Add *)
  Definition add (h : sketch) (v : F) : sketch := add_many v 1 h.
  (** histosketch.go:138-142, Merge *)
  Definition sk_merge (h x : sketch) : sketch :=
    fold_left (fun h c => add_many (c_p c) (Z.abs (c_m c)) h) (sk_cs x) h.

  (** histosketch.go:147-156, getcentroids; out of range is a panic. *)
  Definition get_centroids (h : sketch) (i : nat) : res (centroid * centroid) :=
    match i with
    | O => match sk_cs h with y :: _ => Ok (mkC (sk_min h) 0, y) | [] => Panic end
    | S j =>
        if (i =? length (sk_cs h))%nat then
          match nth_error (sk_cs h) j with Some x => Ok (x, mkC (sk_max h) 0) | None => Panic end
        else match nth_error (sk_cs h) j, nth_error (sk_cs h) i with Some x, Some y => Ok (x, y) | _, _ => Panic end
    end.
  Definition weight (cs : list centroid) : Z := fold_right (fun c s => (Z.abs (c_m c) + s)%Z) 0%Z cs.
  Definition two : F := of_Z 2.
  (** histosketch.go:159-178, Sum *)
  Definition sum (h : sketch) (p : F) : res F :=
    if fle (sk_max h) p then Ok (of_Z (sk_count h))
    else if flt p (sk_min h) then Ok (of_Z 0)
    else
      let k := sort_search (length (sk_cs h)) (at_cs (fun c => flt p (c_p c)) (sk_cs h)) in
      let s := of_Z (weight (firstn (k - 1) (sk_cs h))) in
      match get_centroids h k with
      | Ok (ci, cj) =>
          if (0 <? c_m ci)%Z && ((0 <? c_m cj)%Z || feq (c_p ci) p) then Ok (fadd s (of_Z (c_m ci)))
          else
            let mi := of_Z (Z.abs (c_m ci)) in
            let mj := of_Z (Z.abs (c_m cj)) in
            let w := fsub (c_p cj) (c_p ci) in
            let mb := fadd mi (fdiv (fmul (fsub mj mi) (fsub p (c_p ci))) w) in
            Ok (fadd (fadd s (fdiv mi two)) (fdiv (fdiv (fmul (fadd mi mb) (fsub p (c_p ci))) two) w))
      | _ => Panic
      end.
  (** histosketch.go:198-208: the loop of Quantile. *)
  Fixpoint q_loop (t s pv : F) (i : nat) (cs : list centroid) : nat * F :=
    match cs with
    | [] => (i, s)
    | c :: r =>
        let v := fdiv (of_Z (Z.abs (c_m c))) two in
        if flt t (fadd (fadd s v) pv) then (i, s)
        else q_loop t (fadd s (fadd v pv)) v (S i) r
    end.
  (** histosketch.go:183-231, Quantile *)
  Definition quantile (h : sketch) (p : F) : res F :=
    if flt p (of_Z 0) || flt (of_Z 1) p then Panic
    else if (sk_count h <? 1)%Z then Panic
    else
      let t := fmul p (of_Z (sk_count h)) in
      let '(i, s) := q_loop t (of_Z 0) (of_Z 0) 0 (sk_cs h) in
      match get_centroids h i with
      | Ok (ci, cj) =>
          if (0 <? c_m ci)%Z && (0 <? c_m cj)%Z then Ok (c_p cj)
          else
            let d := fsub t s in
            let cim := of_Z (Z.abs (c_m ci)) in
            let a := of_Z (Z.abs (c_m cj) - Z.abs (c_m ci)) in
            if feq a (of_Z 0) then Ok (fadd (c_p ci) (fmul (fsub (c_p cj) (c_p ci)) (fdiv d cim)))
            else
              let b := fmul two cim in
              let c := fmul (of_Z (-2)) d in
              let z := fdiv (fadd (fsub (of_Z 0) b) (fsqrt (fsub (fmul b b) (fmul (fmul (of_Z 4) a) c)))) (fmul two a) in
              Ok (fadd (c_p ci) (fmul (fsub (c_p cj) (c_p ci)) z))
      | _ => Panic
      end.
  (** histosketch.go:401-410, Read *)
  Definition read (h : sketch) : list F * list Z :=
    (map c_p (sk_cs h) ++ [fadd (sk_max h) (of_Z 1)], map c_m (sk_cs h)).

  (** histosketch.go:234-246, MarshalBinary, and 249-285, UnmarshalBinary.  The text is given as the numbers
      printed: the version, how many centroids, the centroids, min and max; that fmt reads back the numbers it
      prints is assumed. *)
  Definition marshal_binary (h : sketch) : Z * nat * list (F * Z) * (F * F) :=
    (1%Z, length (sk_cs h), map (fun c => (c_p c, c_m c)) (sk_cs h), (sk_min h, sk_max h)).
  Definition unmarshal_binary (d : Z * nat * list (F * Z) * (F * F)) : option sketch :=
    let '(version, num, cs, (mn, mx)) := d in
    if (version =? 1)%Z && (num =? length cs)%nat then
      Some (mkSk (map (fun c => mkC (fst c) (snd c)) cs) (S num) (fold_right (fun c s => (snd c + s)%Z) 0%Z cs) mn mx)
    else None.
End Sketch.
Arguments mkC {F} _ _.
Arguments c_p {F} _.
Arguments c_m {F} _.
Arguments mkSk {F} _ _ _ _ _.
Arguments sk_cs {F} _.
Arguments sk_cap {F} _.
Arguments sk_count {F} _.
Arguments sk_min {F} _.
Arguments sk_max {F} _.
