(** C49: column statistics. *)
From Coq Require Import ZArith Lia Floats.SpecFloat.
From Verif Require Import Base M_Decimal L_Decimal M_Float M_Histo M_Stream M_Stats S_Histo S_Stream S_Stats L_Stream L_Histo L_HistoQ P_Histo L_Stats.
Local Open Scope nat_scope.

Section Report.
  Variable estimate : list bytes -> Z.
  Variable top_keys : list bytes -> list (bytes * Z).
  Notation close := (M_Stats.close estimate top_keys).
  Notation column := (column estimate top_keys sketched).
  Notation report := (report estimate top_keys sketched).
  Notation calculate := (calculate estimate top_keys).

  Lemma entries_written : forall es a, fold_left (fun a e => write_entry (e_val e) a) es a =
    match es with [] => a | e :: _ => Some (writes (map e_val es) (match a with Some a => a | None => new_acc (e_val e) end)) end.
  Proof.
    induction es as [|e es IH]; intros a; [reflexivity|]. cbn [fold_left]. rewrite IH. destruct es as [|e' es]; [unfold write_entry; reflexivity|]. unfold write_entry at 1. reflexivity.
  Qed.
  Lemma sorted_column : forall k vs m, column k vs m -> sorted m.
  Proof.
    intros k vs m H. destruct H as [vs|vs|vs lo hi b f med|vs lo hi fs| |vs ms]; try assumption; try (cbn; repeat split; reflexivity).
    - destruct (f_eqb med two63); cbn; repeat split; reflexivity.
    - destruct (estimate _ =? 0)%Z; cbn; repeat split; reflexivity.
  Qed.
  Lemma reported_plain : forall a k m, k = acc_kind a -> m = to_map a -> sorted m -> reported None k m (stat_map a).
  Proof.
    intros a k m -> -> HS. unfold stat_map, reported. split; [apply sorted_set; assumption|]. split; [rewrite map_get_set_eq, acc_type_kind; reflexivity|]. intros name Hn. apply map_get_set_neq. assumption.
  Qed.
  Lemma reported_keyed : forall key a k m, k = acc_kind a -> m = to_map a -> sorted m -> reported (Some key) k m (keyed_map (key, a)).
  Proof.
    intros key a k m -> -> HS. unfold keyed_map, reported. cbn [fst snd]. split; [apply sorted_set, sorted_set; assumption|]. split; [rewrite map_get_set_eq, acc_type_kind; reflexivity|]. intros name Hn. rewrite map_get_set_neq by assumption.
    destruct (beqb_spec name (bs "key")) as [->|Hk]; [apply map_get_set_eq|apply map_get_set_neq; assumption].
  Qed.
  Lemma key_above_in : forall V (m : list (bytes * V)) k k', key_above k m -> In k' (map fst m) -> bcmp k k' = Lt.
  Proof. induction m as [|[a x] m IH]; intros k k' H HI; [contradiction|]. destruct H as [H1 H2]. destruct HI as [<-|HI]; [assumption|apply (IH k k' H2 HI)]. Qed.
  Lemma sorted_keys : forall V (m : list (bytes * V)) i j a b, sorted m -> i < j -> nth_error (map fst m) i = Some a -> nth_error (map fst m) j = Some b -> bcmp a b = Lt.
  Proof.
    induction m as [|[k v] m IH]; intros i j a b HS HL Ha Hb; [rewrite nth_error_nil' in Hb; discriminate|]. destruct HS as [S1 S2]. destruct j as [|j]; [lia|]. cbn in Hb. destruct i as [|i]; cbn in Ha.
    - injection Ha as <-. apply nth_error_In in Hb. apply (key_above_in V m k b S1 Hb).
    - apply (IH i j a b S2); [lia|assumption|assumption].
  Qed.

  (** The report of a body: closing never panics and every number in it is about the values. *)
  Theorem stats_report : forall vs, Forall proper vs -> exists a a', close_all estimate top_keys (fold_left (fun a v => write_entry v a) vs None) = Ok a /\
    close_all estimate top_keys a = Ok a' /\ report vs (acc_stats a).
  Proof.
    intros vs HP. destruct vs as [|v r]; [exists None, None; repeat split; apply rep_empty|].
    assert (E : fold_left (fun a v => write_entry v a) (v :: r) None = Some (writes (v :: r) (new_acc v))).
    { pose proof (entries_written (map (fun v => mkEntry 0%Z [] v) (v :: r)) None) as W. cbn [map e_val] in W. rewrite map_map in W. cbn [e_val] in W. rewrite map_id in W.
      rewrite <- W. clear. cbn [fold_left e_val]. generalize (write_entry v None). induction r as [|x r IH]; intros a; [reflexivity|]. cbn [map fold_left e_val]. apply IH. }
    rewrite E. assert (HD : exists n, Forall (fun v => depth v < n) (v :: r)).
    { clear. induction (v :: r) as [|x l [n IH]]; [exists 0; constructor|]. exists (S (Nat.max (depth x) n)). constructor; [lia|]. eapply Forall_impl; [|exact IH]. intros y Hy. cbn in Hy |- *. lia. }
    destruct HD as [n HD]. destruct (built estimate top_keys n v r HP HD) as [a [a' [B1 [B2 [B3 [B4 B5]]]]]]. unfold close_all. rewrite B1. exists (Some a), (Some a'). split; [reflexivity|]. rewrite B2. split; [reflexivity|].
    assert (SC : kind_of v <> KObj -> kind_of v <> KArr -> report (v :: r) (Some [stat_map a])).
    { intros K1 K2. apply (rep_scalar estimate top_keys sketched v r (to_map a)); [assumption|assumption|assumption|]. apply reported_plain; [symmetry; assumption|reflexivity|eapply sorted_column; eassumption]. }
    destruct a as [c|c t f|c mn mx me md d h sk|c mn mx u f seen|ch|ch]; cbn [acc_stats]; try (apply SC; rewrite <- B3; discriminate).
    - destruct v as [ | | | | | | |m]; try discriminate B3. destruct B5 as [P0 [P1 P2]]. apply (rep_object estimate top_keys sketched m r (map fst ch)).
      + intros i j x y HL Hx Hy. eapply sorted_keys; eassumption.
      + intros k. rewrite <- P1. rewrite get_none. destruct (in_dec (list_eq_dec N.eq_dec) k (map fst ch)); tauto.
      + assert (X : forall k c, In (k, c) ch -> map_get k ch = Some c) by (intros k c Hk; apply in_get; assumption). clear - P2 X.
        assert (Y : forall ch0, incl ch0 ch -> Forall2 (fun k row => exists v l m', at_key k (VMap m :: r) = v :: l /\ column (kind_of v) (v :: l) m' /\ reported (Some k) (kind_of v) m' row) (map fst ch0) (map keyed_map ch0)).
        { induction ch0 as [|[k c] ch0 IH]; intros HI; cbn [map fst]; constructor; [|apply IH; intros y Hy; apply HI; right; assumption]. destruct (P2 k c (X k c (HI _ (or_introl eq_refl)))) as [v [l [E1 [E2 E3]]]]. rewrite E1 in E3.
          exists v, l, (to_map c). split; [assumption|]. split; [assumption|]. apply reported_keyed; [symmetry; assumption|reflexivity|eapply sorted_column; eassumption]. }
        apply Y. apply incl_refl.
    - destruct v as [ | | | | | |l| ]; try discriminate B3. destruct B5 as [P1 P2]. apply (rep_array estimate top_keys sketched l r).
      + intros i. rewrite <- P1, nth_error_map. destruct (nth_error ch i); cbn; split; auto; discriminate.
      + intros i row Hr. rewrite nth_error_map in Hr. destruct (nth_error ch i) as [c|] eqn:Hc; [|discriminate]. injection Hr as <-. destruct (P2 i c Hc) as [v [r' [E1 [E2 E3]]]]. rewrite E1 in E3.
        exists v, r', (to_map c). split; [assumption|]. split; [assumption|]. apply reported_plain; [symmetry; assumption|reflexivity|eapply sorted_column; eassumption].
  Qed.

  (** CalculateFromEntryReader: the report of all entries if the reader ends, the reader's error otherwise. *)
  Theorem stats_calculate : forall (St : Type) (rd : reader f64 St) s es e s' fuel, yields rd s es e s' -> length es < fuel -> Forall (fun x => proper (e_val x)) es ->
    if is_eof_text e then exists st, calculate fuel rd s = (Ok st, s') /\ report (map e_val es) st
    else calculate fuel rd s = (Err (EWrap "error reading row" (Z.of_nat (length es)) e), s').
  Proof.
    intros St rd s es e s' fuel HY HF HP. unfold M_Stats.calculate.
    assert (V : forall l i (a : option acc), visits (fun a (_ : Z) (x : entry f64) => (None, write_entry (e_val x) a)) a i l (fold_left (fun a x => write_entry (e_val x) a) l a)).
    { induction l as [|x l IH]; intros i a; [apply v_nil|]. cbn [fold_left]. eapply v_cons; [reflexivity|apply IH]. }
    rewrite (each_entry_all rd _ s es e s' HY 0 None _ (V es 0%Z None) fuel HF). rewrite Z.add_0_l.
    assert (EQ : fold_left (fun a x => write_entry (e_val x) a) es None = fold_left (fun a v => write_entry v a) (map e_val es) None).
    { generalize (@None acc). clear. induction es as [|x es IH]; intros a; [reflexivity|]. cbn [fold_left map]. apply IH. }
    rewrite EQ. destruct (stats_report (map e_val es)) as [a [a' [R1 [R2 R3]]]]; [clear - HP; induction HP; cbn [map]; constructor; assumption|].
    rewrite R1. destruct (is_eof_text e); [|reflexivity]. rewrite R2. eexists. split; [reflexivity|assumption].
  Qed.
End Report.

(** With at most 32 different numbers the histogram reported is exact. *)
Theorem stats_histogram_exact : forall xs bins freqs med, sketched xs bins freqs med -> Forall not_nan xs -> at_most_distinct f64 f_leb 32 (map (fun x => (x, 1%Z)) xs) ->
  exists values top counts, bins = values ++ [top] /\ freqs = map f_int counts /\ ascending f64 f_leb values /\
    Forall2 (fun p m => (0 < m)%Z /\ times f64 f_leb p (map (fun x => (x, 1%Z)) xs) m) values counts /\
    (forall x, In x xs -> exists p, In p values /\ same f64 f_leb x p).
Proof.
  intros xs bins freqs med [fs [S1 [S2 _]]] HN HD.
  assert (HV : Forall (fun v => not_nan (fst v) /\ (0 < snd v)%Z) (map (fun x => (x, 1%Z)) xs)) by (clear - HN; induction HN; cbn [map]; constructor; [split; [assumption|reflexivity]|assumption]).
  pose proof (sketch_exact 32 sk32 _ sk_new32 HV HD) as X. change (f_adds (map (fun x => (x, 1%Z)) xs) sk32) with (sk_of xs) in X. rewrite S1 in X. destruct X as [values [E1 [E2 [E3 E4]]]].
  exists values, (f_add (sk_max (sk_of xs)) (f_int 1)), fs. split; [assumption|]. split; [assumption|]. split; [assumption|]. split; [assumption|]. intros x Hx. apply (E4 x 1%Z). apply in_map_iff. exists x. auto.
Qed.
(** The reported minimum is one of the values as soon as one of them is at most 2^63. *)
Theorem stats_min_exact : forall lo xs, lowest two63 lo xs -> (exists x, In x xs /\ f_leb x two63 = true) -> exists y, In y xs /\ same f64 f_leb y lo /\ forall x, In x xs -> not_nan x -> f_leb lo x = true.
Proof.
  intros lo xs [L1 L2] [x [Hx Lx]]. assert (Nx : not_nan x) by (intros ->; discriminate Lx). assert (NT : not_nan two63) by (intros X; vm_compute in X; discriminate).
  destruct L1 as [<-|L1].
  - exists x. split; [assumption|]. split; [split; [assumption|apply L2; [right; assumption|assumption]]|]. intros y Hy Ny. apply L2; [right; assumption|assumption].
  - exists lo. split; [assumption|]. split; [|intros y Hy Ny; apply L2; [right; assumption|assumption]].
    assert (Nl : not_nan lo) by (intros ->; specialize (L2 two63 (or_introl eq_refl) NT); discriminate L2). split; apply f_refl; assumption.
Qed.

(** ** Claims that do not hold *)
(** All values beyond 2^63: the reported minimum is 2^63, which is none of them. *)
Definition none_est (l : list bytes) : Z := Z.of_nat (length l).
Definition none_top (l : list bytes) : list (bytes * Z) := [].
Definition stats_of (vs : list val) : option (list (list (bytes * val))) :=
  match close_all none_est none_top (fold_left (fun a v => write_entry v a) vs None) with Ok a => acc_stats a | _ => None end.
Definition cell (vs : list val) (i : nat) (k : bytes) : option val := match stats_of vs with Some rows => match nth_error rows i with Some m => map_get k m | None => None end | None => None end.
Theorem stats_min_refuted : cell [VFloat (f_int 20000000000000000000)] 0 (bs "min") = Some (VFloat two63).
Proof. vm_compute. reflexivity. Qed.
(** A column that starts with null counts only the nulls. *)
Theorem stats_null_first_refuted : stats_of [VArr [VNil]; VArr [VInt 1]; VArr [VInt 2]] = Some [[(bs "count", VInt 1); (bs "type", VStr (bs "null"))]].
Proof. vm_compute. reflexivity. Qed.
(** The statistics of a nested field called key are replaced by the name of the column. *)
Theorem stats_nested_key_refuted : forall v, kind_of v = KBool -> cell [VMap [(bs "a", VMap [(bs "key", v)])]] 0 (bs "key") = Some (VStr (bs "a")).
Proof. intros [ |b| | | | | | ] K; try discriminate. destruct b; vm_compute; reflexivity. Qed.
(** A second Close changes the mean. *)
Theorem stats_close_twice_refuted : exists a a' m, close none_est none_top (writes [VInt 6; VInt 6] (new_acc (VInt 6))) = Ok a /\ close none_est none_top a = Ok a' /\
  map_get (bs "mean") (to_map a) = Some (VFloat (f_int 6)) /\ map_get (bs "mean") (to_map a') = Some (VFloat m) /\ m = f_int 3.
Proof. eexists. eexists. eexists. split; [vm_compute; reflexivity|]. split; [vm_compute; reflexivity|]. split; [vm_compute; reflexivity|]. split; [vm_compute; reflexivity|]. vm_compute. reflexivity. Qed.

(** A body of three rows: an object with a nested array. *)
Definition body3 : list val :=
  [VMap [(bs "n", VInt 3); (bs "b", VBool true)]; VMap [(bs "n", VFloat (f_int 1)); (bs "l", VArr [VStr (bs "x")])]; VMap [(bs "b", VNil); (bs "l", VArr [VStr (bs "yz"); VNil])]].
Example stats_ex : Forall proper body3 /\
  cell body3 0 (bs "key") = Some (VStr (bs "b")) /\ cell body3 0 (bs "trueCount") = Some (VInt 1) /\ cell body3 0 (bs "count") = Some (VInt 1) /\
  cell body3 1 (bs "type") = Some (VStr (bs "array")) /\ cell body3 1 (bs "values") =
    Some (VArr [VMap [(bs "count", VInt 2); (bs "frequencies", VMap []); (bs "maxLength", VInt 2); (bs "minLength", VInt 1); (bs "unique", VInt 2)]; VMap [(bs "count", VInt 1)]]) /\
  cell body3 2 (bs "min") = Some (VFloat (f_int 1)) /\ cell body3 2 (bs "mean") = Some (VFloat (f_int 2)).
Proof.
  split.
  - assert (ND : forall (a b : bytes), beqb a b = false -> NoDup [a; b]) by (intros a b H; constructor; [intros [E|[]]; subst; rewrite beqb_refl in H; discriminate|constructor; [intros []|constructor]]).
    repeat constructor; try (cbn; lia); try (intros [E|[]]; discriminate E); try (intros []).
  - vm_compute. repeat split.
Qed.
Print Assumptions stats_report.
Print Assumptions stats_calculate.
Print Assumptions stats_histogram_exact.
Print Assumptions stats_min_exact.
