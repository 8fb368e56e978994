(** Whole CBOR documents: fuel, sequences of entries. *)
From Verif Require Import Base M_Bufio L_Bufio M_Decimal M_Cbor S_Cbor L_Cbor L_CborDoc L_CborWrite.

(** ** More fuel changes nothing *)
Section Fuel.
  Variables (cap : nat) (fin : err).
  Notation srun := (srun cap fin).
  Definition pext {A} (p q : sprog unit (res A)) : Prop := forall s, fst (srun p s) <> OutOfFuel -> srun q s = srun p s.
  Lemma pext_refl : forall A (p : sprog unit (res A)), pext p p.
  Proof. intros A p s _. reflexivity. Qed.
  Lemma pext_rbind : forall A B (p q : sprog unit (res A)) (f g : A -> sprog unit (res B)), pext p q -> (forall a, pext (f a) (g a)) -> pext (rbind p f) (rbind q g).
  Proof.
    intros A B p q f g P F s H. rewrite srun_rbind in *. rewrite srun_rbind. rewrite P.
    - destruct (srun p s) as [[a|e| |] s']; auto. apply F. exact H.
    - intros E. destruct (srun p s) as [r s']. cbn in E. subst r. now apply H.
  Qed.
  Lemma pext_if : forall A (c : bool) (p p' q q' : sprog unit (res A)), pext p p' -> pext q q' -> pext (if c then p else q) (if c then p' else q').
  Proof. intros A [|]; auto. Qed.
  Lemma pext_out : forall A (q : sprog unit (res A)), pext (SRet OutOfFuel) q.
  Proof. intros A q s H. now elim H. Qed.
  Lemma chunks_mono : forall f f', (f <= f')%nat -> forall acc, pext (read_chunks f acc) (read_chunks f' acc).
  Proof.
    induction f as [|f IH]; intros [|f'] L acc; try apply pext_out; [lia|]. cbn [read_chunks].
    apply pext_rbind; [apply pext_refl|]. intros b. apply pext_if; [apply pext_refl|]. apply pext_rbind; [apply pext_refl|]. intros c. apply pext_rbind; [apply pext_refl|]. intros xd. apply IH. lia.
  Qed.
  Theorem fuel_mono : forall f f', (f <= f')%nat -> pext (read_value f) (read_value f') /\
    (forall n acc, pext (read_array f n acc) (read_array f' n acc)) /\ (forall n acc, pext (read_map f n acc) (read_map f' n acc)).
  Proof.
    induction f as [|f IH]; intros [|f'] L; try (split; [apply pext_out|split; intros; apply pext_out]); [lia|].
    destruct (IH f' ltac:(lia)) as (IV & IA & IM). split; [|split].
    - rewrite !read_value_eq. apply pext_rbind; [apply pext_refl|]. intros b. unfold read_item. cbv zeta.
      repeat (apply pext_if; [try apply pext_refl|]); try apply pext_refl; try (apply pext_rbind; [apply chunks_mono; lia|intros; apply pext_refl]);
        try (apply pext_rbind; [apply IA|intros; apply pext_refl]); try (apply pext_rbind; [apply IM|intros; apply pext_refl]).
      + apply pext_rbind; [apply pext_refl|]. intros n. apply pext_if; [apply pext_refl|]. apply pext_rbind; [apply IA|intros; apply pext_refl].
      + apply pext_rbind; [apply pext_refl|]. intros n. apply pext_rbind; [apply IM|intros; apply pext_refl].
    - intros n acc. rewrite !read_array_eq. apply pext_if; [apply pext_refl|]. apply pext_rbind; [apply pext_refl|]. intros b. apply pext_if; [apply pext_refl|].
      apply pext_rbind; [apply IV|]. intros v. apply IA.
    - intros n acc. rewrite !read_map_eq. apply pext_if; [apply pext_refl|]. apply pext_rbind; [apply pext_refl|]. intros b. apply pext_if; [apply pext_refl|].
      apply pext_rbind; [apply pext_refl|]. intros k. apply pext_rbind; [apply IV|]. intros v. apply IM.
  Qed.
  Lemma body_mono : forall f f' obj st s, (f <= f')%nat -> fst (fst (srun (cbor_read_body f obj st) s)) <> OutOfFuel ->
    srun (cbor_read_body f' obj st) s = srun (cbor_read_body f obj st) s.
  Proof.
    intros f f' obj st s L.
    pose (core := fun f => rbind (if (cr_len st =? -1)%Z then read_break else SRet (Ok false)) (fun brk =>
      if brk : bool then SRet (Err EOF) else rbind (if obj then read_string_key else SRet (Ok [])) (fun k =>
        rbind (read_value f) (fun v => SRet (Ok (mkCentry (X := unit) (if obj then 0%Z else cr_rows st) k v)))))).
    assert (P : pext (core f) (core f')).
    { apply pext_rbind; [apply pext_refl|]. intros b. apply pext_if; [apply pext_refl|]. apply pext_rbind; [apply pext_refl|]. intros k. apply pext_rbind; [apply fuel_mono, L|intros; apply pext_refl]. }
    unfold cbor_read_body. fold (core f). fold (core f'). rewrite !srun_bind.
    intros H. rewrite P; [reflexivity|]. intros E. apply H. destruct (srun (core f) s) as [r s']. cbn in E. subst r. reflexivity.
  Qed.
  Lemma entry_mono : forall f f' obj st s, (f <= f')%nat -> fst (fst (srun (cbor_read_entry f obj st) s)) <> OutOfFuel ->
    srun (cbor_read_entry f' obj st) s = srun (cbor_read_entry f obj st) s.
  Proof.
    intros f f' obj st s L. unfold cbor_read_entry. destruct (cr_rows st =? 0)%Z; [|apply body_mono, L]. rewrite !srun_bind.
    destruct (srun read_top_level s) as [[[t n]|e| |] s']; try reflexivity. destruct (Bool.eqb _ _); [apply body_mono, L|reflexivity].
  Qed.
  Lemma loop_mono : forall n n' f f' obj st s, (n <= n')%nat -> (f <= f')%nat -> snd (fst (srun (cbor_read_loop n f obj st) s)) <> OutOfFuel ->
    srun (cbor_read_loop n' f' obj st) s = srun (cbor_read_loop n f obj st) s.
  Proof.
    induction n as [|n IH]; intros [|n'] f f' obj st s LN L H; try (now elim H). cbn [cbor_read_loop] in *. rewrite srun_bind in *. rewrite srun_bind.
    rewrite (entry_mono f f'); [|exact L|].
    - destruct (srun (cbor_read_entry f obj st) s) as [[r st'] s']. destruct r as [e|e| |]; try reflexivity. rewrite srun_bind in *. rewrite srun_bind.
      rewrite (IH n' f f'); [reflexivity|lia|exact L|]. intros E. apply H. destruct (srun (cbor_read_loop n f obj st') s') as [[es out] s2]. cbn in *. exact E.
    - intros E. apply H. destruct (srun (cbor_read_entry f obj st) s) as [[r st'] s']. cbn in E. subst r. reflexivity.
  Qed.
End Fuel.

(** ** Sequences of entries *)
Section Run.
  Variables (cap : nat) (fin : err).
  Hypothesis cap_4096 : cap = N.to_nat 4096.
  Let cap_big : (8 <= cap)%nat.
  Proof. rewrite cap_4096. lia. Qed.
  Notation srun := (srun cap fin).

  (** The key and value of an entry. *)
  Definition item (fuel : nat) (obj : bool) (i : Z) : sprog unit (res (centry unit)) :=
    rbind (if obj then read_string_key else SRet (Ok [])) (fun k => rbind (read_value fuel) (fun v => SRet (Ok (mkCentry i k v)))).
  (** [cbor_read_loop] past the top level. *)
  Definition body_loop (n fuel : nat) (obj : bool) (st : cbor_state) : sprog unit (list (centry unit) * res unit) :=
    sbind (cbor_read_body fuel obj st) (fun '(r, st') => match r with
        | Ok e => sbind (cbor_read_loop n fuel obj st') (fun '(es, out) => SRet (e :: es, out))
        | Err e => SRet ([], Err e)
        | Panic => SRet ([], Panic)
        | OutOfFuel => SRet ([], OutOfFuel)
        end).
  Lemma loop_body_loop : forall n fuel obj st, cr_rows st <> 0%Z -> cbor_read_loop (S n) fuel obj st = body_loop n fuel obj st.
  Proof. intros n fuel obj st H. cbn [cbor_read_loop]. unfold cbor_read_entry. destruct (Z.eqb_spec (cr_rows st) 0); [contradiction|reflexivity]. Qed.
  Definition idx (obj : bool) (i : Z) : Z := if obj then 0%Z else i.
  Lemma body_eq : forall fuel obj st s b t, s = b :: t -> b <> 255%N \/ cr_len st <> (-1)%Z -> srun (cbor_read_body fuel obj st) s =
    let '(r, s') := srun (item fuel obj (idx obj (cr_rows st))) s in
    ((r, match r with Ok _ => mkCbor (cr_rows st + 1) (cr_len st) | _ => st end), s').
  Proof.
    intros fuel obj st s b t E H. unfold cbor_read_body. rewrite srun_bind, srun_rbind.
    assert (B : srun (if (cr_len st =? -1)%Z then read_break else SRet (Ok false)) s = (Ok false, s)).
    { destruct (Z.eqb_spec (cr_len st) (-1)); [|reflexivity]. destruct H as [H|H]; [|contradiction]. eapply break_not; eauto. }
    rewrite B. cbv iota. unfold item, idx. destruct (srun (rbind (if obj then read_string_key else SRet (Ok [])) _) s) as [r s']. reflexivity.
  Qed.

  Inductive items (obj : bool) (fuel : nat) : list (bytes * gval N) -> bytes -> Prop :=
  | items_nil : items obj fuel [] []
  | items_cons : forall k v a its b,
      (forall i rest, exists v', srun (item fuel obj i) (a ++ rest) = (Ok (mkCentry i k v'), rest) /\ as_read v' = v) ->
      (exists c t, a = c :: t /\ c <> 255%N) -> items obj fuel its b -> items obj fuel ((k, v) :: its) (a ++ b).
  Fixpoint numbered (obj : bool) (i : Z) (its : list (bytes * gval N)) : list (entry N) :=
    match its with [] => [] | (k, v) :: r => mkEntry (idx obj i) k v :: numbered obj (i + 1)%Z r end.
  Lemma items_loop : forall obj fuel its b, items obj fuel its b -> forall n st rest, (0 <= cr_rows st)%Z ->
    exists es, map entry_read es = numbered obj (cr_rows st) its /\
      srun (body_loop (length its + n) fuel obj st) (b ++ rest) =
      let '((es2, out), s) := srun (body_loop n fuel obj (mkCbor (cr_rows st + Z.of_nat (length its)) (cr_len st))) rest in ((es ++ es2, out), s).
  Proof.
    intros obj fuel its b H. induction H as [|k v a its b HV (c & t & Ea & Hc) H IH]; intros n [rows len] rest R; cbn [cr_rows cr_len] in *.
    - exists []. split; [reflexivity|]. cbn [length app Nat.add Z.of_nat]. rewrite Z.add_0_r.
      destruct (srun (body_loop n fuel obj (mkCbor rows len)) rest) as [[es out] s]. reflexivity.
    - destruct (HV (idx obj rows) (b ++ rest)) as (v' & E & V). destruct (IH n (mkCbor (rows + 1) len) rest) as (es & M & L); [cbn; lia|]. cbn [cr_rows cr_len] in *.
      exists (mkCentry (idx obj rows) k v' :: es). split.
      + cbn [map numbered]. rewrite M. unfold entry_read at 1. cbn [ce_index ce_key ce_val]. now rewrite V.
      + cbn [length Nat.add]. unfold body_loop at 1. rewrite srun_bind, <- app_assoc.
        rewrite (body_eq fuel obj _ _ c (t ++ b ++ rest)) by (auto; rewrite Ea; reflexivity). cbn [cr_rows cr_len]. rewrite E.
        rewrite srun_bind, loop_body_loop by (cbn; lia). rewrite L.
        replace (rows + Z.of_nat (S (length its)))%Z with (rows + 1 + Z.of_nat (length its))%Z by lia.
        destruct (srun (body_loop n fuel obj _) rest) as [[es2 out] s]. reflexivity.
  Qed.
  (** At the end of the input. *)
  Lemma loop_end : forall n fuel obj st, srun (body_loop n (S fuel) obj st) [] = (([], Err fin), []).
  Proof.
    intros n fuel obj st. unfold body_loop. rewrite srun_bind. unfold cbor_read_body. rewrite srun_bind, srun_rbind.
    assert (B : srun (if (cr_len st =? -1)%Z then read_break else SRet (Ok false)) [] = (Ok false, [])).
    { destruct (cr_len st =? -1)%Z; [apply (srun_break cap fin cap_big)|reflexivity]. }
    rewrite B. cbv iota. destruct obj; reflexivity.
  Qed.
  (** At a break that ends an indefinite-length document. *)
  Lemma loop_break : forall n fuel obj st rest, cr_len st = (-1)%Z -> srun (body_loop n fuel obj st) (255%N :: rest) = (([], Err EOF), rest).
  Proof.
    intros n fuel obj st rest H. unfold body_loop. rewrite srun_bind. unfold cbor_read_body. rewrite srun_bind, srun_rbind. rewrite H. cbn [Z.eqb Pos.eqb].
    rewrite (srun_break cap fin cap_big). reflexivity.
  Qed.
  (** At an item that cannot be read. *)
  Lemma loop_fails : forall n fuel obj st s b t, s = b :: t -> b <> 255%N -> fails cap fin (item fuel obj (idx obj (cr_rows st))) s ->
    exists e s', srun (body_loop n fuel obj st) s = (([], Err e), s') /\ is_eof_text e <> true.
  Proof.
    intros n fuel obj st s b t E B (e & F & N). unfold body_loop. rewrite srun_bind, (body_eq fuel obj st s b t) by auto.
    destruct (srun (item fuel obj (idx obj (cr_rows st))) s) as [r s']. cbn in F. subst r. exists e, s'. auto.
  Qed.
  (** The top level. *)
  Lemma top_definite : forall major n h rest, (major = 4 \/ major = 5)%N -> head major n h -> (n < 2 ^ 63)%N -> srun read_top_level (h ++ rest) = (Ok (major, Z.of_N n), rest).
  Proof.
    intros major n h rest M H L. destruct (head_cons cap fin cap_big _ _ _ H) as (b & t & -> & D & (a & A & Q) & G). cbn [app]. unfold read_top_level. rewrite srun_rbind, srun_read_byte. cbv zeta. rewrite D.
    assert (MM : (b mod 32 = a)%N) by (rewrite Q, N.add_comm, N.mod_add by lia; apply N.mod_small; lia).
    rewrite MM. replace (negb (N.eqb major 4) && negb (N.eqb major 5))%bool with false by (destruct M as [-> | ->]; reflexivity).
    destruct (N.eqb_spec a 31); [lia|]. rewrite srun_rbind, G, wrap_int64_small by assumption. reflexivity.
  Qed.
  Lemma top_indefinite : forall (obj : bool) rest, srun read_top_level ((if obj then 191 else 159)%N :: rest) = (Ok (if obj then 5%N else 4%N, (-1)%Z), rest).
  Proof. intros [|] rest; reflexivity. Qed.
  Definition major_of (obj : bool) : N := if obj then 5%N else 4%N.
  Lemma loop_top : forall n fuel obj h len s, srun read_top_level h = (Ok (major_of obj, len), s) ->
    srun (cbor_read_loop (S n) fuel obj cbor_start) h = srun (body_loop n fuel obj (mkCbor 0 len)) s.
  Proof.
    intros n fuel obj h len s E. cbn [cbor_read_loop]. unfold cbor_read_entry at 1. cbn [cbor_start cr_rows Z.eqb].
    unfold body_loop. rewrite !srun_bind, E. replace (Bool.eqb (N.eqb (major_of obj) 5) obj) with true by (destruct obj; reflexivity). reflexivity.
  Qed.

  (** Supported encodings are items. *)
  Lemma item_array : forall fuel v a i rest, cenc v a -> (2 * length a < fuel)%nat -> exists v', srun (item fuel false i) (a ++ rest) = (Ok (mkCentry i [] v'), rest) /\ as_read v' = v.
  Proof.
    intros fuel v a i rest C F. destruct (proj1 (read_cenc cap fin cap_big cap_4096) v a C fuel rest F) as (v' & E & V). exists v'. split; [|exact V].
    unfold item. rewrite srun_rbind, srun_ret, srun_rbind, E. reflexivity.
  Qed.
  Lemma item_object : forall fuel k v h a i rest, head 3 (N.of_nat (length k)) h -> (length k <= N.to_nat 4096)%nat -> cenc v a -> (2 * length a < fuel)%nat ->
    exists v', srun (item fuel true i) (h ++ k ++ a ++ rest) = (Ok (mkCentry i k v'), rest) /\ as_read v' = v.
  Proof.
    intros fuel k v h a i rest H L C F. destruct (proj1 (read_cenc cap fin cap_big cap_4096) v a C fuel rest F) as (v' & E & V). exists v'. split; [|exact V].
    unfold item. rewrite srun_rbind, string_key_ok by assumption. rewrite srun_rbind, E. reflexivity.
  Qed.
  Lemma items_array : forall fuel l b, cenc_list l b -> (2 * length b < fuel)%nat -> items false fuel (map (fun v => ([], v)) l) b.
  Proof.
    intros fuel l b C. induction C as [|v l a b C CL IH]; intros F; cbn [map]; [constructor|]. rewrite app_length in F. constructor.
    - intros i rest. apply item_array; [assumption|lia].
    - eapply cenc_first; eassumption.
    - apply IH. lia.
  Qed.
  Lemma items_object : forall fuel l b, cenc_pairs l b -> (2 * length b < fuel)%nat -> items true fuel l b.
  Proof.
    intros fuel l b C. induction C as [|k v ps h a b H L C CL IH]; intros F; [constructor|]. rewrite !app_length in F.
    replace (h ++ k ++ a ++ b) with ((h ++ k ++ a) ++ b) by now rewrite <- !app_assoc. constructor.
    - intros i rest. rewrite <- !app_assoc. apply item_object; auto. lia.
    - destruct (head_cons cap fin cap_big 3 _ h H) as (c & t & -> & D & (a0 & A0 & Q) & _). exists c, (t ++ k ++ a). split; [reflexivity|lia].
    - apply IH. lia.
  Qed.
  Lemma numbered_array : forall l i, numbered false i (map (fun v => ([], v)) l) = array_entries i l.
  Proof. induction l as [|v l IH]; intros i; cbn; [reflexivity|]. now rewrite IH. Qed.
  Lemma numbered_object : forall l i, numbered true i l = object_entries l.
  Proof. induction l as [|[k v] l IH]; intros i; cbn; [reflexivity|]. now rewrite IH. Qed.
End Run.
