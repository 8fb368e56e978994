(** Termination and truncation of the CBOR reader; reading back what the writer wrote. *)
From Verif Require Import Base M_Bufio L_Bufio M_Decimal M_Cbor S_Cbor L_Cbor.

Section Run.
  Variables (cap : nat) (fin : err).
  Hypothesis cap_4096 : cap = N.to_nat 4096.
  Let cap_big : (8 <= cap)%nat.
  Proof. rewrite cap_4096. lia. Qed.
  Notation srun := (srun cap fin).

  (** ** Consumption *)
  Lemma run_list_suffix : forall A (p : prog A) s, exists c, s = c ++ snd (run_list cap fin p s).
  Proof.
    intros A p. induction p as [a|k IH|n k IH|n k IH]; intros s; cbn [run_list].
    - now exists [].
    - destruct s as [|c t]; [apply IH|]. destruct (IH (Ok c) t) as [x E]. exists (c :: x). cbn. now rewrite <- E.
    - destruct (n <? 0)%Z; [apply IH|]. destruct (Z.of_nat cap <? n)%Z; [apply IH|]. destruct (Z.of_nat (length s) <? n)%Z; apply IH.
    - destruct (IH (skipn (Z.to_nat n) s)) as [x E]. exists (firstn (Z.to_nat n) s ++ x). rewrite <- app_assoc, <- E. now rewrite firstn_skipn.
  Qed.
  Lemma srun_length : forall A (p : sprog unit A) s r s', srun p s = (r, s') -> (length s' <= length s)%nat.
  Proof.
    intros A p s r s' E. destruct (run_list_suffix A (plain tt p) s) as [c H]. unfold L_Cbor.srun in E. rewrite E in H. cbn [snd] in H.
    rewrite H, app_length. lia.
  Qed.
  Lemma read_byte_then : forall A (f : N -> sprog unit (res A)) s r s', srun (rbind read_byte_p f) s = (r, s') ->
    (s = [] /\ r = Err fin /\ s' = []) \/ exists c t, s = c :: t /\ srun (f c) t = (r, s').
  Proof.
    intros A f s r s' E. rewrite srun_rbind, srun_read_byte in E. destruct s as [|c t]; [left; injection E as <- <-; auto|right; eauto].
  Qed.
  Lemma read_value_consumes : forall fuel s v s', srun (read_value fuel) s = (Ok v, s') -> (length s' < length s)%nat.
  Proof.
    intros [|fuel] s v s' E; [discriminate E|]. rewrite read_value_eq in E. apply read_byte_then in E as [(_ & E & _)|(c & t & -> & E)]; [discriminate|].
    apply srun_length in E. cbn. lia.
  Qed.
  Lemma read_string_key_consumes : forall s k s', srun read_string_key s = (Ok k, s') -> (length s' < length s)%nat.
  Proof.
    intros s k s' E. unfold read_string_key in E. apply read_byte_then in E as [(_ & E & _)|(c & t & -> & E)]; [discriminate|].
    apply srun_length in E. cbn. lia.
  Qed.

  (** ** Termination *)
  Definition total {A} (p : sprog unit (res A)) : Prop := forall s, fst (srun p s) <> OutOfFuel.
  Lemma total_rbind : forall A B (p : sprog unit (res A)) (f : A -> sprog unit (res B)), total p -> (forall a, total (f a)) -> total (rbind p f).
  Proof.
    intros A B p f P F s. rewrite srun_rbind. specialize (P s). destruct (srun p s) as [[a|e| |] s']; cbn in *; try discriminate; [apply F|contradiction].
  Qed.
  Lemma total_ret : forall A (a : A), total (SRet (Ok a)).
  Proof. intros A a s. discriminate. Qed.
  Lemma total_err : forall A e, total (SRet (@Err A e)).
  Proof. intros A e s. discriminate. Qed.
  Lemma total_panic : forall A, total (SRet (@Panic A)).
  Proof. intros A s. discriminate. Qed.
  Lemma total_bytes : forall n, total (read_bytes n).
  Proof.
    intros n s. rewrite srun_read_bytes. destruct (n <? 0)%Z; [discriminate|]. destruct (Z.of_nat cap <? n)%Z; [discriminate|]. destruct (Z.of_nat (length s) <? n)%Z; discriminate.
  Qed.
  Lemma total_byte : total read_byte_p.
  Proof. intros [|c t]; discriminate. Qed.
  Lemma total_var : forall b, total (get_var_len_int b).
  Proof.
    intros b. unfold get_var_len_int. cbv zeta.
    assert (I : forall n, total (read_int_bytes n)) by (intros n; apply total_rbind; [apply total_bytes|intros; apply total_ret]).
    repeat match goal with |- total (if ?c then _ else _) => destruct c end; auto using total_ret, total_err.
  Qed.
  Lemma total_prefixed : forall b, total (read_prefixed b).
  Proof. intros. apply total_rbind; [apply total_var|apply total_bytes]. Qed.
  Lemma total_key : total read_string_key.
  Proof.
    apply total_rbind; [apply total_byte|]. intros b. destruct (negb _); [apply total_err|].
    apply total_rbind; [apply total_prefixed|intros; apply total_ret].
  Qed.
  Lemma break_result : forall s, exists b s', srun read_break s = (Ok b, s') /\ (length s' <= length s)%nat.
  Proof.
    intros s. rewrite (srun_break cap fin cap_big). destruct s as [|c t]; [exists false, []; auto|].
    destruct (N.eqb c 255); [exists true, t|exists false, (c :: t)]; split; auto; cbn; lia.
  Qed.
  Lemma loop_head : forall n s, exists b s', srun (if (n =? -1)%Z then read_break else SRet (Ok false)) s = (Ok b, s') /\ (length s' <= length s)%nat.
  Proof. intros n s. destruct (n =? -1)%Z; [apply break_result|]. exists false, s. auto. Qed.
  Lemma chunks_total : forall fuel acc s, (length s < fuel)%nat -> fst (srun (read_chunks fuel acc) s) <> OutOfFuel.
  Proof.
    induction fuel as [|fuel IH]; intros acc s F; [lia|]. cbn [read_chunks]. rewrite srun_rbind.
    destruct (break_result s) as (b & s1 & E & L). rewrite E. destruct b; [discriminate|]. rewrite srun_rbind, srun_read_byte.
    destruct s1 as [|c t]; [discriminate|]. rewrite srun_rbind. pose proof (total_prefixed c t) as T.
    destruct (srun (read_prefixed c) t) as [[xd|e| |] s2] eqn:E2; try discriminate; [|now cbn in T].
    apply srun_length in E2. cbn [length] in L. apply IH. lia.
  Qed.
  Theorem reader_total : forall fuel,
    (forall s, (2 * length s < fuel)%nat -> fst (srun (read_value fuel) s) <> OutOfFuel) /\
    (forall n acc s, (2 * length s + 1 < fuel)%nat -> fst (srun (read_array fuel n acc) s) <> OutOfFuel) /\
    (forall n acc s, (2 * length s + 1 < fuel)%nat -> fst (srun (read_map fuel n acc) s) <> OutOfFuel).
  Proof.
    induction fuel as [|fuel (IV & IA & IM)]; [repeat split; intros; lia|]. split; [|split].
    - intros s F. rewrite read_value_eq, srun_rbind, srun_read_byte. destruct s as [|b t]; [discriminate|]. cbn [length] in F.
      assert (C : forall (B : Type) (g : bytes -> B), fst (srun (rbind (read_chunks fuel []) (fun s => SRet (Ok (g s)))) t) <> OutOfFuel).
      { intros B g. rewrite srun_rbind. pose proof (chunks_total fuel [] t ltac:(lia)) as Q. destruct (srun (read_chunks fuel []) t) as [[x|e| |] s']; cbn in *; try discriminate; contradiction. }
      assert (A : forall n t', (length t' <= length t)%nat -> fst (srun (rbind (read_array fuel n []) (fun l => SRet (Ok (@CArr unit l)))) t') <> OutOfFuel).
      { intros n t' L. rewrite srun_rbind. pose proof (IA n [] t' ltac:(lia)) as Q. destruct (srun (read_array fuel n []) t') as [[x|e| |] s']; cbn in *; try discriminate; contradiction. }
      assert (M : forall n t', (length t' <= length t)%nat -> fst (srun (rbind (read_map fuel n []) (fun l => SRet (Ok (@CMap unit l)))) t') <> OutOfFuel).
      { intros n t' L. rewrite srun_rbind. pose proof (IM n [] t' ltac:(lia)) as Q. destruct (srun (read_map fuel n []) t') as [[x|e| |] s']; cbn in *; try discriminate; contradiction. }
      assert (FL : forall n, total (@read_float_bytes unit n)) by (intros n; apply total_rbind; [apply total_bytes|intros; apply total_ret]).
      assert (V : forall (g : Z -> sprog unit (res (cval unit))), (forall n t', (length t' <= length t)%nat -> fst (srun (g n) t') <> OutOfFuel) -> fst (srun (rbind (get_var_len_int b) g) t) <> OutOfFuel).
      { intros g G. rewrite srun_rbind. pose proof (total_var b t) as Q. destruct (srun (get_var_len_int b) t) as [[x|e| |] s'] eqn:E; cbn in *; try discriminate; [|contradiction].
        apply G. eapply srun_length; eauto. }
      unfold read_item. cbv zeta.
      repeat match goal with |- fst (L_Cbor.srun _ _ (if ?c then _ else _) _) <> _ => destruct c end;
        try discriminate; try apply C; try apply A; try apply M; try apply FL; try lia;
        try (apply (total_rbind _ _ (read_prefixed b)); [apply total_prefixed|intros; apply total_ret]).
      + apply V. intros; discriminate.
      + apply V. intros n t' L. destruct (n >? max_slice_cap)%Z; [discriminate|]. apply A. exact L.
      + apply V. intros n t' L. apply M. exact L.
    - intros n acc s F. rewrite read_array_eq. destruct (n =? 0)%Z; [discriminate|]. rewrite srun_rbind.
      destruct (loop_head n s) as (b & s1 & E & L). rewrite E. destruct b; [discriminate|]. rewrite srun_rbind.
      pose proof (IV s1 ltac:(lia)) as Q. destruct (srun (read_value fuel) s1) as [[v|e| |] s2] eqn:E2; cbn in *; try discriminate; [|contradiction].
      apply read_value_consumes in E2. apply IA. lia.
    - intros n acc s F. rewrite read_map_eq. destruct (n =? 0)%Z; [discriminate|]. rewrite srun_rbind.
      destruct (loop_head n s) as (b & s1 & E & L). rewrite E. destruct b; [discriminate|]. rewrite srun_rbind.
      pose proof (total_key s1) as QK. destruct (srun read_string_key s1) as [[k|e| |] s2] eqn:E2; cbn in QK; try discriminate; [|contradiction].
      apply read_string_key_consumes in E2. rewrite srun_rbind.
      pose proof (IV s2 ltac:(lia)) as Q. destruct (srun (read_value fuel) s2) as [[v|e| |] s3] eqn:E3; cbn in *; try discriminate; [|contradiction].
      apply read_value_consumes in E3. apply IM. lia.
  Qed.

  (** One entry: outcome, and progress on success. *)
  Lemma body_spec : forall fuel obj st s, (2 * length s < fuel)%nat ->
    exists r st' s', srun (cbor_read_body fuel obj st) s = ((r, st'), s') /\ r <> OutOfFuel /\ (length s' <= length s)%nat /\
      match r with Ok _ => (length s' < length s)%nat /\ st' = mkCbor (cr_rows st + 1) (cr_len st) | _ => st' = st end.
  Proof.
    intros fuel obj st s F. unfold cbor_read_body. rewrite srun_bind, srun_rbind.
    destruct (loop_head (cr_len st) s) as (b & s1 & E & L). rewrite E. destruct b.
    { rewrite !srun_ret. exists (Err EOF), st, s1. split; [reflexivity|]. split; [discriminate|]. auto. }
    rewrite srun_rbind.
    assert (K : exists rk s2, srun (if obj then read_string_key else SRet (Ok [])) s1 = (rk, s2) /\ rk <> OutOfFuel /\ (length s2 <= length s1)%nat).
    { destruct obj; [|exists (Ok []), s1; split; [reflexivity|]; split; [discriminate|lia]].
      pose proof (total_key s1) as Q. destruct (srun read_string_key s1) as [rk s2] eqn:E2. exists rk, s2. split; [reflexivity|]. split; [exact Q|]. eapply srun_length; eauto. }
    destruct K as (rk & s2 & E2 & NK & L2). rewrite E2.
    destruct rk as [k|e| |]; [|rewrite srun_ret; exists (Err e), st, s2; split; [reflexivity|]; split; [discriminate|]; split; [lia|reflexivity]
      |rewrite srun_ret; exists Panic, st, s2; split; [reflexivity|]; split; [discriminate|]; split; [lia|reflexivity]|contradiction].
    rewrite srun_rbind. pose proof (proj1 (reader_total fuel) s2 ltac:(lia)) as Q.
    destruct (srun (read_value fuel) s2) as [[v|e| |] s3] eqn:E3; [|pose proof (srun_length _ _ _ _ _ E3)|pose proof (srun_length _ _ _ _ _ E3)|cbn in Q; contradiction].
    - apply read_value_consumes in E3. rewrite !srun_ret. do 3 eexists. split; [reflexivity|]. split; [discriminate|]. split; [lia|]. split; [lia|reflexivity].
    - rewrite srun_ret. do 3 eexists. split; [reflexivity|]. split; [discriminate|]. split; [lia|reflexivity].
    - rewrite srun_ret. do 3 eexists. split; [reflexivity|]. split; [discriminate|]. split; [lia|reflexivity].
  Qed.
  Lemma total_top : total (@read_top_level unit).
  Proof.
    apply total_rbind; [apply total_byte|]. intros b. cbv zeta. destruct (_ && _); [apply total_err|]. destruct (_ =? 31)%N; [apply total_ret|].
    apply total_rbind; [apply total_var|]. intros; apply total_ret.
  Qed.
  Lemma entry_spec : forall fuel obj st s, (2 * length s < fuel)%nat ->
    exists r st' s', srun (cbor_read_entry fuel obj st) s = ((r, st'), s') /\ r <> OutOfFuel /\ (length s' <= length s)%nat /\
      match r with Ok _ => (length s' < length s)%nat | _ => True end.
  Proof.
    intros fuel obj st s F. unfold cbor_read_entry. destruct (cr_rows st =? 0)%Z.
    - rewrite srun_bind. pose proof (total_top s) as Q. destruct (srun read_top_level s) as [[[t n]|e| |] s1] eqn:E; pose proof (srun_length _ _ _ _ _ E) as L.
      + destruct (Bool.eqb _ _).
        * destruct (body_spec fuel obj (mkCbor 0 n) s1 ltac:(lia)) as (r & st' & s' & E2 & N & L2 & K). rewrite E2. exists r, st', s'. split; [reflexivity|]. split; [exact N|]. split; [lia|].
          destruct r; auto. destruct K as [K _]. lia.
        * do 3 eexists. split; [reflexivity|]. split; [discriminate|]. split; [lia|exact I].
      + do 3 eexists. split; [reflexivity|]. split; [discriminate|]. split; [lia|exact I].
      + do 3 eexists. split; [reflexivity|]. split; [discriminate|]. split; [lia|exact I].
      + cbn in Q. contradiction.
    - destruct (body_spec fuel obj st s F) as (r & st' & s' & E2 & N & L2 & K). rewrite E2. exists r, st', s'. split; [reflexivity|]. split; [exact N|]. split; [lia|].
      destruct r; auto. now destruct K.
  Qed.
  Lemma loop_total : forall n fuel obj st s, (length s < n)%nat -> (2 * length s < fuel)%nat ->
    snd (fst (srun (cbor_read_loop n fuel obj st) s)) <> OutOfFuel /\
    (length (fst (fst (srun (cbor_read_loop n fuel obj st) s))) <= length s)%nat.
  Proof.
    induction n as [|n IH]; intros fuel obj st s N F; [lia|]. cbn [cbor_read_loop]. rewrite srun_bind.
    destruct (entry_spec fuel obj st s F) as (r & st' & s' & E & NR & L & K). rewrite E.
    destruct r as [e|e| |]; [|cbn; split; [discriminate|lia]|cbn; split; [discriminate|lia]|contradiction].
    rewrite srun_bind. destruct (IH fuel obj st' s' ltac:(lia) ltac:(lia)) as [I1 I2].
    destruct (srun (cbor_read_loop n fuel obj st') s') as [[es out] s2]. cbn in *. split; [assumption|lia].
  Qed.
End Run.

(** ** Truncation: the source ends with io.EOF *)
Section Trunc.
  Variable cap : nat.
  Hypothesis cap_4096 : cap = N.to_nat 4096.
  Let cap_big : (8 <= cap)%nat.
  Proof. rewrite cap_4096. lia. Qed.
  Notation srun := (srun cap EOF).

  Definition same {A} (p : sprog unit A) (q t : bytes) : Prop :=
    fst (srun p q) = fst (srun p (q ++ t)) /\ snd (srun p (q ++ t)) = snd (srun p q) ++ t.
  Definition cut_short {A} (p : sprog unit (res A)) (q : bytes) : Prop := fst (srun p q) = Err EOF \/ fst (srun p q) = OutOfFuel.
  Definition trunc {A} (p : sprog unit (res A)) : Prop := forall q t, cut_short p q \/ same p q t.

  Lemma trunc_ret : forall A (r : res A), trunc (SRet r).
  Proof. intros A r q t. right. split; reflexivity. Qed.
  Lemma trunc_rbind : forall A B (p : sprog unit (res A)) (f : A -> sprog unit (res B)), trunc p -> (forall a, trunc (f a)) -> trunc (rbind p f).
  Proof.
    intros A B p f P F q t. unfold cut_short, same. rewrite !srun_rbind. destruct (P q t) as [[C|C]|[C1 C2]].
    - left. left. destruct (srun p q) as [r s]. cbn in C. subst r. reflexivity.
    - left. right. destruct (srun p q) as [r s]. cbn in C. subst r. reflexivity.
    - destruct (srun p q) as [r s], (srun p (q ++ t)) as [r' s']. cbn in C1, C2. subst r' s'. destruct r as [a|e| |]; try (right; split; reflexivity). apply F.
  Qed.
  Lemma trunc_byte : trunc read_byte_p.
  Proof. intros [|c q] t; [left; left; reflexivity|right; split; reflexivity]. Qed.
  Lemma trunc_bytes : forall n, trunc (read_bytes n).
  Proof.
    intros n q t. unfold cut_short, same. rewrite !srun_read_bytes. destruct (n <? 0)%Z eqn:NN; [right; split; reflexivity|].
    destruct (Z.of_nat cap <? n)%Z; [right; split; reflexivity|].
    destruct (Z.ltb_spec (Z.of_nat (length q)) n); [left; left; reflexivity|].
    destruct (Z.ltb_spec (Z.of_nat (length (q ++ t))) n); [rewrite app_length in *; lia|]. right. apply Z.ltb_ge in NN. cbn [fst snd].
    rewrite firstn_app_le, skipn_app_le by lia. auto.
  Qed.
  Lemma trunc_if : forall A (c : bool) (p q : sprog unit (res A)), trunc p -> trunc q -> trunc (if c then p else q).
  Proof. intros A [|] p q P Q; assumption. Qed.
  Lemma trunc_var : forall b, trunc (get_var_len_int b).
  Proof.
    intros b. unfold get_var_len_int. cbv zeta.
    assert (I : forall n, trunc (read_int_bytes n)) by (intros n; apply trunc_rbind; [apply trunc_bytes|intros; apply trunc_ret]).
    repeat (apply trunc_if; auto using trunc_ret).
  Qed.
  Lemma trunc_prefixed : forall b, trunc (read_prefixed b).
  Proof. intros. apply trunc_rbind; [apply trunc_var|apply trunc_bytes]. Qed.
  Lemma trunc_key : trunc read_string_key.
  Proof.
    apply trunc_rbind; [apply trunc_byte|]. intros b. apply trunc_if; [apply trunc_ret|].
    apply trunc_rbind; [apply trunc_prefixed|intros; apply trunc_ret].
  Qed.
  (** Looking for a break at the end of the input: what follows fails there too. *)
  Lemma trunc_break : forall A n (f : bool -> sprog unit (res A)), trunc (f true) -> trunc (f false) -> cut_short (f false) [] ->
    trunc (rbind (if (n =? -1)%Z then read_break else SRet (Ok false)) f).
  Proof.
    intros A n f T1 T2 C q t. unfold cut_short, same. rewrite !srun_rbind. destruct (n =? -1)%Z; [|apply T2].
    rewrite !(srun_break cap EOF cap_big). destruct q as [|c q]; cbn [app].
    - left. exact C.
    - destruct (N.eqb c 255); [apply T1|apply (T2 (c :: q) t)].
  Qed.
  Lemma trunc_chunks : forall fuel acc, trunc (read_chunks fuel acc).
  Proof.
    induction fuel as [|fuel IH]; intros acc; [apply trunc_ret|]. cbn [read_chunks].
    apply (trunc_break _ (-1) (fun brk => if brk : bool then SRet (Ok acc)
        else rbind read_byte_p (fun b => rbind (read_prefixed b) (fun xd => read_chunks fuel (acc ++ snd xd))))).
    - apply trunc_ret.
    - apply trunc_rbind; [apply trunc_byte|]. intros b. apply trunc_rbind; [apply trunc_prefixed|]. intros xd. apply IH.
    - left. rewrite srun_rbind, srun_read_byte. reflexivity.
  Qed.
  Lemma value_at_end : forall fuel A (f : cval unit -> sprog unit (res A)), cut_short (rbind (read_value fuel) f) [].
  Proof. intros [|fuel] A f; unfold cut_short; rewrite srun_rbind; [right; reflexivity|]. left. rewrite read_value_eq, srun_rbind, srun_read_byte. reflexivity. Qed.
  Lemma key_at_end : forall A (f : bytes -> sprog unit (res A)), cut_short (rbind read_string_key f) [].
  Proof. intros. left. rewrite srun_rbind. unfold read_string_key. rewrite srun_rbind, srun_read_byte. reflexivity. Qed.
  Theorem trunc_values : forall fuel, trunc (read_value fuel) /\ (forall n acc, trunc (read_array fuel n acc)) /\ (forall n acc, trunc (read_map fuel n acc)).
  Proof.
    induction fuel as [|fuel (IV & IA & IM)]; [repeat split; intros; apply trunc_ret|]. split; [|split].
    - rewrite read_value_eq. apply trunc_rbind; [apply trunc_byte|]. intros b. unfold read_item. cbv zeta.
      assert (FL : forall n, trunc (@read_float_bytes unit n)) by (intros n; apply trunc_rbind; [apply trunc_bytes|intros; apply trunc_ret]).
      repeat (apply trunc_if; auto using trunc_ret); try (apply trunc_rbind; auto using trunc_ret, trunc_var, trunc_chunks, trunc_prefixed).
      + intros n. apply trunc_if; [apply trunc_ret|]. apply trunc_rbind; [apply IA|intros; apply trunc_ret].
      + intros n. apply trunc_rbind; [apply IM|intros; apply trunc_ret].
    - intros n acc. rewrite read_array_eq. apply trunc_if; [apply trunc_ret|].
      apply (trunc_break _ n (fun brk => if brk : bool then SRet (Ok acc)
        else rbind (read_value fuel) (fun v => read_array fuel (if (n >? 0)%Z then n - 1 else n)%Z (acc ++ [v])))).
      + apply trunc_ret.
      + apply trunc_rbind; [apply IV|intros; apply IA].
      + apply value_at_end.
    - intros n acc. rewrite read_map_eq. apply trunc_if; [apply trunc_ret|].
      apply (trunc_break _ n (fun brk => if brk : bool then SRet (Ok acc)
        else rbind read_string_key (fun k => rbind (read_value fuel) (fun v =>
          read_map fuel (if (n >? 0)%Z then n - 1 else n)%Z (map_set k v acc))))).
      + apply trunc_ret.
      + apply trunc_rbind; [apply trunc_key|]. intros k. apply trunc_rbind; [apply IV|intros; apply IM].
      + apply key_at_end.
  Qed.
  (** The same for ReadEntry, whose result carries the reader's state. *)
  Definition trunc_e (p : sprog unit (res (centry unit) * cbor_state)) : Prop := forall q t,
    (fst (fst (srun p q)) = Err EOF \/ fst (fst (srun p q)) = OutOfFuel) \/ same p q t.
  Lemma trunc_body : forall fuel obj st, trunc_e (cbor_read_body fuel obj st).
  Proof.
    intros fuel obj st q t. unfold cbor_read_body, same. rewrite !srun_bind.
    match goal with |- context [srun (rbind ?a ?f) q] => assert (T : trunc (rbind a f)) end.
    { apply (trunc_break _ (cr_len st) (fun brk => if brk : bool then SRet (Err EOF) else rbind (if obj then read_string_key else SRet (Ok []))
        (fun k => rbind (read_value fuel) (fun v => SRet (Ok (mkCentry (if obj then 0%Z else cr_rows st) k v)))))).
      - apply trunc_ret.
      - apply trunc_rbind; [apply trunc_if; [apply trunc_key|apply trunc_ret]|]. intros k. apply trunc_rbind; [apply trunc_values|intros; apply trunc_ret].
      - destruct obj; [apply key_at_end|]. unfold cut_short. rewrite srun_rbind, srun_ret. apply value_at_end. }
    specialize (T q t). unfold cut_short, same in T.
    destruct (srun (rbind _ _) q) as [r s], (srun (rbind _ _) (q ++ t)) as [r' s']. cbn in T. rewrite !srun_ret. cbn [fst snd].
    destruct T as [T|[<- ->]]; [left; exact T|right; auto].
  Qed.
  Lemma trunc_top : trunc (@read_top_level unit).
  Proof.
    apply trunc_rbind; [apply trunc_byte|]. intros b. cbv zeta. apply trunc_if; [apply trunc_ret|]. apply trunc_if; [apply trunc_ret|].
    apply trunc_rbind; [apply trunc_var|]. intros; apply trunc_ret.
  Qed.
  Lemma trunc_entry : forall fuel obj st, trunc_e (cbor_read_entry fuel obj st).
  Proof.
    intros fuel obj st q t. unfold cbor_read_entry. destruct (cr_rows st =? 0)%Z; [|apply trunc_body].
    unfold same. rewrite !srun_bind. pose proof (trunc_top q t) as T. unfold cut_short, same in T.
    destruct (srun read_top_level q) as [r s], (srun read_top_level (q ++ t)) as [r' s']. cbn in T.
    destruct T as [[-> | ->]|[<- ->]]; [left; left; reflexivity|left; right; reflexivity|].
    destruct r as [[y n]|e| |]; try (right; split; reflexivity). destruct (Bool.eqb _ _); [apply trunc_body|right; split; reflexivity].
  Qed.
  Lemma trunc_loop : forall n fuel obj st q t,
    let '(es, out) := fst (srun (cbor_read_loop n fuel obj st) q) in
    let '(es', out') := fst (srun (cbor_read_loop n fuel obj st) (q ++ t)) in
    (es = es' /\ out = out') \/ ((out = Err EOF \/ out = OutOfFuel) /\ exists more, es' = es ++ more).
  Proof.
    induction n as [|n IH]; intros fuel obj st q t; cbn [cbor_read_loop]; [left; auto|].
    rewrite !srun_bind. pose proof (trunc_entry fuel obj st q t) as T. unfold same in T.
    destruct (srun (cbor_read_entry fuel obj st) q) as [[r st1] s], (srun (cbor_read_entry fuel obj st) (q ++ t)) as [[r' st1'] s']. cbn in T.
    destruct T as [T|[T ->]].
    - assert (K : exists es' out', fst (srun match r' with
        | Ok e => sbind (cbor_read_loop n fuel obj st1') (fun '(es, out) => SRet (e :: es, out))
        | Err e => SRet ([], Err e) | Panic => SRet ([], Panic) | OutOfFuel => SRet ([], OutOfFuel) end s') = (es', out')).
      { destruct (fst _) as [es' out']. eauto. }
      destruct K as (es' & out' & K). rewrite K. destruct T as [-> | ->]; cbn; right; split; auto; exists es'; reflexivity.
    - injection T as <- <-. destruct r as [e|e| |]; try (left; split; reflexivity).
      rewrite !srun_bind. specialize (IH fuel obj st1 s t).
      destruct (srun (cbor_read_loop n fuel obj st1) s) as [[es out] s2], (srun (cbor_read_loop n fuel obj st1) (s ++ t)) as [[es' out'] s2']. cbn in IH |- *.
      destruct IH as [[-> ->]|[O [m ->]]]; [left; auto|right; split; [exact O|]; exists m; reflexivity].
  Qed.
End Trunc.
