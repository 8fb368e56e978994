(** Reading back what the CBOR writer wrote. *)
From Verif Require Import Base M_Bufio L_Bufio M_Decimal M_Cbor S_Cbor L_Cbor L_CborDoc.

(** ** Heads *)
Lemma be_bytes_length : forall k n, length (be_bytes k n) = k.
Proof. induction k as [|k IH]; intros n; cbn; [reflexivity|]. rewrite app_length, IH. cbn. lia. Qed.
Lemma be_bytes_byte : forall k n, Forall (fun c => (c < 256)%N) (be_bytes k n).
Proof.
  induction k as [|k IH]; intros n; cbn; [constructor|]. apply Forall_app. split; [apply IH|]. constructor; [|constructor]. apply N.mod_lt. lia.
Qed.
Lemma value256_snoc : forall d c, value256 (d ++ [c]) = (value256 d * 256 + c)%N.
Proof.
  induction d as [|x d IH]; intros c; cbn [app value256 length]; [cbn; lia|]. rewrite IH, app_length. cbn [length].
  replace (N.of_nat (length d + 1)) with (N.succ (N.of_nat (length d))) by lia. rewrite N.pow_succ_r'. lia.
Qed.
Lemma value256_be : forall k n, (n < 256 ^ N.of_nat k)%N -> value256 (be_bytes k n) = n.
Proof.
  induction k as [|k IH]; intros n H; [cbn in *; lia|]. cbn [be_bytes]. rewrite value256_snoc.
  replace (N.of_nat (S k)) with (N.succ (N.of_nat k)) in H by lia. rewrite N.pow_succ_r' in H.
  rewrite IH by (apply N.div_lt_upper_bound; lia). pose proof (N.div_mod' n 256). lia.
Qed.
Lemma be_bytes_list : forall k n, byte_list k (be_bytes k n).
Proof. intros. split; [apply be_bytes_length|apply be_bytes_byte]. Qed.
Lemma cbor_head_head : forall major n, (n < 2 ^ 64)%N -> head major n (cbor_head major n).
Proof.
  intros major n H. unfold cbor_head.
  destruct (N.ltb_spec n 24); [now constructor|]. destruct (N.ltb_spec n (2 ^ 8)); [apply head_1; [apply be_bytes_list|now apply value256_be]|].
  destruct (N.ltb_spec n (2 ^ 16)); [apply head_2; [apply be_bytes_list|now apply value256_be]|].
  destruct (N.ltb_spec n (2 ^ 32)); [apply head_4; [apply be_bytes_list|now apply value256_be]|].
  apply head_8; [apply be_bytes_list|now apply value256_be].
Qed.

Lemma wrap_int64_small : forall n, (n < 2 ^ 63)%N -> wrap_int64 n = Z.of_N n.
Proof. intros n H. unfold wrap_int64. destruct (N.ltb_spec n (2 ^ 63)); [reflexivity|lia]. Qed.

(** ** Maps *)
Lemma map_set_last : forall V (acc : list (bytes * V)) k v r, sorted (acc ++ (k, v) :: r) -> map_set k v acc = acc ++ [(k, v)].
Proof.
  intros V acc k v r. induction acc as [|[k1 v1] acc IH]; intros H; cbn in *; [reflexivity|].
  destruct H as [A S]. assert (L : bcmp k1 k = Lt).
  { clear -A. induction acc as [|[k2 v2] acc IH]; cbn in A; [apply A|]. apply IH, A. }
  rewrite bcmp_antisym, L. cbn. now rewrite IH.
Qed.
Lemma map_of_sorted : forall V (ps : list (bytes * V)), sorted ps -> map_of ps = ps.
Proof.
  intros V ps. unfold map_of. enough (G : forall acc, sorted (acc ++ ps) -> fold_left (fun a kv => map_set (fst kv) (snd kv) a) ps acc = acc ++ ps).
  { intros S. now rewrite (G [] S). }
  induction ps as [|[k v] ps IH]; intros acc S; cbn; [now rewrite app_nil_r|].
  rewrite (map_set_last V acc k v ps) by assumption. rewrite IH; rewrite <- app_assoc; cbn; [reflexivity|assumption].
Qed.

(** ** Well-formed values *)
Lemma wf_arr : forall l, wf_value (VArr l) <-> (N.of_nat (length l) < 2 ^ 44)%N /\ Forall wf_value l.
Proof.
  intros l. cbn [wf_value]. apply and_iff_compat_l. induction l as [|x l IH]; split; intros H; auto.
  - constructor; [apply H|]. apply IH, H.
  - inversion H; subst. split; [assumption|]. now apply IH.
Qed.
Definition wf_pair (kv : bytes * gval N) : Prop := (N.of_nat (length (fst kv)) < 2 ^ 44)%N /\ wf_value (snd kv).
Lemma wf_map : forall m, wf_value (VMap m) <-> (N.of_nat (length m) < 2 ^ 44)%N /\ sorted m /\ Forall wf_pair m.
Proof.
  intros m. cbn [wf_value]. apply and_iff_compat_l, and_iff_compat_l. induction m as [|x m IH]; split; intros H; auto.
  - constructor; [apply H|]. apply IH, H.
  - inversion H; subst. split; [assumption|]. now apply IH.
Qed.

Lemma short_le : forall s, short s = true -> (length s <= N.to_nat 4096)%nat.
Proof. intros s H. apply N.leb_le in H. lia. Qed.
Lemma short_gt : forall s, short s = false -> (4096 < Z.of_nat (length s))%Z.
Proof. intros s H. apply N.leb_gt in H. lia. Qed.

Definition pair_bytes (kv : bytes * gval N) : bytes := cbor_head 3 (N.of_nat (length (fst kv))) ++ fst kv ++ cbor_encode (snd kv).
Lemma encode_arr : forall l, cbor_encode (VArr l) = cbor_head 4 (N.of_nat (length l)) ++ flat_map cbor_encode l.
Proof. reflexivity. Qed.
Lemma encode_map : forall m, cbor_encode (VMap m) = cbor_head 5 (N.of_nat (length m)) ++ flat_map pair_bytes m.
Proof. reflexivity. Qed.

Lemma encode_list_cenc : forall l, Forall (fun v => cenc v (cbor_encode v)) l -> cenc_list l (flat_map cbor_encode l).
Proof. induction 1; cbn; now constructor. Qed.
Lemma encode_pairs_cenc : forall m, Forall (fun kv => wf_pair kv /\ short (fst kv) = true /\ cenc (snd kv) (cbor_encode (snd kv))) m -> cenc_pairs m (flat_map pair_bytes m).
Proof.
  induction 1 as [|[k v] m (W & S & C) H IH]; cbn [flat_map]; [constructor|]. unfold pair_bytes at 1. cbn [fst snd] in *. rewrite <- !app_assoc.
  apply cenc_pairs_cons; auto using short_le. apply cbor_head_head. destruct W as [W _]. cbn in W. lia.
Qed.
Lemma encode_cenc : forall v, wf_value v -> readable v = true -> cenc v (cbor_encode v).
Proof.
  induction v as [|b|z|f|s|s|l IH|m IH] using gval_ind2; intros W R.
  - constructor.
  - destruct b; constructor.
  - cbn [wf_value readable cbor_encode] in *. apply Z.leb_le in R. destruct (Z.ltb_spec z 0).
    + unfold cbor_head. destruct (N.ltb_spec (Z.to_N (-1 - z)) 24); [|lia].
      replace z with (-1 - Z.of_N (Z.to_N (-1 - z)))%Z at 1 by lia. apply (cenc_nint (Z.to_N (-1 - z))). assumption.
    + replace z with (Z.of_N (Z.to_N z)) at 1 by lia. apply cenc_uint; [apply cbor_head_head|]; lia.
  - cbn [wf_value cbor_encode] in *. rewrite <- (value256_be 8 f) at 1 by exact W. apply cenc_float, be_bytes_list.
  - cbn [wf_value readable cbor_encode] in *. apply cenc_str; [apply cbor_head_head; lia|now apply short_le].
  - cbn [wf_value readable cbor_encode] in *. apply cenc_bytes; [apply cbor_head_head; lia|now apply short_le].
  - apply wf_arr in W as [L W]. cbn [readable] in R. rewrite forallb_forall in R. rewrite encode_arr. apply cenc_arr; [apply cbor_head_head; lia|lia|].
    apply encode_list_cenc. rewrite Forall_forall in *. intros x I. apply IH; auto.
  - apply wf_map in W as (L & S & W). cbn [readable] in R. rewrite forallb_forall in R. rewrite encode_map. rewrite <- (map_of_sorted _ m S) at 1.
    apply cenc_map; [apply cbor_head_head; lia|lia|]. apply encode_pairs_cenc. rewrite Forall_forall in *. intros x I.
    specialize (R x I). apply andb_true_iff in R as [R1 R2]. split; [auto|]. split; [assumption|]. apply IH; auto. apply (W x I).
Qed.

Section Run.
  Variables (cap : nat) (fin : err).
  Hypothesis cap_4096 : cap = N.to_nat 4096.
  Let cap_big : (8 <= cap)%nat.
  Proof. rewrite cap_4096. lia. Qed.
  Notation srun := (srun cap fin).

  Definition fails {A} (p : sprog unit (res A)) (s : bytes) : Prop := exists e, fst (srun p s) = Err e /\ is_eof_text e <> true.
  Lemma fails_rbind : forall A B (p : sprog unit (res A)) (f : A -> sprog unit (res B)) s, fails p s -> fails (rbind p f) s.
  Proof. intros A B p f s (e & E & N). unfold fails. rewrite srun_rbind. destruct (srun p s) as [r s']. cbn in E. subst r. exists e. auto. Qed.
  Lemma fails_rbind_ok : forall A B (p : sprog unit (res A)) (f : A -> sprog unit (res B)) s a s', srun p s = (Ok a, s') -> fails (f a) s' -> fails (rbind p f) s.
  Proof. intros A B p f s a s' E F. unfold fails. rewrite srun_rbind, E. exact F. Qed.
  Lemma long_prefixed : forall major s h b t rest, head major (N.of_nat (length s)) h -> (N.of_nat (length s) < 2 ^ 44)%N -> short s = false -> h = b :: t ->
    fails (read_prefixed b) (t ++ rest).
  Proof.
    intros major s h b t rest H W S E. destruct (head_cons cap fin cap_big _ _ _ H) as (b' & t' & E' & _ & _ & G). rewrite E in E'. injection E' as <- <-.
    unfold read_prefixed. eapply fails_rbind_ok; [apply G|]. rewrite wrap_int64_small by lia. rewrite nat_N_Z. unfold fails. rewrite srun_read_bytes.
    apply short_gt in S. destruct (Z.ltb_spec (Z.of_nat (length s)) 0); [lia|]. destruct (Z.ltb_spec (Z.of_nat cap) (Z.of_nat (length s))); [|lia].
    eexists. split; [reflexivity|discriminate].
  Qed.
  Lemma cbor_head_first : forall major n, (n < 2 ^ 64)%N -> exists b t a, cbor_head major n = b :: t /\ (b / 32 = major)%N /\ (a < 28)%N /\ (b = major * 32 + a)%N.
  Proof.
    intros major n H. destruct (head_cons cap fin cap_big _ _ _ (cbor_head_head major n H)) as (b & t & E & D & (a & A & Q) & _). exists b, t, a. auto.
  Qed.
  Lemma encode_first : forall v, wf_value v -> exists b t, cbor_encode v = b :: t /\ b <> 255%N.
  Proof.
    assert (HH : forall major n r, (major < 7)%N -> (n < 2 ^ 64)%N -> exists b t, cbor_head major n ++ r = b :: t /\ b <> 255%N).
    { intros major n r M L. destruct (cbor_head_first major n L) as (b & t & a & E & D & A & Q). rewrite E. exists b, (t ++ r). split; [reflexivity|]. lia. }
    intros [|b|z|f|s|s|l|m] W.
    - exists 246%N, []. split; [reflexivity|discriminate].
    - exists (if b then 245 else 244)%N, []. split; [reflexivity|]. destruct b; discriminate.
    - cbn [cbor_encode wf_value] in *. destruct (z <? 0)%Z eqn:Z0; [destruct (HH 1%N (Z.to_N (-1 - z)) [] ltac:(lia) ltac:(lia)) as (b & t & E & N)
        |destruct (HH 0%N (Z.to_N z) [] ltac:(lia) ltac:(lia)) as (b & t & E & N)]; rewrite app_nil_r in E; eauto.
    - exists 251%N, (be_bytes 8 f). split; [reflexivity|discriminate].
    - cbn [wf_value] in W. apply (HH 3%N (N.of_nat (length s))); lia.
    - cbn [wf_value] in W. apply (HH 2%N (N.of_nat (length s))); lia.
    - apply wf_arr in W as [L W]. rewrite encode_arr. apply HH; lia.
    - apply wf_map in W as [L W]. rewrite encode_map. apply HH; lia.
  Qed.

  (** A value that is not [readable] makes the read fail with an error other than io.EOF, unless fuel runs short. *)
  Lemma array_fails : forall l, Forall (fun v => wf_value v) l ->
    Forall (fun v => readable v = false -> forall fuel rest, (2 * length (cbor_encode v) < fuel)%nat -> fails (read_value fuel) (cbor_encode v ++ rest)) l ->
    forallb readable l = false -> forall fuel acc rest, (2 * length (flat_map cbor_encode l) + 1 < fuel)%nat ->
    fails (read_array fuel (Z.of_nat (length l)) acc) (flat_map cbor_encode l ++ rest).
  Proof.
    induction l as [|v l IH]; intros W H R fuel acc rest F; [discriminate|]. inversion W; subst. inversion H; subst. cbn [flat_map] in *. rewrite app_length in F.
    destruct fuel as [|fuel]; [lia|]. rewrite read_array_eq. rewrite (proj2 (Z.eqb_neq _ _)) by (cbn; lia). rewrite (proj2 (Z.eqb_neq _ _)) by (cbn; lia).
    eapply fails_rbind_ok; [reflexivity|]. cbv iota. rewrite <- app_assoc. cbn [forallb] in R. destruct (readable v) eqn:RV.
    - destruct (proj1 (read_cenc cap fin cap_big cap_4096) v (cbor_encode v) (encode_cenc v H2 RV) fuel (flat_map cbor_encode l ++ rest)) as (v' & E & _); [lia|].
      eapply fails_rbind_ok; [exact E|]. replace (if (Z.of_nat (length (v :: l)) >? 0)%Z then Z.of_nat (length (v :: l)) - 1 else Z.of_nat (length (v :: l)))%Z with (Z.of_nat (length l)).
      + destruct (encode_first v H2) as (b & t & Ev & _). rewrite Ev in F. cbn [length] in F. apply IH; auto. lia.
      + destruct (Z.gtb_spec (Z.of_nat (length (v :: l))) 0); cbn [length] in *; lia.
    - apply fails_rbind. apply H4; auto. lia.
  Qed.
  Lemma key_fails : forall k rest, (N.of_nat (length k) < 2 ^ 44)%N -> short k = false -> fails read_string_key (cbor_head 3 (N.of_nat (length k)) ++ rest).
  Proof.
    intros k rest W S. pose proof (cbor_head_head 3 (N.of_nat (length k)) ltac:(lia)) as H. destruct (cbor_head_first 3 (N.of_nat (length k)) ltac:(lia)) as (b & t & a & E & D & A & Q).
    rewrite E in *. cbn [app]. unfold read_string_key. eapply fails_rbind_ok; [reflexivity|]. cbv beta. rewrite D. cbn [N.eqb Pos.eqb negb].
    apply fails_rbind. eapply long_prefixed; eauto.
  Qed.
  Lemma map_fails : forall m, Forall wf_pair m ->
    Forall (fun kv => readable (snd kv) = false -> forall fuel rest, (2 * length (cbor_encode (snd kv)) < fuel)%nat -> fails (read_value fuel) (cbor_encode (snd kv) ++ rest)) m ->
    forallb (fun kv => short (fst kv) && readable (snd kv)) m = false -> forall fuel acc rest, (2 * length (flat_map pair_bytes m) + 1 < fuel)%nat ->
    fails (read_map fuel (Z.of_nat (length m)) acc) (flat_map pair_bytes m ++ rest).
  Proof.
    induction m as [|[k v] m IH]; intros W H R fuel acc rest F; [discriminate|]. inversion W as [|? ? [WK WV] W']; subst. inversion H as [|? ? HV H']; subst. cbn [fst snd] in *. cbn [flat_map] in *.
    unfold pair_bytes at 1 in F. cbn [fst snd] in F. rewrite !app_length in F.
    destruct fuel as [|fuel]; [lia|]. rewrite read_map_eq. rewrite (proj2 (Z.eqb_neq _ _)) by (cbn; lia). rewrite (proj2 (Z.eqb_neq _ _)) by (cbn; lia).
    eapply fails_rbind_ok; [reflexivity|]. cbv iota. unfold pair_bytes at 1. cbn [fst snd]. rewrite <- !app_assoc. cbn [forallb fst snd] in R.
    destruct (short k) eqn:SK; [|apply fails_rbind, key_fails; assumption].
    eapply fails_rbind_ok; [apply string_key_ok; [exact cap_big|exact cap_4096|apply cbor_head_head; lia|now apply short_le]|]. cbn [andb] in R.
    destruct (encode_first v WV) as (b & t & Ev & _). destruct (readable v) eqn:RV.
    - destruct (proj1 (read_cenc cap fin cap_big cap_4096) v (cbor_encode v) (encode_cenc v WV RV) fuel (flat_map pair_bytes m ++ rest)) as (v' & E & _); [lia|].
      eapply fails_rbind_ok; [exact E|]. replace (if (Z.of_nat (length ((k, v) :: m)) >? 0)%Z then Z.of_nat (length ((k, v) :: m)) - 1 else Z.of_nat (length ((k, v) :: m)))%Z with (Z.of_nat (length m)).
      + rewrite Ev in F. cbn [length] in F. apply IH; auto. lia.
      + destruct (Z.gtb_spec (Z.of_nat (length ((k, v) :: m))) 0); cbn [length] in *; lia.
    - apply fails_rbind. apply HV; auto. lia.
  Qed.
  Theorem unreadable_fails : forall v, wf_value v -> readable v = false -> forall fuel rest, (2 * length (cbor_encode v) < fuel)%nat ->
    fails (read_value fuel) (cbor_encode v ++ rest).
  Proof.
    induction v as [|b|z|f|s|s|l IH|m IH] using gval_ind2; intros W R [|fuel] rest F; try discriminate R; try lia.
    - cbn [readable cbor_encode wf_value] in *. apply Z.leb_gt in R. destruct (Z.ltb_spec z 0); [|lia].
      destruct (cbor_head_first 1 (Z.to_N (-1 - z)) ltac:(lia)) as (b & t & a & E & D & A & Q).
      assert (24 <= a)%N.
      { revert E. unfold cbor_head. destruct (N.ltb_spec (Z.to_N (-1 - z)) 24); [lia|].
        repeat match goal with |- context [if ?c then _ else _] => destruct c end; intros [= <- _]; lia. }
      rewrite E. cbn [app]. unfold fails. rewrite rv_head by lia. cbv zeta. rewrite D. cbn [N.eqb Pos.eqb]. eexists. split; [reflexivity|discriminate].
    - cbn [readable cbor_encode wf_value] in *. pose proof (cbor_head_head 3 (N.of_nat (length s)) ltac:(lia)) as H.
      destruct (cbor_head_first 3 (N.of_nat (length s)) ltac:(lia)) as (b & t & a & E & D & A & Q). rewrite E in *. cbn [app]. unfold fails.
      rewrite rv_head by lia. cbv zeta. rewrite D. cbn [N.eqb Pos.eqb]. rewrite <- app_assoc. apply fails_rbind. eapply long_prefixed; eauto.
    - cbn [readable cbor_encode wf_value] in *. pose proof (cbor_head_head 2 (N.of_nat (length s)) ltac:(lia)) as H.
      destruct (cbor_head_first 2 (N.of_nat (length s)) ltac:(lia)) as (b & t & a & E & D & A & Q). rewrite E in *. cbn [app]. unfold fails.
      rewrite rv_head by lia. cbv zeta. rewrite D. cbn [N.eqb Pos.eqb]. rewrite <- app_assoc. apply fails_rbind. eapply long_prefixed; eauto.
    - apply wf_arr in W as [L W]. rewrite encode_arr in *. destruct (head_cons cap fin cap_big _ _ _ (cbor_head_head 4 (N.of_nat (length l)) ltac:(lia))) as (b & t & E & D & (a & A & Q) & G).
      rewrite E in *. cbn [app length] in *. rewrite app_length in F. unfold fails. rewrite rv_head by lia. cbv zeta. rewrite D. cbn [N.eqb Pos.eqb]. rewrite <- app_assoc.
      eapply fails_rbind_ok; [apply G|]. rewrite wrap_int64_small by lia. unfold max_slice_cap. destruct (Z.gtb_spec (Z.of_N (N.of_nat (length l))) (2 ^ 44)); [lia|].
      apply fails_rbind. rewrite nat_N_Z. apply array_fails; auto; [|lia]. rewrite Forall_forall in *. intros x I RX. apply IH; auto.
    - apply wf_map in W as (L & S & W). rewrite encode_map in *. destruct (head_cons cap fin cap_big _ _ _ (cbor_head_head 5 (N.of_nat (length m)) ltac:(lia))) as (b & t & E & D & (a & A & Q) & G).
      rewrite E in *. cbn [app length] in *. rewrite app_length in F. unfold fails. rewrite rv_head by lia. cbv zeta. rewrite D. cbn [N.eqb Pos.eqb]. rewrite <- app_assoc.
      eapply fails_rbind_ok; [apply G|]. rewrite wrap_int64_small by lia.
      apply fails_rbind. rewrite nat_N_Z. apply map_fails; auto; [|lia]. rewrite Forall_forall in *. intros x I RX. apply IH; auto. apply (W x I).
  Qed.
End Run.
