(** Lemmas on the CBOR reader, over plain byte lists. *)
From Verif Require Import Base M_Bufio L_Bufio M_Decimal M_Cbor S_Cbor.

Lemma read_value_eq : forall X f, @read_value X (S f) =
  rbind read_byte_p (read_item (read_chunks f []) (fun n => read_array f n []) (fun n => read_map f n [])).
Proof. reflexivity. Qed.
Lemma read_array_eq : forall X f n acc, @read_array X (S f) n acc =
  if (n =? 0)%Z then SRet (Ok acc)
  else rbind (if (n =? -1)%Z then read_break else SRet (Ok false)) (fun brk =>
    if brk : bool then SRet (Ok acc)
    else rbind (read_value f) (fun v => read_array f (if (n >? 0)%Z then n - 1 else n)%Z (acc ++ [v]))).
Proof. reflexivity. Qed.
Lemma read_map_eq : forall X f n acc, @read_map X (S f) n acc =
  if (n =? 0)%Z then SRet (Ok acc)
  else rbind (if (n =? -1)%Z then read_break else SRet (Ok false)) (fun brk =>
    if brk : bool then SRet (Ok acc)
    else rbind read_string_key (fun k => rbind (read_value f) (fun v =>
      read_map f (if (n >? 0)%Z then n - 1 else n)%Z (map_set k v acc)))).
Proof. reflexivity. Qed.

Section Run.
  Variables (cap : nat) (fin : err).
  Hypothesis cap_big : (8 <= cap)%nat.
  Definition srun {A} (p : sprog unit A) (s : bytes) : A * bytes := run_list cap fin (plain tt p) s.

  Lemma plain_bind : forall A B (p : sprog unit A) (f : A -> sprog unit B) s,
    run_list cap fin (plain tt (sbind p f)) s = let '(a, s') := run_list cap fin (plain tt p) s in run_list cap fin (plain tt (f a)) s'.
  Proof.
    intros A B p f. induction p as [a|k IH|n k IH|n k IH]; intros s; cbn [sbind plain run_list].
    - reflexivity.
    - destruct s; apply IH.
    - destruct (n <? 0)%Z; [apply IH|]. destruct (Z.of_nat cap <? n)%Z; [apply IH|]. destruct (Z.of_nat (length s) <? n)%Z; apply IH.
    - apply IH.
  Qed.
  Lemma srun_bind : forall A B (p : sprog unit A) (f : A -> sprog unit B) s,
    srun (sbind p f) s = let '(a, s') := srun p s in srun (f a) s'.
  Proof. intros. apply plain_bind. Qed.
  Lemma srun_rbind : forall A B (p : sprog unit (res A)) (f : A -> sprog unit (res B)) s,
    srun (rbind p f) s = match srun p s with
      | (Ok a, s') => srun (f a) s'
      | (Err e, s') => (Err e, s')
      | (Panic, s') => (Panic, s')
      | (OutOfFuel, s') => (OutOfFuel, s') end.
  Proof. intros. unfold rbind. rewrite srun_bind. destruct (srun p s) as [[a|e| |] s']; reflexivity. Qed.
  Lemma srun_ret : forall A (a : A) s, srun (SRet a) s = (a, s).
  Proof. reflexivity. Qed.
  Lemma srun_read_byte : forall s, srun read_byte_p s = match s with [] => (Err fin, []) | c :: t => (Ok c, t) end.
  Proof. intros [|c t]; reflexivity. Qed.
  Lemma srun_read_bytes : forall n s, srun (read_bytes n) s =
    if (n <? 0)%Z then (Err err_negative_count, s)
    else if (Z.of_nat cap <? n)%Z then (Err err_buffer_full, s)
    else if (Z.of_nat (length s) <? n)%Z then (Err fin, s)
    else (Ok (tt, firstn (Z.to_nat n) s), skipn (Z.to_nat n) s).
  Proof.
    intros n s. unfold srun, read_bytes. cbn [plain run_list].
    destruct (n <? 0)%Z; [reflexivity|]. destruct (Z.of_nat cap <? n)%Z; [reflexivity|]. destruct (Z.of_nat (length s) <? n)%Z; reflexivity.
  Qed.
  Lemma srun_break : forall s, srun read_break s = match s with [] => (Ok false, []) | c :: t => if N.eqb c 255 then (Ok true, t) else (Ok false, s) end.
  Proof.
    intros s. unfold srun, read_break. cbn [plain run_list]. change (1 <? 0)%Z with false. cbv iota.
    destruct (Z.ltb_spec (Z.of_nat cap) 1); [lia|]. destruct s as [|c t]; [reflexivity|].
    destruct (Z.ltb_spec (Z.of_nat (length (c :: t))) 1); [cbn [length] in *; lia|].
    change (Z.to_nat 1) with 1%nat. cbn [firstn]. destruct (N.eqb c 255); reflexivity.
  Qed.

  (** ** Reading valid encodings *)
  Lemma be_value_256 : forall d, be_value d = value256 d.
  Proof.
    assert (G : forall d a, fold_left (fun a c => a * 256 + c)%N d a = (a * 256 ^ N.of_nat (length d) + value256 d)%N).
    { induction d as [|c d IH]; intros a; cbn [fold_left value256 length].
      - change (256 ^ N.of_nat 0)%N with 1%N. lia.
      - rewrite IH. replace (N.of_nat (S (length d))) with (N.succ (N.of_nat (length d))) by lia. rewrite N.pow_succ_r'. lia. }
    intros d. unfold be_value. rewrite G. lia.
  Qed.
  Lemma read_bytes_ok : forall d rest, (length d <= cap)%nat ->
    srun (read_bytes (Z.of_nat (length d))) (d ++ rest) = (Ok (tt, d), rest).
  Proof.
    intros d rest H. rewrite srun_read_bytes.
    destruct (Z.ltb_spec (Z.of_nat (length d)) 0); [lia|]. destruct (Z.ltb_spec (Z.of_nat cap) (Z.of_nat (length d))); [lia|].
    destruct (Z.ltb_spec (Z.of_nat (length (d ++ rest))) (Z.of_nat (length d))); [rewrite app_length in *; lia|].
    rewrite Nat2Z.id, firstn_app_le, skipn_app_le by lia. now rewrite firstn_all, skipn_all.
  Qed.
  Lemma read_int_bytes_ok : forall k d rest, (k <= 8)%nat -> length d = k ->
    srun (read_int_bytes (Z.of_nat k)) (d ++ rest) = (Ok (wrap_int64 (value256 d)), rest).
  Proof.
    intros k d rest Hk <-. unfold read_int_bytes. rewrite srun_rbind, read_bytes_ok by lia. rewrite srun_ret. cbn [snd]. now rewrite be_value_256.
  Qed.
  Lemma div_mod_major : forall m a, (a < 32 -> (m * 32 + a) / 32 = m /\ (m * 32 + a) mod 32 = a)%N.
  Proof.
    intros m a H. split.
    - symmetry. apply (N.div_unique _ _ _ a); lia.
    - symmetry. apply (N.mod_unique _ _ m); lia.
  Qed.
  (** The head of an item: first byte and the rest. *)
  Lemma head_cons : forall major n h, head major n h -> exists b t, h = b :: t /\ (b / 32 = major)%N /\ (exists a, a < 28 /\ b = major * 32 + a)%N /\
    forall rest, srun (get_var_len_int b) (t ++ rest) = (Ok (wrap_int64 n), rest).
  Proof.
    intros major n h H.
    assert (W : forall k d code, byte_list k d -> (k <= 8)%nat -> value256 d = n -> (24 <= code < 28)%N ->
      (forall b rest, (b mod 32 = code)%N -> srun (get_var_len_int b) (d ++ rest) = srun (read_int_bytes (Z.of_nat k)) (d ++ rest)) ->
      exists b t, (major * 32 + code :: d)%N = b :: t /\ (b / 32 = major)%N /\ (exists a, a < 28 /\ b = major * 32 + a)%N /\
        forall rest, srun (get_var_len_int b) (t ++ rest) = (Ok (wrap_int64 n), rest)).
    { intros k d code [Hl _] Hk V C E. destruct (div_mod_major major code ltac:(lia)) as [D M].
      exists (major * 32 + code)%N, d. split; [reflexivity|]. split; [exact D|]. split; [exists code; split; [lia|reflexivity]|].
      intros rest. rewrite E by exact M. rewrite read_int_bytes_ok by assumption. now rewrite V. }
    destruct H as [H|d H V|d H V|d H V|d H V].
    - destruct (div_mod_major major n ltac:(lia)) as [D M]. exists (major * 32 + n)%N, []. split; [reflexivity|]. split; [exact D|]. split; [exists n; split; [lia|reflexivity]|].
      intros rest. unfold get_var_len_int. rewrite M. destruct (N.ltb_spec n 24); [|lia]. rewrite srun_ret. cbn [app]. do 2 f_equal.
      unfold wrap_int64. destruct (N.ltb_spec n (2 ^ 63)); [reflexivity|]. lia.
    - apply (W 1%nat d 24%N); auto; try lia. intros b rest M. unfold get_var_len_int. rewrite M. reflexivity.
    - apply (W 2%nat d 25%N); auto; try lia. intros b rest M. unfold get_var_len_int. rewrite M. reflexivity.
    - apply (W 4%nat d 26%N); auto; try lia. intros b rest M. unfold get_var_len_int. rewrite M. reflexivity.
    - apply (W 8%nat d 27%N); auto; try lia. intros b rest M. unfold get_var_len_int. rewrite M. reflexivity.
  Qed.
  Lemma wrap_small : forall n, (n < 2 ^ 63)%N -> wrap_int64 n = Z.of_N n.
  Proof. intros n H. unfold wrap_int64. destruct (N.ltb_spec n (2 ^ 63)); [reflexivity|lia]. Qed.

  Hypothesis cap_4096 : cap = N.to_nat 4096.
  Lemma prefixed_ok : forall major s h, head major (N.of_nat (length s)) h -> (length s <= N.to_nat 4096)%nat ->
    exists b t, h = b :: t /\ (b / 32 = major)%N /\ (exists a, a < 28 /\ b = major * 32 + a)%N /\ forall rest, srun (read_prefixed b) (t ++ s ++ rest) = (Ok (tt, s), rest).
  Proof.
    intros major s h H L. destruct (head_cons _ _ _ H) as (b & t & -> & D & (a0 & M & Q) & E). exists b, t. split; [reflexivity|]. split; [assumption|]. split; [eauto|].
    intros rest. unfold read_prefixed. rewrite srun_rbind, E, wrap_small by lia. rewrite nat_N_Z. apply read_bytes_ok. lia.
  Qed.
  Lemma string_key_ok : forall k h rest, head 3 (N.of_nat (length k)) h -> (length k <= N.to_nat 4096)%nat ->
    srun read_string_key (h ++ k ++ rest) = (Ok k, rest).
  Proof.
    intros k h rest H L. destruct (prefixed_ok 3 k h H L) as (b & t & -> & D & _ & E). unfold read_string_key.
    rewrite srun_rbind, srun_read_byte. cbn [app]. rewrite D. cbn [N.eqb Pos.eqb negb]. now rewrite srun_rbind, E.
  Qed.
  Lemma read_chunks_ok : forall major s b, chunks major s b -> (major = 2 \/ major = 3)%N -> forall fuel acc rest, (length b < fuel)%nat ->
    srun (read_chunks fuel acc) (b ++ 255%N :: rest) = (Ok (acc ++ s), rest).
  Proof.
    intros major s b H Hm. induction H as [|h s t b H L C IH]; intros fuel acc rest F; (destruct fuel as [|fuel]; [lia|]); cbn [read_chunks].
    - rewrite srun_rbind, srun_break. cbn [app]. rewrite N.eqb_refl. now rewrite srun_ret, app_nil_r.
    - destruct (prefixed_ok _ _ _ H L) as (b0 & t0 & -> & D & _ & E). rewrite srun_rbind, srun_break. cbn [app].
      destruct (N.eqb_spec b0 255) as [->|_]; [cbn in D; lia|]. rewrite srun_rbind, srun_read_byte, srun_rbind.
      rewrite <- !app_assoc. rewrite E. cbn [snd]. rewrite IH; [now rewrite <- app_assoc|]. rewrite !app_length in F. cbn [length] in F. lia.
  Qed.

  Scheme cenc_mind := Minimality for cenc Sort Prop
    with cenc_list_mind := Minimality for cenc_list Sort Prop
    with cenc_pairs_mind := Minimality for cenc_pairs Sort Prop.
  Combined Scheme cenc_mutind from cenc_mind, cenc_list_mind, cenc_pairs_mind.

  (** No value starts with the break byte. *)
  Lemma head_first : forall major n h, (major < 7)%N -> head major n h -> exists b t, h = b :: t /\ b <> 255%N.
  Proof.
    intros major n h Hm H. destruct (head_cons _ _ _ H) as (b & t & -> & D & _). exists b, t. split; [reflexivity|].
    intros ->. cbn in D. lia.
  Qed.
  Lemma cenc_first : forall v a, cenc v a -> exists b t, a = b :: t /\ b <> 255%N.
  Proof.
    assert (HA : forall major n h r, (major < 7)%N -> head major n h -> exists b t, h ++ r = b :: t /\ b <> 255%N).
    { intros major n h r Hm H. destruct (head_first _ _ _ Hm H) as (b & t & -> & K). exists b, (t ++ r). auto. }
    intros v a H. destruct H; try (eexists; eexists; split; [reflexivity|lia]); try (eapply HA; [|eassumption]; lia).
    eapply head_first; [|eassumption]; lia.
  Qed.
  Lemma break_not : forall s b t, s = b :: t -> b <> 255%N -> srun read_break s = (Ok false, s).
  Proof. intros s b t -> H. rewrite srun_break. destruct (N.eqb_spec b 255); [contradiction|reflexivity]. Qed.

  Lemma map_set_map : forall V W (f : V -> W) k v m,
    map (fun kv => (fst kv, f (snd kv))) (map_set k v m) = map_set k (f v) (map (fun kv => (fst kv, f (snd kv))) m).
  Proof.
    intros V W f k v. induction m as [|[k' v'] m IH]; [reflexivity|]. cbn [map_set map fst snd].
    destruct (bcmp k k'); cbn [map fst snd]; [reflexivity|reflexivity|]. now rewrite IH.
  Qed.
  Definition read_pairs (m : list (bytes * cval unit)) : list (bytes * gval N) := map (fun kv => (fst kv, as_read (snd kv))) m.

  Definition len_ok (n : Z) (k : nat) (b rest b' rest' : bytes) : Prop :=
    (n = Z.of_nat k /\ b' = b ++ rest /\ rest' = rest) \/ (n = -1 /\ b' = b ++ 255%N :: rest /\ rest' = rest)%Z.

  (** One step of readValue on a first byte, by cases. *)
  Ltac first_byte := rewrite srun_rbind, srun_read_byte; cbn [app].
  Lemma rv_head : forall fuel b t, (28 <= b)%N -> ~ (32 <= b < 56)%N -> (b <> 246 /\ b <> 244 /\ b <> 245 /\ b <> 249 /\ b <> 250 /\ b <> 251 /\ b <> 95 /\ b <> 127 /\ b <> 159 /\ b <> 191)%N ->
    srun (read_value (S fuel)) (b :: t) = srun (
      let m := (b / 32)%N in
      if (m =? 3)%N then rbind (read_prefixed b) (fun xd => SRet (Ok (CStr (snd xd))))
      else if (m =? 2)%N then rbind (read_prefixed b) (fun xd => SRet (Ok (CBytes (Some (fst xd)) (snd xd))))
      else if (m =? 4)%N then rbind (get_var_len_int b) (fun n =>
        if (n >? max_slice_cap)%Z then SRet Panic else rbind (read_array fuel n []) (fun l => SRet (Ok (CArr l))))
      else if (m =? 5)%N then rbind (get_var_len_int b) (fun n => rbind (read_map fuel n []) (fun m => SRet (Ok (CMap m))))
      else if (m =? 6)%N then SRet (Ok CNil)
      else if (m =? 7)%N then SRet (Ok CNil)
      else SRet (Err (EMsg "unknown cbor tag"))) t.
  Proof.
    intros fuel b t H1 H2 H3. rewrite read_value_eq. first_byte. unfold read_item at 1.
    destruct (N.ltb_spec b 28); [lia|].
    destruct ((32 <=? b)%N && (b <? 56)%N) eqn:E; [apply andb_true_iff in E; rewrite N.leb_le, N.ltb_lt in E; lia|].
    destruct H3 as (Q1 & Q2 & Q3 & Q4 & Q5 & Q6 & Q7 & Q8 & Q9 & Q10).
    repeat match goal with |- context [(?b =? ?c)%N] => destruct (N.eqb_spec b c); [lia|] end. reflexivity.
  Qed.
  Lemma rv_prefixed : forall fuel major s h rest, (major = 2 \/ major = 3)%N -> head major (N.of_nat (length s)) h -> (length s <= N.to_nat 4096)%nat ->
    srun (read_value (S fuel)) (h ++ s ++ rest) = (Ok (if (major =? 3)%N then CStr s else CBytes (Some tt) s), rest).
  Proof.
    intros fuel major s h rest Hm H L. destruct (prefixed_ok _ _ _ H L) as (b & t & -> & D & (a0 & M & Q) & E). cbn [app].
    rewrite rv_head by lia. cbv zeta. rewrite D. destruct Hm as [-> | ->]; cbn [N.eqb Pos.eqb]; now rewrite srun_rbind, E.
  Qed.

  Lemma array_done : forall fuel acc n, n = 0%Z \/ n = (-1)%Z -> forall rest,
    srun (read_array (S fuel) n acc) (if (n =? 0)%Z then rest else 255%N :: rest) = (Ok acc, rest).
  Proof.
    intros fuel acc n [-> | ->] rest; rewrite read_array_eq.
    - reflexivity.
    - change (-1 =? 0)%Z with false. change (-1 =? -1)%Z with true. cbv iota. rewrite srun_rbind, srun_break, N.eqb_refl. reflexivity.
  Qed.
  Lemma map_done : forall fuel acc n, n = 0%Z \/ n = (-1)%Z -> forall rest,
    srun (read_map (S fuel) n acc) (if (n =? 0)%Z then rest else 255%N :: rest) = (Ok acc, rest).
  Proof.
    intros fuel acc n [-> | ->] rest; rewrite read_map_eq.
    - reflexivity.
    - change (-1 =? 0)%Z with false. change (-1 =? -1)%Z with true. cbv iota. rewrite srun_rbind, srun_break, N.eqb_refl. reflexivity.
  Qed.

  Definition ends (n : Z) (k : nat) (rest rest' : bytes) : Prop := (n = Z.of_nat k /\ rest' = rest) \/ (n = -1 /\ rest' = 255%N :: rest)%Z.
  Lemma ends_nil : forall n rest rest', ends n 0 rest rest' -> (n = 0%Z \/ n = (-1)%Z) /\ rest' = (if (n =? 0)%Z then rest else 255%N :: rest).
  Proof. intros n rest rest' [[-> ->]|[-> ->]]; cbn; auto. Qed.
  Lemma ends_cons : forall n k rest rest', ends n (S k) rest rest' -> (n =? 0)%Z = false /\ ends (if (n >? 0)%Z then n - 1 else n)%Z k rest rest'.
  Proof.
    intros n k rest rest' [[-> ->]|[-> ->]].
    - split; [apply Z.eqb_neq; lia|]. left. destruct (Z.gtb_spec (Z.of_nat (S k)) 0); [|lia]. split; [lia|reflexivity].
    - split; [reflexivity|]. right. auto.
  Qed.
  Lemma loop_break : forall n s b t, s = b :: t -> b <> 255%N ->
    srun (if (n =? -1)%Z then read_break else SRet (Ok false)) s = (Ok false, s).
  Proof. intros n s b t E H. destruct (n =? -1)%Z; [eapply break_not; eassumption|reflexivity]. Qed.

  Theorem read_cenc :
    (forall v a, cenc v a -> forall fuel rest, (2 * length a < fuel)%nat ->
       exists v', srun (read_value fuel) (a ++ rest) = (Ok v', rest) /\ as_read v' = v) /\
    (forall l a, cenc_list l a -> forall fuel n acc rest rest', (2 * length a + 1 < fuel)%nat -> ends n (length l) rest rest' ->
       exists l', srun (read_array fuel n acc) (a ++ rest') = (Ok (acc ++ l'), rest) /\ map as_read l' = l) /\
    (forall ps a, cenc_pairs ps a -> forall fuel n acc rest rest', (2 * length a + 1 < fuel)%nat -> ends n (length ps) rest rest' ->
       exists m', srun (read_map fuel n acc) (a ++ rest') = (Ok m', rest) /\
         read_pairs m' = fold_left (fun acc kv => map_set (fst kv) (snd kv) acc) ps (read_pairs acc)).
  Proof.
    apply cenc_mutind.
    - (* unsigned *) intros n h H L fuel rest F. destruct (head_cons _ _ _ H) as (b & t & -> & D & (a0 & M & Q) & E). destruct fuel as [|fuel]; [cbn in F; lia|].
      rewrite read_value_eq. first_byte. unfold read_item at 1. destruct (N.ltb_spec b 28); [|lia]. rewrite srun_rbind, E, wrap_small by assumption. eexists. split; [reflexivity|]. reflexivity.
    - intros n H fuel rest F. destruct fuel as [|fuel]; [cbn in F; lia|]. rewrite read_value_eq. first_byte. unfold read_item at 1.
      destruct (N.ltb_spec (32 + n) 28); [lia|]. destruct (N.leb_spec 32 (32 + n)); [|lia]. destruct (N.ltb_spec (32 + n) 56); [|lia]. cbn [andb].
      eexists. split; [reflexivity|]. unfold as_read. cbn [observe]. f_equal. lia.
    - intros [|fuel] rest F; [cbn in F; lia|]. eexists. split; [reflexivity|reflexivity].
    - intros [|fuel] rest F; [cbn in F; lia|]. eexists. split; [reflexivity|reflexivity].
    - intros [|fuel] rest F; [cbn in F; lia|]. eexists. split; [reflexivity|reflexivity].
    - intros d [Hd _] [|fuel] rest F; [cbn in F; lia|]. rewrite read_value_eq. first_byte. unfold read_item at 1. cbn [N.ltb N.compare Pos.compare Pos.compare_cont N.leb andb N.eqb Pos.eqb].
      unfold read_float_bytes. rewrite srun_rbind. change 8%Z with (Z.of_nat 8). rewrite <- Hd, read_bytes_ok by lia. eexists. split; [reflexivity|].
      unfold as_read. cbn [observe snd]. now rewrite be_value_256.
    - intros s h H L [|fuel] rest F; [lia|]. rewrite <- app_assoc, (rv_prefixed fuel 3 s h rest) by auto. eexists. split; [reflexivity|reflexivity].
    - intros s h H L [|fuel] rest F; [lia|]. rewrite <- app_assoc, (rv_prefixed fuel 2 s h rest) by auto. eexists. split; [reflexivity|reflexivity].
    - intros s b C [|fuel] rest F; [lia|]. cbn [length] in F. rewrite app_length in F. cbn [length] in F. rewrite read_value_eq. first_byte. unfold read_item at 1.
      cbn [N.ltb N.compare Pos.compare Pos.compare_cont N.leb andb N.eqb Pos.eqb].
      rewrite srun_rbind, <- app_assoc. cbn [app]. rewrite (read_chunks_ok 3 s b) by (auto; lia). eexists. split; [reflexivity|reflexivity].
    - intros s b C [|fuel] rest F; [lia|]. cbn [length] in F. rewrite app_length in F. cbn [length] in F. rewrite read_value_eq. first_byte. unfold read_item at 1.
      cbn [N.ltb N.compare Pos.compare Pos.compare_cont N.leb andb N.eqb Pos.eqb].
      rewrite srun_rbind, <- app_assoc. cbn [app]. rewrite (read_chunks_ok 2 s b) by (auto; lia). eexists. split; [reflexivity|reflexivity].
    - intros l h b H L C IH [|fuel] rest F; [lia|]. destruct (head_cons _ _ _ H) as (c & t & -> & D & (a0 & M & Q) & E). rewrite app_length in F. cbn [length] in F.
      cbn [app]. rewrite rv_head by lia. cbv zeta. rewrite D. cbn [N.eqb Pos.eqb]. rewrite srun_rbind, <- app_assoc, E, wrap_small by lia.
      unfold max_slice_cap. destruct (Z.gtb_spec (Z.of_N (N.of_nat (length l))) (2 ^ 44)); [lia|].
      destruct (IH fuel (Z.of_nat (length l)) [] rest rest) as (l' & E' & R); [lia|left; auto|]. rewrite srun_rbind, nat_N_Z, E'. eexists. split; [reflexivity|]. cbn. now rewrite <- R.
    - intros l b C IH [|fuel] rest F; [lia|]. cbn [length] in F. rewrite app_length in F. cbn [length] in F. rewrite read_value_eq. first_byte. unfold read_item at 1.
      cbn [N.ltb N.compare Pos.compare Pos.compare_cont N.leb andb N.eqb Pos.eqb]. rewrite <- app_assoc. cbn [app].
      destruct (IH fuel (-1)%Z [] rest (255%N :: rest)) as (l' & E' & R); [lia|right; auto|]. rewrite srun_rbind, E'. eexists. split; [reflexivity|]. cbn. now rewrite <- R.
    - intros ps h b H L C IH [|fuel] rest F; [lia|]. destruct (head_cons _ _ _ H) as (c & t & -> & D & (a0 & M & Q) & E). rewrite app_length in F. cbn [length] in F.
      cbn [app]. rewrite rv_head by lia. cbv zeta. rewrite D. cbn [N.eqb Pos.eqb]. rewrite srun_rbind, <- app_assoc, E, wrap_small by lia.
      destruct (IH fuel (Z.of_nat (length ps)) [] rest rest) as (l' & E' & R); [lia|left; auto|]. rewrite srun_rbind, nat_N_Z, E'. eexists. split; [reflexivity|]. cbn. f_equal. exact R.
    - intros ps b C IH [|fuel] rest F; [lia|]. cbn [length] in F. rewrite app_length in F. cbn [length] in F. rewrite read_value_eq. first_byte. unfold read_item at 1.
      cbn [N.ltb N.compare Pos.compare Pos.compare_cont N.leb andb N.eqb Pos.eqb]. rewrite <- app_assoc. cbn [app].
      destruct (IH fuel (-1)%Z [] rest (255%N :: rest)) as (l' & E' & R); [lia|right; auto|]. rewrite srun_rbind, E'. eexists. split; [reflexivity|]. cbn. f_equal. exact R.
    - intros [|fuel] n acc rest rest' F K; [lia|]. apply ends_nil in K as [K ->]. cbn [app]. rewrite array_done by assumption. exists []. rewrite app_nil_r. auto.
    - intros v l a b C IH CL IHL [|fuel] n acc rest rest' F K; [lia|]. apply ends_cons in K as [Z K]. rewrite app_length in F.
      rewrite read_array_eq. rewrite Z. destruct (cenc_first v a C) as (c & t & -> & N). rewrite srun_rbind.
      rewrite (loop_break n _ c (t ++ b ++ rest')) by (auto; cbn [app]; now rewrite <- app_assoc). rewrite srun_rbind, <- app_assoc.
      cbn [length] in F. destruct (IH fuel (b ++ rest')) as (v' & E' & R); [cbn [length]; lia|]. rewrite E'.
      destruct (IHL fuel _ (acc ++ [v']) rest rest' ltac:(lia) K) as (l' & E2 & R2). rewrite E2. exists (v' :: l'). rewrite <- app_assoc. cbn [map]. rewrite R, R2. auto.
    - intros [|fuel] n acc rest rest' F K; [lia|]. apply ends_nil in K as [K ->]. cbn [app]. rewrite map_done by assumption. eexists. split; reflexivity.
    - intros k v ps h a b H L C IH CL IHL [|fuel] n acc rest rest' F K; [lia|]. apply ends_cons in K as [Z K]. rewrite !app_length in F.
      rewrite read_map_eq. rewrite Z. destruct (head_first 3 _ h ltac:(lia) H) as (c & t & Hh & N). rewrite srun_rbind.
      rewrite (loop_break n _ c (t ++ k ++ a ++ b ++ rest')) by (auto; rewrite Hh; cbn [app]; now rewrite <- !app_assoc). rewrite srun_rbind.
      rewrite <- !app_assoc. rewrite string_key_ok by assumption. rewrite srun_rbind.
      assert (length h >= 1)%nat by (rewrite Hh; cbn; lia).
      destruct (IH fuel (b ++ rest')) as (v' & E' & R); [lia|]. rewrite E'.
      destruct (IHL fuel _ (map_set k v' acc) rest rest' ltac:(lia) K) as (m' & E2 & R2). rewrite E2. exists m'. split; [reflexivity|].
      rewrite R2. cbn [fold_left fst snd]. f_equal. unfold read_pairs. rewrite map_set_map. now rewrite R.
  Qed.
End Run.
