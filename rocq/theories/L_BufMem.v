(** The array-backed reader refines M_Bufio; programs related up to slice identities. *)
From Verif Require Import Base M_Bufio L_Bufio M_Decimal M_Cbor M_BufMem S_Cbor L_Cbor.

Definition mem_ok (m : mem) : Prop := (m_r m <= m_w m)%nat /\ (m_w m <= length (m_arr m))%nat.
Definition to_buf (m : mem) : bufr := mkBuf (m_data m) (length (m_arr m)) (m_err m) (m_src m).

Lemma m_data_length : forall m, mem_ok m -> length (m_data m) = (m_w m - m_r m)%nat.
Proof. intros m [H1 H2]. unfold m_data. rewrite firstn_length, skipn_length. lia. Qed.
Lemma copy_at_length : forall i d a, (i + length d <= length a)%nat -> length (copy_at i d a) = length a.
Proof. intros i d a H. unfold copy_at. rewrite !app_length, firstn_length, skipn_length. lia. Qed.
Lemma src_read_length : forall k s, (length (fst (fst (src_read k s))) <= k)%nat.
Proof.
  intros k s. unfold src_read. destruct (s_rem s) eqn:E; [cbn; lia|]. destruct (sched_head s k) as [[m early] sch]. cbn [fst]. rewrite firstn_length. lia.
Qed.
Lemma fill_refines : forall m, mem_ok m -> mem_ok (m_fill m) /\ to_buf (m_fill m) = fill (to_buf m) /\ length (m_arr (m_fill m)) = length (m_arr m).
Proof.
  intros m H. pose proof (m_data_length m H) as L. destruct H as [H1 H2]. unfold m_fill, fill, to_buf. cbn [b_buf b_cap b_src b_err].
  pose proof (src_read_length (length (m_arr m) - length (m_data m)) (m_src m)) as SL. destruct (src_read _ _) as [[got e] s']. cbn [fst] in SL.
  assert (L0 : length (copy_at 0 (m_data m) (m_arr m)) = length (m_arr m)) by (apply copy_at_length; lia).
  assert (L1 : length (copy_at (length (m_data m)) got (copy_at 0 (m_data m) (m_arr m))) = length (m_arr m)) by (rewrite copy_at_length; lia).
  split; [|split].
  - split; cbn [m_r m_w m_arr]; rewrite ?L1; lia.
  - unfold m_data at 1. cbn [m_arr m_r m_w m_err m_src]. rewrite L1. f_equal. rewrite Nat.sub_0_r. cbn [skipn].
    set (d := m_data m) in *. unfold copy_at at 1.
    assert (E : firstn (length d) (copy_at 0 d (m_arr m)) = d).
    { unfold copy_at. cbn [firstn app]. rewrite firstn_app, firstn_all, Nat.sub_diag. cbn [firstn]. apply app_nil_r. }
    rewrite E, app_assoc, <- app_length, firstn_app, firstn_all, Nat.sub_diag. cbn [firstn]. apply app_nil_r.
  - exact L1.
Qed.
Lemma skip_refines : forall m k, mem_ok m -> (k <= length (m_data m))%nat -> mem_ok (m_skip k m) /\ to_buf (m_skip k m) = set_buf (to_buf m) (skipn k (m_data m)).
Proof.
  intros m k H K. rewrite m_data_length in K by assumption. destruct H as [H1 H2]. split; [split; cbn; lia|].
  unfold to_buf, m_skip, set_buf, m_data. cbn [m_arr m_r m_w m_err m_src b_cap b_err b_src]. f_equal.
  rewrite skipn_firstn_comm, skipn_skipn'. replace (m_w m - (m_r m + k))%nat with (m_w m - m_r m - k)%nat by lia. reflexivity.
Qed.
Lemma clear_refines : forall m, mem_ok m -> mem_ok (m_clear m) /\ to_buf (m_clear m) = clear_err (to_buf m).
Proof. intros m H. split; [exact H|reflexivity]. Qed.
Lemma read_byte_refines : forall m, mem_ok m -> exists r m', m_read_byte m = (r, m') /\ mem_ok m' /\ read_byte (to_buf m) = (r, to_buf m').
Proof.
  assert (S : forall m x t, mem_ok m -> m_data m = x :: t -> mem_ok (m_skip 1 m) /\ to_buf (m_skip 1 m) = set_buf (to_buf m) t).
  { intros m x t H E. destruct (skip_refines m 1 H) as [A B]; [rewrite E; cbn; lia|]. split; [exact A|]. rewrite B, E. reflexivity. }
  intros m H. unfold m_read_byte, read_byte. change (b_buf (to_buf m)) with (m_data m). change (b_err (to_buf m)) with (m_err m).
  destruct (m_data m) as [|x t] eqn:E.
  - destruct (m_err m) as [e|] eqn:Ee.
    + exists (Err e), (m_clear m). split; [reflexivity|]. split; [exact H|reflexivity].
    + destruct (fill_refines m H) as (H' & F & _). cbv zeta. rewrite <- F. change (b_buf (to_buf (m_fill m))) with (m_data (m_fill m)). change (b_err (to_buf (m_fill m))) with (m_err (m_fill m)).
      destruct (m_data (m_fill m)) as [|x t] eqn:E2.
      * destruct (m_err (m_fill m)) as [e|]; do 2 eexists; (split; [reflexivity|]; split; [exact H'|reflexivity]).
      * destruct (S _ x t H' E2) as [A B]. do 2 eexists. split; [reflexivity|]. split; [exact A|]. now rewrite B.
  - destruct (S m x t H E) as [A B]. do 2 eexists. split; [reflexivity|]. split; [exact A|]. now rewrite B.
Qed.
Lemma peek_fill_refines : forall fuel n m, mem_ok m -> mem_ok (m_peek_fill fuel n m) /\ to_buf (m_peek_fill fuel n m) = peek_fill fuel n (to_buf m) /\ length (m_arr (m_peek_fill fuel n m)) = length (m_arr m).
Proof.
  induction fuel as [|fuel IH]; intros n m H; cbn [m_peek_fill peek_fill]; [auto|]. unfold buffered. change (b_buf (to_buf m)) with (m_data m).
  change (b_err (to_buf m)) with (m_err m). change (b_cap (to_buf m)) with (length (m_arr m)). destruct (_ && _ && _)%bool; [|auto].
  destruct (fill_refines m H) as (H' & F & L). rewrite <- F, <- L. apply IH. exact H'.
Qed.
Lemma peek_refines : forall n m, mem_ok m -> exists x d e m', m_peek n m = (x, d, e, m') /\ mem_ok m' /\ peek n (to_buf m) = (d, e, to_buf m').
Proof.
  intros n m H. unfold m_peek, peek. destruct (n <? 0)%Z; [do 4 eexists; split; [reflexivity|]; split; [exact H|reflexivity]|]. cbv zeta.
  change (b_cap (to_buf m)) with (length (m_arr m)). destruct (peek_fill_refines (S (Nat.min (Z.to_nat n) (length (m_arr m)))) (Z.to_nat n) m H) as (H' & F & L).
  rewrite <- F. unfold buffered. change (b_buf (to_buf ?z)) with (m_data z). destruct (_ <? _)%nat; [do 4 eexists; split; [reflexivity|]; split; [exact H'|reflexivity]|].
  destruct (_ <? _)%nat; do 4 eexists; (split; [reflexivity|]; split; [exact H'|reflexivity]).
Qed.
Lemma discard_loop_refines : forall fuel k m, mem_ok m -> mem_ok (m_discard_loop fuel k m) /\ to_buf (m_discard_loop fuel k m) = discard_loop fuel k (to_buf m).
Proof.
  induction fuel as [|fuel IH]; intros k m H; cbn [m_discard_loop discard_loop]; [auto|]. cbv zeta.
  unfold buffered. change (b_buf (to_buf m)) with (m_data m).
  assert (P : exists m1, (if (length (m_data m) =? 0)%nat then m_fill m else m) = m1 /\ mem_ok m1 /\ (if (length (m_data m) =? 0)%nat then fill (to_buf m) else to_buf m) = to_buf m1).
  { destruct (length (m_data m) =? 0)%nat; [destruct (fill_refines m H) as (A & B & _)|]; eexists; (split; [reflexivity|]; split; auto). }
  destruct P as (m1 & -> & H1 & ->). change (b_buf (to_buf m1)) with (m_data m1).
  destruct (skip_refines m1 (Nat.min (length (m_data m1)) k) H1) as [H2 S]; [lia|]. rewrite <- S.
  destruct (_ =? 0)%nat; [auto|]. change (b_err (to_buf (m_skip (Nat.min (length (m_data m1)) k) m1))) with (m_err (m_skip (Nat.min (length (m_data m1)) k) m1)).
  destruct (m_err _); [auto|]. apply IH. exact H2.
Qed.
Lemma discard_refines : forall n m, mem_ok m -> mem_ok (m_discard n m) /\ to_buf (m_discard n m) = discard n (to_buf m).
Proof. intros n m H. unfold m_discard, discard. destruct (n <=? 0)%Z; [auto|]. apply discard_loop_refines, H. Qed.

(** ** Programs that differ only in slice identities *)
Inductive prel {X Y A B : Type} (R : A -> B -> Prop) : sprog X A -> sprog Y B -> Prop :=
| prel_ret : forall a b, R a b -> prel R (SRet a) (SRet b)
| prel_byte : forall k k', (forall r, prel R (k r) (k' r)) -> prel R (SReadByte k) (SReadByte k')
| prel_peek : forall n k k', (forall x y d e, prel R (k x d e) (k' y d e)) -> prel R (SPeek n k) (SPeek n k')
| prel_disc : forall n k k', prel R k k' -> prel R (SDiscard n k) (SDiscard n k').
Lemma prel_run : forall Y A B (R : A -> B -> Prop) (p : sprog nat A) (q : sprog Y B) y, prel R p q -> forall m, mem_ok m ->
  mem_ok (snd (run_mem p m)) /\ R (fst (run_mem p m)) (fst (run_buf (plain y q) (to_buf m))) /\ to_buf (snd (run_mem p m)) = snd (run_buf (plain y q) (to_buf m)).
Proof.
  intros Y A B R p q y P. induction P as [a b H|k k' H IH|n k k' H IH|n k k' H IH]; intros m M; cbn [run_mem plain run_buf].
  - auto.
  - destruct (read_byte_refines m M) as (r & m' & -> & M' & ->). apply IH, M'.
  - destruct (peek_refines n m M) as (x & d & e & m' & -> & M' & ->). apply IH, M'.
  - destruct (discard_refines n m M) as [M' <-]. apply IH, M'.
Qed.
Lemma prel_bind : forall X Y A B C D (R : A -> B -> Prop) (S : C -> D -> Prop) (p : sprog X A) (q : sprog Y B) f g,
  prel R p q -> (forall a b, R a b -> prel S (f a) (g b)) -> prel S (sbind p f) (sbind q g).
Proof. intros X Y A B C D R S p q f g P F. induction P; cbn [sbind]; try (constructor; auto); auto. Qed.
Inductive res_rel {A B : Type} (R : A -> B -> Prop) : res A -> res B -> Prop :=
| rr_ok : forall a b, R a b -> res_rel R (Ok a) (Ok b)
| rr_err : forall e, res_rel R (Err e) (Err e)
| rr_panic : res_rel R Panic Panic
| rr_fuel : res_rel R OutOfFuel OutOfFuel.
Lemma prel_rbind : forall X Y A B C D (R : A -> B -> Prop) (S : C -> D -> Prop) (p : sprog X (res A)) (q : sprog Y (res B)) f g,
  prel (res_rel R) p q -> (forall a b, R a b -> prel (res_rel S) (f a) (g b)) -> prel (res_rel S) (rbind p f) (rbind q g).
Proof. intros X Y A B C D R S p q f g P F. unfold rbind. eapply prel_bind; [exact P|]. intros a b [x y H|e| |]; auto; repeat constructor. Qed.
Lemma prel_if : forall X Y A B (R : A -> B -> Prop) (c : bool) (p p' : sprog X A) (q q' : sprog Y B), prel R p q -> prel R p' q' -> prel R (if c then p else p') (if c then q else q').
Proof. intros X Y A B R [|]; auto. Qed.

Section Cbor.
  Context {X Y : Type}.
  Definition rv (v : cval X) (w : cval Y) : Prop := as_read v = as_read w.
  Definition rp (xd : X * bytes) (yd : Y * bytes) : Prop := snd xd = snd yd.
  Notation ret_ok := (prel_ret _ _ _ (rr_ok _ _ _ _)).
  Lemma prel_same : forall A (r : res A), prel (res_rel eq) (@SRet X _ r) (@SRet Y _ r).
  Proof. intros A [a|e| |]; repeat constructor. Qed.
  Lemma prel_error : forall A B (R : A -> B -> Prop) e, prel (res_rel R) (@SRet X _ (Err e)) (@SRet Y _ (Err e)).
  Proof. repeat constructor. Qed.
  Lemma prel_okret : forall A B (R : A -> B -> Prop) a b, R a b -> prel (res_rel R) (@SRet X _ (Ok a)) (@SRet Y _ (Ok b)).
  Proof. repeat constructor. assumption. Qed.
  Lemma prel_bytes : forall n, prel (res_rel rp) (@read_bytes X n) (@read_bytes Y n).
  Proof. intros n. unfold read_bytes. constructor. intros x y d [e|]; repeat constructor. Qed.
  Lemma prel_int : forall n, prel (res_rel eq) (@read_int_bytes X n) (@read_int_bytes Y n).
  Proof. intros n. eapply prel_rbind; [apply prel_bytes|]. intros a b E. apply prel_okret. unfold rp in E. now rewrite E. Qed.
  Lemma prel_float : forall n, prel (res_rel rv) (@read_float_bytes X n) (@read_float_bytes Y n).
  Proof. intros n. eapply prel_rbind; [apply prel_bytes|]. intros a b E. apply prel_okret. unfold rp in E. rewrite E. reflexivity. Qed.
  Lemma prel_var : forall b, prel (res_rel eq) (@get_var_len_int X b) (@get_var_len_int Y b).
  Proof. intros b. unfold get_var_len_int. cbv zeta. repeat (apply prel_if; auto using prel_int, prel_same). Qed.
  Lemma prel_brk : prel (res_rel eq) (@read_break X) (@read_break Y).
  Proof.
    unfold read_break. constructor. intros x y d [e|]; [apply prel_same|]. destruct d as [|c t]; [apply prel_same|]. apply prel_if; [constructor|]; apply prel_same.
  Qed.
  Lemma prel_rb : prel (res_rel eq) (@read_byte_p X) (@read_byte_p Y).
  Proof. unfold read_byte_p. constructor. intros r. apply prel_same. Qed.
  Lemma prel_prefixed : forall b, prel (res_rel rp) (@read_prefixed X b) (@read_prefixed Y b).
  Proof. intros b. eapply prel_rbind; [apply prel_var|]. intros n n' <-. apply prel_bytes. Qed.
  Lemma prel_key : prel (res_rel eq) (@read_string_key X) (@read_string_key Y).
  Proof.
    eapply prel_rbind; [apply prel_rb|]. intros b b' <-. apply prel_if; [apply prel_same|]. eapply prel_rbind; [apply prel_prefixed|].
    intros a c E. apply prel_okret. exact E.
  Qed.
  Lemma prel_chunks : forall fuel acc, prel (res_rel eq) (@read_chunks X fuel acc) (@read_chunks Y fuel acc).
  Proof.
    induction fuel as [|fuel IH]; intros acc; cbn [read_chunks]; [apply prel_same|]. eapply prel_rbind; [apply prel_brk|]. intros b b' <-. apply prel_if; [apply prel_same|].
    eapply prel_rbind; [apply prel_rb|]. intros c c' <-. eapply prel_rbind; [apply prel_prefixed|]. intros a d E. unfold rp in E. rewrite E. apply IH.
  Qed.
  Definition rl (l : list (cval X)) (l' : list (cval Y)) : Prop := map as_read l = map as_read l'.
  Definition pairs_read {Z} (m : list (bytes * cval Z)) : list (bytes * gval N) := map (fun kv => (fst kv, as_read (snd kv))) m.
  Definition rm (m : list (bytes * cval X)) (m' : list (bytes * cval Y)) : Prop := pairs_read m = pairs_read m'.
  Lemma set_map : forall V W (f : V -> W) k v m, map (fun kv => (fst kv, f (snd kv))) (map_set k v m) = map_set k (f v) (map (fun kv => (fst kv, f (snd kv))) m).
  Proof. intros V W f k v m. induction m as [|[k' v'] m IH]; cbn; [reflexivity|]. destruct (bcmp k k'); cbn; [reflexivity|reflexivity|now rewrite IH]. Qed.
  Lemma prel_values : forall fuel, prel (res_rel rv) (@read_value X fuel) (@read_value Y fuel) /\
    (forall n acc acc', rl acc acc' -> prel (res_rel rl) (read_array fuel n acc) (read_array fuel n acc')) /\
    (forall n acc acc', rm acc acc' -> prel (res_rel rm) (read_map fuel n acc) (read_map fuel n acc')).
  Proof.
    induction fuel as [|fuel (IV & IA & IM)]; [split; [|split]; intros; repeat constructor|]. split; [|split].
    - rewrite !read_value_eq. eapply prel_rbind; [apply prel_rb|]. intros b b' <-. unfold read_item. cbv zeta.
      assert (A : forall n, prel (res_rel rv) (rbind (read_array fuel n []) (fun l => SRet (Ok (@CArr X l)))) (rbind (read_array fuel n []) (fun l => SRet (Ok (@CArr Y l))))).
      { intros n. eapply prel_rbind; [apply IA; reflexivity|]. intros l l' E. apply prel_okret. unfold rv, as_read. cbn [observe]. f_equal. exact E. }
      assert (M : forall n, prel (res_rel rv) (rbind (read_map fuel n []) (fun l => SRet (Ok (@CMap X l)))) (rbind (read_map fuel n []) (fun l => SRet (Ok (@CMap Y l))))).
      { intros n. eapply prel_rbind; [apply IM; reflexivity|]. intros l l' E. apply prel_okret. unfold rv, as_read. cbn [observe]. f_equal. exact E. }
      repeat (apply prel_if; auto using prel_float); try (apply prel_okret; reflexivity); try apply prel_error;
        try (eapply prel_rbind; [apply prel_chunks|]; intros a c <-; apply prel_okret; reflexivity);
        try (eapply prel_rbind; [apply prel_prefixed|]; intros a c E; apply prel_okret; unfold rp in E; unfold rv, as_read; cbn [observe]; now rewrite E).
      + eapply prel_rbind; [apply prel_var|]. intros n n' <-. apply prel_okret. reflexivity.
      + eapply prel_rbind; [apply prel_var|]. intros n n' <-. apply prel_if; [repeat constructor|apply A].
      + eapply prel_rbind; [apply prel_var|]. intros n n' <-. apply M.
    - intros n acc acc' E. rewrite !read_array_eq. apply prel_if; [apply prel_okret; exact E|]. eapply prel_rbind; [apply prel_if; [apply prel_brk|apply prel_same]|]. intros b b' <-.
      apply prel_if; [apply prel_okret; exact E|]. eapply prel_rbind; [exact IV|]. intros v v' V. apply IA. unfold rl in *. rewrite !map_app, E. cbn [map]. now rewrite V.
    - intros n acc acc' E. rewrite !read_map_eq. apply prel_if; [apply prel_okret; exact E|]. eapply prel_rbind; [apply prel_if; [apply prel_brk|apply prel_same]|]. intros b b' <-.
      apply prel_if; [apply prel_okret; exact E|]. eapply prel_rbind; [apply prel_key|]. intros k k' <-. eapply prel_rbind; [exact IV|]. intros v v' V. apply IM.
      unfold rm, pairs_read in *. rewrite !set_map, E. now rewrite V.
  Qed.
  Definition re (e : centry X) (e' : centry Y) : Prop := entry_read e = entry_read e'.
  Definition rst (a : res (centry X) * cbor_state) (b : res (centry Y) * cbor_state) : Prop := res_rel re (fst a) (fst b) /\ snd a = snd b.
  Lemma prel_body : forall fuel obj st, prel rst (cbor_read_body fuel obj st) (cbor_read_body fuel obj st).
  Proof.
    intros fuel obj st. unfold cbor_read_body. eapply (prel_bind _ _ _ _ _ _ (res_rel re)).
    - eapply prel_rbind; [apply prel_if; [apply prel_brk|apply prel_same]|]. intros b b' <-. apply prel_if; [apply prel_error|].
      eapply prel_rbind; [apply prel_if; [apply prel_key|apply prel_same]|]. intros k k' <-. eapply prel_rbind; [apply prel_values|]. intros v v' V. apply prel_okret.
      unfold re, entry_read. cbn [ce_index ce_key ce_val]. now rewrite V.
    - intros a b H. constructor. split; cbn [fst snd]; [exact H|]. now destruct H.
  Qed.
  Lemma prel_entry : forall fuel obj st, prel rst (cbor_read_entry fuel obj st) (cbor_read_entry fuel obj st).
  Proof.
    intros fuel obj st. unfold cbor_read_entry. apply prel_if; [|apply prel_body]. eapply (prel_bind _ _ _ _ _ _ (res_rel eq)).
    - unfold read_top_level. eapply prel_rbind; [apply prel_rb|]. intros b b' <-. cbv zeta. apply prel_if; [apply prel_same|]. apply prel_if; [apply prel_same|].
      eapply prel_rbind; [apply prel_var|]. intros n n' <-. apply prel_same.
    - intros a b [[t n] ? <-|e| |]; [|constructor; split; [constructor|reflexivity]..]. apply prel_if; [apply prel_body|]. constructor. split; [constructor|reflexivity].
  Qed.
  Definition rloop (a : list (centry X) * res unit) (b : list (centry Y) * res unit) : Prop := map entry_read (fst a) = map entry_read (fst b) /\ snd a = snd b.
  Lemma prel_loop : forall n fuel obj st, prel rloop (cbor_read_loop n fuel obj st) (cbor_read_loop n fuel obj st).
  Proof.
    induction n as [|n IH]; intros fuel obj st; cbn [cbor_read_loop]; [repeat constructor|]. eapply prel_bind; [apply prel_entry|].
    intros [r st1] [r' st2] [H E]. cbn [fst snd] in *. subst st2. destruct H as [e e' H|e| |]; [|repeat constructor..].
    eapply prel_bind; [apply IH|]. intros [es out] [es' out'] [H1 H2]. cbn [fst snd] in *. constructor. split; cbn [fst snd map]; [now rewrite H, H1|assumption].
  Qed.
End Cbor.

(** Values without byte strings do not look at memory. *)
Lemma observe_no_bytes : forall X (look : X -> bytes -> bytes) v, no_bytes (as_read v) = true -> observe look v = as_read v.
Proof.
  intros X look. fix F 1. intros [|b|z|f|s|x s|l|m] H; try reflexivity.
  - unfold as_read in H. destruct x; discriminate H.
  - unfold as_read in *. cbn [observe no_bytes] in *. f_equal. revert l H. fix G 1. intros [|v l] H; [reflexivity|]. cbn [map forallb] in *. apply andb_true_iff in H as [H1 H2].
    f_equal; [apply F, H1|apply G, H2].
  - unfold as_read in *. cbn [observe no_bytes] in *. f_equal. revert m H. fix G 1. intros [|[k v] m] H; [reflexivity|]. cbn [map forallb fst snd] in *. apply andb_true_iff in H as [H1 H2].
    f_equal; [f_equal; apply F, H1|apply G, H2].
Qed.
