From Verif Require Import Base M_Bufio L_Bufio M_ReplaceCR S_ReplaceCR.

Section ListSem.
  Variable cap : nat.
  Variable fin : err.
  Hypothesis Hcap : (0 < cap)%nat.

  Definition crl (k : nat) (s : bytes) := run_list cap fin (cr_loop k) s.

  Lemma peek1 : forall (A : Type) (kk : bytes -> option err -> prog A) s,
    run_list cap fin (PPeek 1 kk) s =
    match s with
    | [] => run_list cap fin (kk [] (Some fin)) []
    | c :: t => run_list cap fin (kk [c] None) (c :: t)
    end.
  Proof.
    intros. cbn [run_list]. change (1 <? 0)%Z with false. cbv iota.
    destruct (Z.ltb_spec (Z.of_nat cap) 1); [lia|].
    destruct s as [|c t].
    - reflexivity.
    - destruct (Z.ltb_spec (Z.of_nat (length (c :: t))) 1); [simpl in *; lia|].
      reflexivity.
  Qed.

  (** Unfolding of one iteration. *)
  Lemma crl_step : forall k s, crl (S k) s =
    match s with
    | [] => (([], Some fin), [])
    | c :: t =>
        if N.eqb c cCR && (0 <? k)%nat then
          if match t with [] => is_eof_text fin | x :: _ => negb (N.eqb x cLF) end
          then let '(r, rest) := crl (k - 1) t in (cons_out [cCR; cLF] r, rest)
          else let '(r, rest) := crl k t in (cons_out [cCR] r, rest)
        else let '(r, rest) := crl k t in (cons_out [c] r, rest)
    end.
  Proof.
    intros k s. unfold crl at 1. cbn [cr_loop].
    destruct s as [|c t]; [reflexivity|]. cbn [run_list].
    destruct k as [|k].
    - rewrite andb_false_r. rewrite run_list_bind. reflexivity.
    - change (0 <? S k)%nat with true. rewrite andb_true_r. replace (S k - 1)%nat with k by lia.
      destruct (N.eqb c cCR).
      + rewrite peek1. destruct t as [|x t].
        * unfold cr_should_insert. destruct (is_eof_text fin); rewrite run_list_bind; fold (crl k []); fold (crl (S k) []);
          reflexivity.
        * unfold cr_should_insert. destruct (negb (N.eqb x cLF)); rewrite run_list_bind; reflexivity.
      + rewrite run_list_bind. reflexivity.
  Qed.

  Lemma crl_spec_aux : forall n k, (k <= n)%nat -> forall s o e rest, crl k s = ((o, e), rest) ->
    inserts s o rest /\ (length o <= k)%nat /\ (e = None -> length o = k) /\
    (forall x, e = Some x -> x = fin /\ rest = []) /\
    (is_eof_text fin = true -> forall i, bare_cr_at o i -> S i = k) /\
    (forall c t, s = c :: t -> (0 < k)%nat -> exists o', o = c :: o').
  Proof.
    induction n as [|n IH]; intros k Hk s o e rest H.
    - destruct k; [|lia]. unfold crl in H. simpl in H. injection H as <- <- <-.
      split; [constructor|]. split; [simpl; lia|]. split; [reflexivity|]. split; [discriminate|].
      split; [|intros; lia].
      intros _ i [H1 _]. rewrite nth_error_nil' in H1. discriminate.
    - destruct k as [|k].
      { eapply (IH 0%nat); [lia|eassumption]. }
      rewrite crl_step in H. destruct s as [|c t].
      { injection H as <- <- <-. split; [constructor|]. split; [simpl; lia|]. split; [discriminate|].
        split; [intros x Hx; injection Hx as <-; auto|]. split; [|intros; discriminate].
        intros _ i [H1 _]. rewrite nth_error_nil' in H1. discriminate. }
      assert (Keep : forall r rest0, crl k t = (r, rest0) ->
        (cons_out [c] r, rest0) = ((o, e), rest) ->
        (is_eof_text fin = true -> c = cCR -> (0 < k)%nat -> exists t', t = cLF :: t') ->
        inserts (c :: t) o rest /\ (length o <= S k)%nat /\ (e = None -> length o = S k) /\
        (forall x, e = Some x -> x = fin /\ rest = []) /\
        (is_eof_text fin = true -> forall i, bare_cr_at o i -> S i = S k) /\
        (forall c0 t0, c :: t = c0 :: t0 -> (0 < S k)%nat -> exists o', o = c0 :: o')).
      { intros [o0 e0] rest0 E1 E2 Hlf. unfold cons_out in E2. simpl in E2. injection E2 as <- <- <-.
        destruct (IH k ltac:(lia) t o0 e0 rest0 E1) as [A [B [C [D [F G]]]]].
        split; [constructor; assumption|]. split; [simpl; lia|]. split; [intro; simpl; rewrite C; auto|].
        split; [assumption|]. split.
        - intros Heof i [Hb1 Hb2]. destruct i as [|i].
          + simpl in Hb1, Hb2. injection Hb1 as ->.
            destruct k as [|k']; [reflexivity|]. exfalso.
            destruct (Hlf Heof eq_refl ltac:(lia)) as [t' ->].
            destruct (G _ _ eq_refl ltac:(lia)) as [o' ->]. apply Hb2. reflexivity.
          + f_equal. apply F; [assumption|]. split; [exact Hb1|exact Hb2].
        - intros c0 t0 Ec _. injection Ec as <- <-. eauto. }
      destruct (N.eqb_spec c cCR) as [Ec|Ec]; simpl in H.
      + destruct (Nat.ltb_spec 0 k) as [Hk0|Hk0].
        * destruct t as [|x t].
          -- destruct (is_eof_text fin) eqn:Eeof.
             ++ destruct (crl (k - 1) []) as [[o0 e0] rest0] eqn:E1.
                unfold cons_out in H. simpl in H. injection H as <- <- <-.
                destruct (IH (k - 1)%nat ltac:(lia) _ _ _ _ E1) as [A [B [C [D [F G]]]]].
                subst c. split; [apply ins_add; [discriminate|assumption]|].
                split; [simpl; lia|]. split; [intro; simpl; rewrite C by assumption; lia|].
                split; [assumption|]. split.
                ** intros _ i [Hb1 Hb2]. destruct i as [|[|i]].
                   --- exfalso. apply Hb2. reflexivity.
                   --- simpl in Hb1. discriminate.
                   --- assert (S i = k - 1)%nat; [|lia]. apply F; [reflexivity|split; assumption].
                ** intros c0 t0 Ec0 _. injection Ec0 as <- <-. eauto.
             ++ destruct (crl k []) as [r rest0] eqn:E1. subst c.
                eapply Keep; eauto. intros; congruence.
          -- destruct (N.eqb_spec x cLF) as [Ex|Ex]; simpl in H.
             ++ destruct (crl k (x :: t)) as [r rest0] eqn:E1. subst c.
                eapply Keep; eauto. intros. subst x. eauto.
             ++ destruct (crl (k - 1) (x :: t)) as [[o0 e0] rest0] eqn:E1.
                unfold cons_out in H. simpl in H. injection H as <- <- <-.
                destruct (IH (k - 1)%nat ltac:(lia) _ _ _ _ E1) as [A [B [C [D [F G]]]]].
                subst c. split; [apply ins_add; [simpl; congruence|assumption]|].
                split; [simpl; lia|]. split; [intro; simpl; rewrite C by assumption; lia|].
                split; [assumption|]. split.
                ** intros Heof i [Hb1 Hb2]. destruct i as [|[|i]].
                   --- exfalso. apply Hb2. reflexivity.
                   --- simpl in Hb1. discriminate.
                   --- assert (S i = k - 1)%nat; [|lia]. apply F; [assumption|split; assumption].
                ** intros c0 t0 Ec0 _. injection Ec0 as <- <-. eauto.
        * destruct (crl k t) as [r rest0] eqn:E1. eapply Keep; eauto. intros; lia.
      + destruct (crl k t) as [r rest0] eqn:E1. eapply Keep; eauto. intros; congruence.
  Qed.

  Lemma crl_spec : forall k s o e rest, crl k s = ((o, e), rest) ->
    inserts s o rest /\ (length o <= k)%nat /\ (e = None -> length o = k) /\
    (forall x, e = Some x -> x = fin /\ rest = []) /\
    (is_eof_text fin = true -> forall i, bare_cr_at o i -> S i = k).
  Proof.
    intros. destruct (crl_spec_aux k k (le_n _) s o e rest H) as [A [B [C [D [E _]]]]]. auto.
  Qed.

  (** The session on lists. *)
  Fixpoint crl_reads (sizes : list nat) (s : bytes) : list (bytes * option err) * bytes :=
    match sizes with
    | [] => ([], s)
    | k :: sizes' =>
        let '(r, s') := crl k s in
        let '(rs, s'') := crl_reads sizes' s' in
        (r :: rs, s'')
    end.

  Lemma cr_reads_list : forall sizes b, buf_ok cap fin b ->
    fst (cr_reads sizes b) = fst (crl_reads sizes (pending b)) /\
    pending (snd (cr_reads sizes b)) = snd (crl_reads sizes (pending b)).
  Proof.
    induction sizes as [|k sizes IH]; intros b Hok; simpl; [auto|].
    destruct (run_buf_list _ (cr_read k) cap fin b Hok) as [b' [H1 [H2 H3]]].
    rewrite H1. unfold crl, cr_read in *.
    destruct (run_list cap fin (cr_loop k) (pending b)) as [r s'] eqn:E. simpl in H3.
    destruct (IH b' H2) as [I1 I2]. rewrite H3 in *. simpl.
    destruct (cr_reads sizes b') as [rs b'']. destruct (crl_reads sizes s') as [rs' s''].
    simpl in *. subst. auto.
  Qed.

  Definition outs (rs : list (bytes * option err)) : bytes := concat (map fst rs).

  Lemma inserts_trans : forall s o1 r1, inserts s o1 r1 -> forall o2 r2, inserts r1 o2 r2 ->
    inserts s (o1 ++ o2) r2.
  Proof.
    induction 1; intros; simpl; auto using ins_keep, ins_add.
  Qed.

  Lemma crl_reads_inserts : forall sizes s rs rest, crl_reads sizes s = (rs, rest) ->
    inserts s (outs rs) rest.
  Proof.
    induction sizes as [|k sizes IH]; simpl; intros s rs rest H.
    - injection H as <- <-. constructor.
    - destruct (crl k s) as [[o e] s'] eqn:E1. destruct (crl_reads sizes s') as [rs' s''] eqn:E2.
      injection H as <- <-. destruct (crl_spec _ _ _ _ _ E1) as [A _].
      unfold outs; simpl. eapply inserts_trans; eauto.
  Qed.

  Lemma crl_reads_each : forall sizes s rs rest, crl_reads sizes s = (rs, rest) ->
    Forall2 (fun k r => (length (fst r) <= k)%nat /\ (snd r = None -> length (fst r) = k) /\
      (is_eof_text fin = true -> forall i, bare_cr_at (fst r) i -> S i = k)) sizes rs.
  Proof.
    induction sizes as [|k sizes IH]; simpl; intros s rs rest H.
    - injection H as <- <-. constructor.
    - destruct (crl k s) as [[o e] s'] eqn:E1. destruct (crl_reads sizes s') as [rs' s''] eqn:E2.
      injection H as <- <-. destruct (crl_spec _ _ _ _ _ E1) as [A [B [C [D F]]]].
      constructor; eauto.
  Qed.

  Lemma crl_reads_done : forall sizes s rs rest, crl_reads sizes s = (rs, rest) ->
    (exists o e, In (o, Some e) rs) -> rest = [].
  Proof.
    induction sizes as [|k sizes IH]; simpl; intros s rs rest H [o [e Hin]].
    - injection H as <- <-. destruct Hin.
    - destruct (crl k s) as [[o1 e1] s'] eqn:E1. destruct (crl_reads sizes s') as [rs' s''] eqn:E2.
      injection H as <- <-. destruct Hin as [Hin|Hin].
      + injection Hin as -> ->. destruct (crl_spec _ _ _ _ _ E1) as [_ [_ [_ [D _]]]].
        destruct (D _ eq_refl) as [_ ->].
        clear - E2 Hcap. assert (G : forall sizes rs r, crl_reads sizes [] = (rs, r) -> r = []).
        { clear E2. induction sizes0 as [|k ss IHs]; simpl; intros rs0 r H.
          - injection H as <- <-. reflexivity.
          - destruct k as [|k].
            + unfold crl in H. simpl in H. destruct (crl_reads ss []) as [q1 q2] eqn:E.
              injection H as <- <-. eauto.
            + rewrite crl_step in H. destruct (crl_reads ss []) as [q1 q2] eqn:E.
              injection H as <- <-. eauto. }
        eapply G; eauto.
      + eapply IH; eauto.
  Qed.
End ListSem.

Lemma inserts_length : forall s o rest, inserts s o rest ->
  (length o + 2 * length rest <= 2 * length s)%nat.
Proof. induction 1; simpl; lia. Qed.

Lemma inserts_no_lone : forall s o rest, inserts s o rest -> no_lone_cr s -> o ++ rest = s.
Proof.
  induction 1; intros Hn; simpl.
  - reflexivity.
  - f_equal. apply IHinserts. intros i [H1 H2]. apply (Hn (S i)). split; assumption.
  - exfalso. apply (Hn 0%nat). split; [reflexivity|]. destruct s; simpl in *; congruence.
Qed.

Lemma inserts_hd : forall s o, inserts s o [] -> forall c, c <> cCR \/ True -> hd_error s = Some c -> hd_error o = Some c.
Proof.
  intros s o H c _ Hs. inversion H; subst; simpl in *; try discriminate; assumption.
Qed.

Lemma inserts_norm : forall s o, inserts s o [] -> no_lone_cr o -> o = normalise s.
Proof.
  intros s o H. remember [] as rest. induction H; intros Hn; subst.
  - reflexivity.
  - simpl. assert (Hn' : no_lone_cr o). { intros i [H1 H2]. apply (Hn (S i)). split; assumption. }
    destruct (N.eqb_spec c cCR) as [->|]; simpl.
    + (* a kept CR must be followed by LF *)
      assert (Ho : hd_error o = Some cLF).
      { destruct o as [|x o]. { exfalso. apply (Hn 0%nat). split; [reflexivity|]. simpl. discriminate. }
        destruct (N.eqb_spec x cLF) as [->|Hx]; [reflexivity|]. exfalso. apply (Hn 0%nat). split; [reflexivity|].
        simpl. congruence. }
      assert (Hs : hd_error s = Some cLF).
      { inversion H; subst; simpl in *; try discriminate; try assumption. }
      destruct s as [|x s]; [discriminate|]. simpl in Hs. injection Hs as ->.
      rewrite N.eqb_refl. simpl negb. cbv iota. rewrite <- IHinserts by auto. reflexivity.
    + f_equal. apply IHinserts; auto.
  - change (normalise (cCR :: s)) with
      (if N.eqb cCR cCR && match s with x :: _ => negb (N.eqb x cLF) | [] => true end
       then cCR :: cLF :: normalise s else cCR :: normalise s).
    rewrite N.eqb_refl. replace (match s with x :: _ => negb (N.eqb x cLF) | [] => true end) with true.
    + simpl. do 2 f_equal. apply IHinserts; auto. intros i [H1 H2]. apply (Hn (S (S i))). split; assumption.
    + destruct s as [|x s]; [reflexivity|]. simpl in H. destruct (N.eqb_spec x cLF); [congruence|reflexivity].
Qed.

Lemma normalise_no_lone : forall s, no_lone_cr (normalise s).
Proof.
  assert (Hhd : forall s, hd_error (normalise s) = hd_error s).
  { destruct s as [|c t]; [reflexivity|]. simpl.
    destruct (N.eqb_spec c cCR); simpl; [|reflexivity].
    destruct t as [|x t]; simpl; [congruence|]. destruct (N.eqb x cLF); simpl; congruence. }
  induction s as [|c t IH]; intros i [H1 H2].
  - rewrite nth_error_nil' in H1. discriminate.
  - simpl in H1, H2. destruct (N.eqb_spec c cCR) as [->|Hc]; simpl in H1, H2.
    + destruct t as [|x t].
      * simpl in *. destruct i as [|[|[|i]]]; simpl in *; try discriminate; try congruence.
      * destruct (N.eqb_spec x cLF) as [->|Hx]; simpl negb in *; cbv iota in *.
        -- destruct i as [|i].
           ++ apply H2. change (nth_error (cCR :: normalise (cLF :: t)) 1) with (nth_error (normalise (cLF :: t)) 0).
              specialize (Hhd (cLF :: t)). destruct (normalise (cLF :: t)); [discriminate|]. exact Hhd.
           ++ apply (IH i). split; assumption.
        -- destruct i as [|[|i]].
           ++ apply H2. reflexivity.
           ++ simpl in H1. discriminate.
           ++ apply (IH i). split; assumption.
    + destruct i as [|i].
      * simpl in H1. congruence.
      * apply (IH i). split; assumption.
Qed.

(** Statements about complete sessions. *)
Section Session.
  Variables (size : nat) (data : bytes) (fin : err) (sched : list (nat * bool)) (sizes : list nat).
  Let rs := fst (cr_session size data fin sched sizes).
  Let rest := pending (snd (cr_session size data fin sched sizes)).

  Lemma session_list : crl_reads (Nat.max 16 size) fin sizes data = (rs, rest).
  Proof.
    unfold rs, rest, cr_session.
    destruct (new_bufr_ok size (mkSrc data fin sched)) as [H1 H2]. simpl s_fin in H1. simpl s_rem in H2.
    destruct (cr_reads_list (Nat.max 16 size) fin sizes _ H1) as [I1 I2].
    rewrite I1, I2, H2. destruct (crl_reads _ _ _ _); reflexivity.
  Qed.

  Lemma hcap : (0 < Nat.max 16 size)%nat. Proof. lia. Qed.

  Lemma session_inserts : inserts data (concat (map fst rs)) rest.
  Proof. exact (crl_reads_inserts _ _ hcap _ _ _ _ session_list). Qed.

  Lemma session_each : is_eof_text fin = true ->
    Forall2 (fun k r => (length (fst r) <= k)%nat /\ (snd r = None -> length (fst r) = k) /\
      forall i, bare_cr_at (fst r) i -> S i = k) sizes rs.
  Proof.
    intro Hf. pose proof (crl_reads_each _ _ hcap _ _ _ _ session_list) as H.
    eapply Forall2_impl; [|exact H]. simpl. intros k r [A [B C]]. auto.
  Qed.

  Lemma session_done : (exists o e, In (o, Some e) rs) -> rest = [].
  Proof. exact (crl_reads_done _ _ hcap _ _ _ _ session_list). Qed.

  Lemma session_terminates : (2 * length data < fold_right Nat.add 0 sizes)%nat ->
    exists o e, In (o, Some e) rs.
  Proof.
    intro Hs. pose proof (crl_reads_each _ _ hcap _ _ _ _ session_list) as H.
    pose proof (inserts_length _ _ _ session_inserts) as Hl.
    assert (G : forall (ks : list nat) (l : list (bytes * option err)), Forall2 (fun k r => (length (fst r) <= k)%nat /\ (snd r = None -> length (fst r) = k) /\
      (is_eof_text fin = true -> forall i, bare_cr_at (fst r) i -> S i = k)) ks l ->
      (exists o e, In (o, Some e) l) \/ length (concat (map fst l)) = fold_right Nat.add 0%nat ks).
    { clear. induction 1 as [|k [o e] ks l [A [B C]] _ IH]; [right; reflexivity|].
      destruct e as [e|]. { left. exists o, e. left; reflexivity. }
      destruct IH as [[o' [e' IH]]|IH]; [left; exists o', e'; right; assumption|].
      right. simpl. rewrite app_length, IH. simpl in B. rewrite B by reflexivity. reflexivity. }
    destruct (G _ _ H) as [?|E]; [assumption|]. lia.
  Qed.
End Session.

Lemma crl_cap_free : forall cap1 cap2 fin, (0 < cap1)%nat -> (0 < cap2)%nat ->
  forall n k, (k <= n)%nat -> forall s, crl cap1 fin k s = crl cap2 fin k s.
Proof.
  intros cap1 cap2 fin H1 H2. induction n as [|n IH]; intros k Hk s.
  - destruct k; [reflexivity|lia].
  - destruct k as [|k]; [reflexivity|]. rewrite !crl_step by assumption.
    destruct s as [|c t]; [reflexivity|].
    rewrite (IH k) by lia. rewrite (IH (k - 1)%nat) by lia. reflexivity.
Qed.

Lemma crl_reads_cap_free : forall cap1 cap2 fin, (0 < cap1)%nat -> (0 < cap2)%nat ->
  forall sizes s, crl_reads cap1 fin sizes s = crl_reads cap2 fin sizes s.
Proof.
  intros cap1 cap2 fin H1 H2. induction sizes as [|k sizes IH]; intros s; simpl; [reflexivity|].
  rewrite (crl_cap_free cap1 cap2 fin H1 H2 k k (le_n _)).
  destruct (crl cap2 fin k s) as [r s']. rewrite IH. reflexivity.
Qed.

Lemma session_schedule_free : forall size1 size2 data fin sched1 sched2 sizes,
  fst (cr_session size1 data fin sched1 sizes) = fst (cr_session size2 data fin sched2 sizes).
Proof.
  intros. pose proof (session_list size1 data fin sched1 sizes) as A.
  pose proof (session_list size2 data fin sched2 sizes) as B.
  rewrite (crl_reads_cap_free (Nat.max 16 size1) (Nat.max 16 size2)) in A by lia. congruence.
Qed.
