(** Teed, limited and joined readers deliver what they should. *)
From Coq Require Import Lia.
From Verif Require Import Base M_Bufio M_Tee S_Tee.
Notation length := List.length.

Lemma delivers_step : forall R (rd : nat -> R -> bytes * option err * R) r d e, delivers rd r d e -> forall k x o r', rd k r = (x, o, r') ->
  exists d', d = x ++ d' /\ (length x <= k)%nat /\ (o = None /\ (0 < k -> x <> [])%nat \/ o = Some e /\ d' = []) /\ delivers rd r' d' e.
Proof.
  intros R rd r d e [P [H0 H]] k x o r' E. destruct (H r d H0 k) as [x' [d' [A [B [C [D G]]]]]]. rewrite E in *. cbn [fst snd] in *. subst x'.
  exists d'. repeat split; try assumption. exists P. auto.
Qed.
Lemma delivers_intro : forall R (rd : nat -> R -> bytes * option err * R) e (P : R -> bytes -> Prop),
  (forall r d, P r d -> forall k x o r', rd k r = (x, o, r') ->
    exists d', d = x ++ d' /\ (length x <= k)%nat /\ (o = None /\ (0 < k -> x <> [])%nat \/ o = Some e /\ d' = []) /\ P r' d') ->
  forall r d, P r d -> delivers rd r d e.
Proof.
  intros R rd e P H r d H0. exists P. split; [exact H0|]. intros r1 d1 H1 k. destruct (rd k r1) as [[x o] r'] eqn:E.
  destruct (H r1 d1 H1 k x o r' E) as [d' [A [B [C D]]]]. exists x, d'. cbn [fst snd]. auto.
Qed.
Lemma firstn_le : forall A k (l : list A), (length (firstn k l) <= k)%nat.
Proof. intros. rewrite firstn_length. lia. Qed.
Lemma delivers_src : forall s, delivers file_read (FSrc s) (s_rem s) (s_fin s).
Proof.
  intros s. apply (delivers_intro _ file_read (s_fin s) (fun f d => exists s', f = FSrc s' /\ d = s_rem s' /\ s_fin s' = s_fin s)); [|exists s; auto].
  intros r d [s1 [-> [-> Hf]]] k x o r' E. cbn [file_read] in E. unfold src_read in E.
  destruct (s_rem s1) as [|c rem] eqn:Er.
  - inversion E; subst. exists []. split; [reflexivity|]. split; [cbn; lia|]. split; [right; split; [congruence|reflexivity]|]. exists s1. auto.
  - unfold sched_head in E.
    assert (G : forall m early sch, (0 < m)%nat -> (let n := Nat.min k m in
        (firstn n (c :: rem), match skipn n (c :: rem) with [] => if early : bool then Some (s_fin s1) else None | _ => None end, FSrc (mkSrc (skipn n (c :: rem)) (s_fin s1) sch))) = (x, o, r') ->
        exists d', c :: rem = x ++ d' /\ (length x <= k)%nat /\ (o = None /\ (0 < k -> x <> [])%nat \/ o = Some (s_fin s) /\ d' = []) /\
        exists s', r' = FSrc s' /\ d' = s_rem s' /\ s_fin s' = s_fin s).
    { intros m early sch Hm E1. cbv zeta in E1. inversion E1; subst. exists (skipn (Nat.min k m) (c :: rem)). rewrite firstn_skipn. split; [reflexivity|].
      split; [pose proof (firstn_le _ (Nat.min k m) (c :: rem)); lia|].
      split; [|exists (mkSrc (skipn (Nat.min k m) (c :: rem)) (s_fin s1) sch); auto].
      assert (NE : (0 < k -> firstn (Nat.min k m) (c :: rem) <> [])%nat) by (intros Hk; destruct (Nat.min k m) eqn:En; [lia|discriminate]).
      destruct (skipn (Nat.min k m) (c :: rem)) eqn:Es; [|left; auto].
      destruct early; [right; split; [congruence|reflexivity]|left; auto]. }
    destruct (s_sched s1) as [|[m early] sch].
    + destruct k as [|k].
      * cbn in E. inversion E; subst. exists (c :: rem). split; [reflexivity|]. split; [cbn; lia|]. split; [left; split; [reflexivity|lia]|]. eexists. split; [reflexivity|]. cbn. auto.
      * apply (G (S k) false []); [lia|]. cbv zeta. rewrite Nat.min_id in *. exact E.
    + apply (G (S m) early sch); [lia|exact E].
Qed.
Lemma delivers_buf : forall b, delivers file_read (FBuf b) b EOF.
Proof.
  intros b. apply (delivers_intro _ file_read EOF (fun f d => f = FBuf d)); [|reflexivity].
  intros r d -> k x o r' E. destruct d as [|c d]; cbn [file_read] in E; inversion E; subst.
  - exists []. repeat split; [cbn; lia|right; auto].
  - exists (skipn k (c :: d)). rewrite firstn_skipn. split; [reflexivity|]. split; [apply firstn_le|]. split; [|reflexivity]. left. split; [reflexivity|].
    destruct k; [lia|discriminate].
Qed.
(** io.MultiReader(buf, f) *)
Lemma delivers_multi : forall b f d e, delivers file_read f d e -> delivers file_read (FMulti2 b f) (b ++ d) e.
Proof.
  intros b f d e Hf.
  apply (delivers_intro _ file_read e (fun g x => (exists b' f' d', g = FMulti2 b' f' /\ x = b' ++ d' /\ delivers file_read f' d' e) \/
    (exists f', g = FMulti1 f' /\ delivers file_read f' x e) \/ (g = FMulti0 /\ x = [] /\ e = EOF))); [|left; exists b, f, d; auto].
  assert (LAST : forall f' d' k x o r', delivers file_read f' d' e -> last_reader (file_read k f') = (x, o, r') ->
    exists d'', d' = x ++ d'' /\ (length x <= k)%nat /\ (o = None /\ (0 < k -> x <> [])%nat \/ o = Some e /\ d'' = []) /\
    ((exists b' f' d', r' = FMulti2 b' f' /\ d'' = b' ++ d' /\ delivers file_read f' d' e) \/
     (exists f', r' = FMulti1 f' /\ delivers file_read f' d'' e) \/ (r' = FMulti0 /\ d'' = [] /\ e = EOF))).
  { intros f' d' k x o r' Hd E. unfold last_reader in E. destruct (file_read k f') as [[x1 o1] f1] eqn:E1. inversion E; subst.
    destruct (delivers_step _ _ _ _ _ Hd _ _ _ _ E1) as [d'' [A [B [C D]]]]. exists d''. split; [exact A|]. split; [exact B|]. split; [exact C|]. right.
    destruct C as [[-> _]|[-> ->]]; [left; eauto|]. destruct e; [right; auto|left; eauto|left; eauto]. }
  intros g y [[b' [f' [d' [-> [-> H]]]]]|[[f' [-> H]]|[-> [-> ->]]]] k x o r' E.
  - destruct b' as [|c b']; [apply (LAST f' d' k x o r' H E)|]. cbn [file_read] in E. inversion E; subst.
    exists (skipn k (c :: b') ++ d'). rewrite app_assoc, firstn_skipn. split; [reflexivity|]. split; [apply firstn_le|].
    split; [left; split; [reflexivity|destruct k; [lia|discriminate]]|]. left. eauto 6.
  - apply (LAST f' y k x o r' H E).
  - cbn in E. inversion E; subst. exists []. split; [reflexivity|]. split; [cbn; lia|]. split; [right; auto|]. right. right. auto.
Qed.
(** Running code over a teed reader. *)
Lemma run_tee : forall R (rd : nat -> R -> bytes * option err * R) A (p : prog A) r b,
  exists x, run (tee_read rd) p (r, b) = (fst (run rd p r), (snd (run rd p r), b ++ x)) /\
  (forall d e, delivers rd r d e -> exists d', d = x ++ d' /\ delivers rd (snd (run rd p r)) d' e).
Proof.
  intros R rd A p. induction p as [a|k next IH]; intros r b.
  - exists []. cbn. rewrite app_nil_r. split; [reflexivity|]. intros d e H. exists d. auto.
  - cbn [run]. unfold tee_read at 1. cbn [fst snd]. destruct (rd k r) as [[x o] r'] eqn:E.
    destruct (IH x o r' (b ++ x)) as [y [E2 H]]. exists (x ++ y). rewrite E2, app_assoc. split; [reflexivity|].
    intros d e Hd. destruct (delivers_step _ _ _ _ _ Hd _ _ _ _ E) as [d' [-> [_ [_ D]]]]. destruct (H _ _ D) as [d'' [-> D2]]. exists d''. rewrite app_assoc. auto.
Qed.
(** Reading everything. *)
Lemma read_all_spec : forall R (rd : nat -> R -> bytes * option err * R) sizes fuel r d e, delivers rd r d e -> (length d < fuel)%nat ->
  exists r', read_all rd fuel sizes r = Some (d, match e with EOF => None | e => Some e end, r') /\ delivers rd r' [] e.
Proof.
  intros R rd sizes. induction fuel as [|fuel IH]; intros r d e Hd Hf; [lia|]. cbn [read_all].
  destruct (rd (S (sizes fuel)) r) as [[x o] r'] eqn:E. destruct (delivers_step _ _ _ _ _ Hd _ _ _ _ E) as [d' [-> [B [C D]]]].
  destruct C as [[-> C]|[-> ->]].
  - specialize (C ltac:(lia)). destruct x as [|c x]; [congruence|]. rewrite app_length in Hf. cbn [length] in Hf.
    destruct (IH r' d' e D ltac:(lia)) as [r'' [-> D2]]. exists r''. auto.
  - exists r'. rewrite app_nil_r. destruct e; auto.
Qed.
(** The buffer of a tee over the reads that ReadAll(LimitReader(tee, n)) makes. *)
Lemma read_limited : forall R (rd : nat -> R -> bytes * option err * R) sizes fuel n r b d e, delivers rd r d e -> (n < fuel)%nat ->
  exists o r' d', read_all (limit_read (tee_read rd)) fuel sizes ((r, b), n) = Some (firstn n d, o, ((r', b ++ firstn n d), (n - length d)%nat)) /\
    d = firstn n d ++ d' /\ delivers rd r' d' e /\
    (o = None \/ o = Some e /\ e <> EOF /\ (length d <= n)%nat) /\ ((length d < n)%nat -> e <> EOF -> o = Some e).
Proof.
  intros R rd sizes. induction fuel as [|fuel IH]; intros n r b d e Hd Hf; [lia|]. cbn [read_all]. unfold limit_read at 1. cbn [snd fst].
  destruct n as [|n].
  { exists None, r, d. cbn [firstn app]. rewrite app_nil_r. repeat split; try assumption; [left; reflexivity|lia]. }
  unfold tee_read at 1. cbn [fst snd].
  destruct (rd (Nat.min (S (sizes fuel)) (S n)) r) as [[x o] r'] eqn:E. destruct (delivers_step _ _ _ _ _ Hd _ _ _ _ E) as [d' [-> [B [C D]]]].
  assert (FN : firstn (S n) (x ++ d') = x ++ firstn (S n - length x) d').
  { rewrite firstn_app. f_equal. apply firstn_all2. lia. }
  destruct C as [[-> C]|[-> ->]].
  - specialize (C ltac:(lia)). assert (L : (0 < length x)%nat) by (destruct x; [congruence|cbn; lia]).
    destruct (IH (S n - length x)%nat r' (b ++ x) d' e D ltac:(lia)) as [o [r'' [d'' [E2 [F [G [I J]]]]]]].
    exists o, r'', d''. rewrite E2, FN, app_length, <- !app_assoc, Nat.sub_add_distr. split; [reflexivity|].
    split; [f_equal; exact F|]. split; [exact G|]. split; [destruct I as [I|[I1 [I2 I3]]]; [left; exact I|right; repeat split; [exact I1|exact I2|lia]]|].
    intros L1 L2. apply J; [lia|exact L2].
  - rewrite app_nil_r in *. assert (FX : firstn (S n) x = x) by (apply firstn_all2; lia).
    exists (match e with EOF => None | e => Some e end), r', []. rewrite FX, app_nil_r. split; [destruct e; reflexivity|]. split; [reflexivity|]. split; [exact D|].
    split; [destruct e; [left; reflexivity|right|right]; (split; [reflexivity|]; split; [discriminate|lia])|]. intros _ H. destruct e; [congruence|reflexivity|reflexivity].
Qed.
