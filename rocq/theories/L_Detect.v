(** Readers: how far they advance, and what is left. *)
From Coq Require Import ZArith Lia.
From Verif Require Import Base M_Bufio M_ReplaceCR M_NDJson M_CsvText M_Detect S_Detect L_Bufio L_CsvIn.

(** The source after some reads. *)
Definition adv (s s' : src) : Prop := s_fin s' = s_fin s /\ exists t, s_rem s = t ++ s_rem s'.
Lemma adv_refl : forall s, adv s s.
Proof. intros s. split; [reflexivity|]. exists []. reflexivity. Qed.
Lemma adv_trans : forall a b c, adv a b -> adv b c -> adv a c.
Proof.
  intros a b c [F1 [t1 E1]] [F2 [t2 E2]]. split; [congruence|]. exists (t1 ++ t2). rewrite E1, E2, app_assoc. reflexivity.
Qed.
Lemma read_adv : forall k s d e s', src_read k s = (d, e, s') -> adv s s' /\ s_rem s = d ++ s_rem s'.
Proof.
  intros k [rem fin sch] d e s'. unfold src_read. cbn [s_rem s_fin]. destruct rem as [|x rem].
  - intros H. injection H as <- _ <-. split; [apply adv_refl|reflexivity].
  - destruct (sched_head _ k) as [[m early] sch']. intros H. injection H as <- _ <-. cbn [s_rem s_fin].
    split; [split; [reflexivity|]; exists (firstn (Nat.min k m) (x :: rem)); cbn [s_rem]|]; symmetry; apply firstn_skipn.
Qed.
Lemma adv_taken : forall s s', adv s s' ->
  s_rem s = firstn (length (s_rem s) - length (s_rem s')) (s_rem s) ++ s_rem s'.
Proof.
  intros s s' [_ [t E]]. rewrite E at 1. f_equal. rewrite E, app_length, Nat.add_sub, firstn_app, Nat.sub_diag, firstn_all, app_nil_r. reflexivity.
Qed.
Lemma fill_adv : forall b, adv (b_src b) (b_src (fill b)).
Proof. intros b. unfold fill. destruct (src_read _ _) as [[d e] s'] eqn:E. apply read_adv in E. apply E. Qed.
Lemma read_byte_adv : forall b r b', read_byte b = (r, b') -> adv (b_src b) (b_src b').
Proof.
  intros b r b'. unfold read_byte. destruct (b_buf b); [|intros H; injection H as _ <-; apply adv_refl].
  destruct (b_err b); [intros H; injection H as _ <-; apply adv_refl|]. pose proof (fill_adv b) as A.
  destruct (b_buf (fill b)); [destruct (b_err (fill b))|]; intros H; injection H as _ <-; exact A.
Qed.
Lemma peek_fill_adv : forall f n b, adv (b_src b) (b_src (peek_fill f n b)).
Proof.
  induction f as [|f IH]; intros n b; [apply adv_refl|]. cbn [peek_fill]. destruct (_ && _ && _); [|apply adv_refl].
  eapply adv_trans; [apply fill_adv|apply IH].
Qed.
Lemma peek_adv : forall n b d e b', peek n b = (d, e, b') -> adv (b_src b) (b_src b').
Proof.
  intros n b d e b'. unfold peek. destruct (n <? 0)%Z; [intros H; injection H as _ _ <-; apply adv_refl|].
  pose proof (peek_fill_adv (S (Nat.min (Z.to_nat n) (b_cap b))) (Z.to_nat n) b) as A.
  destruct (_ <? _)%nat; [intros H; injection H as _ _ <-; exact A|].
  destruct (_ <? _)%nat; intros H; injection H as _ _ <-; exact A.
Qed.
Lemma discard_adv : forall n b, adv (b_src b) (b_src (discard n b)).
Proof.
  intros n b. unfold discard. destruct (n <=? 0)%Z; [apply adv_refl|].
  generalize (S (Z.to_nat n)) as f. generalize (Z.to_nat n) as m. intros m f. revert m b.
  induction f as [|f IH]; intros m b; [apply adv_refl|]. cbn [discard_loop].
  assert (A : adv (b_src b) (b_src (if (buffered b =? 0)%nat then fill b else b))) by (destruct (_ =? _)%nat; [apply fill_adv|apply adv_refl]).
  set (b1 := if (buffered b =? 0)%nat then fill b else b) in *. clearbody b1. cbv zeta.
  destruct (_ =? 0)%nat; [exact A|]. cbn [b_err set_buf]. destruct (b_err b1); [exact A|].
  eapply adv_trans; [exact A|]. apply (IH _ (set_buf b1 _)).
Qed.
Lemma run_buf_adv : forall A (p : prog A) b a b', run_buf p b = (a, b') -> adv (b_src b) (b_src b').
Proof.
  induction p as [a|k IH|n k IH|n k IH]; intros b a' b' H; cbn [run_buf] in H.
  - injection H as _ <-. apply adv_refl.
  - destruct (read_byte b) as [r b1] eqn:E. apply read_byte_adv in E. eapply adv_trans; [exact E|]. eapply IH. exact H.
  - destruct (peek n b) as [[d e] b1] eqn:E. apply peek_adv in E. eapply adv_trans; [exact E|]. eapply IH. exact H.
  - eapply adv_trans; [apply discard_adv|]. eapply IH. exact H.
Qed.

(** The three layers under the CSV reader. *)
Definition in_src (b : csvin) : src := b_src (i_inner b).
Definition far (s : src) (a b : csvin) : Prop := a = b /\ adv s (in_src a).
Lemma in_fill_adv : forall osize b, adv (in_src b) (in_src (in_fill osize b)).
Proof. intros osize b. unfold in_fill. destruct (run_buf _ _) as [[o e] inner] eqn:E. apply run_buf_adv in E. exact E. Qed.
Lemma in_slice_adv : forall osize f b, adv (in_src b) (in_src (snd (in_slice osize f b))).
Proof.
  intros osize. induction f as [|f IH]; intros b; [apply adv_refl|]. cbn [in_slice]. destruct (index_byte 10 (i_buf b)); [apply adv_refl|].
  destruct (i_err b); [apply adv_refl|]. destruct (_ <=? _)%nat; [apply adv_refl|]. eapply adv_trans; [apply in_fill_adv|apply IH].
Qed.
Lemma in_join_adv : forall osize f b, adv (in_src b) (in_src (snd (in_join osize f b))).
Proof.
  intros osize. induction f as [|f IH]; intros b; [apply adv_refl|]. cbn [in_join]. pose proof (in_slice_adv osize 2 b) as A.
  destruct (in_slice osize 2 b) as [[[d|d|d e]|] b']; try exact A. specialize (IH b'). cbn [snd] in A.
  destruct (in_join osize f b') as [[[r e]|] b2]; cbn [snd] in *; eapply adv_trans; eassumption.
Qed.
Lemma in_line_adv : forall osize b, adv (in_src b) (in_src (snd (in_line osize b))).
Proof.
  intros osize b. unfold in_line. pose proof (in_join_adv osize (S (in_left b)) b) as A.
  destruct (in_join osize _ b) as [[[l e]|] b']; exact A.
Qed.
Lemma in_read_adv : forall osize lazy trim c r x r', in_read osize lazy trim c r = (x, r') -> adv (in_src (r_st r)) (in_src (r_st r')).
Proof.
  intros osize lazy trim c [w b] x r' H. unfold in_read in H. cbn [r_st] in *.
  assert (L : fwd csvin csvin (far (in_src b)) (in_line osize) (in_line osize)).
  { intros p q [-> A]. destruct (in_line osize q) as [y q'] eqn:E. cbn [fst snd]. split; [reflexivity|].
    split; [reflexivity|]. pose proof (in_line_adv osize q) as B. rewrite E in B. eapply adv_trans; eassumption. }
  destruct (fwd_read _ _ (far (in_src b)) _ _ lazy trim c (2 * in_left b + 4) w b b L) as [y [w' [p [q [E1 [_ [E3 A]]]]]]]; [split; [reflexivity|apply adv_refl]|].
  rewrite E1 in H. injection H as _ <-. exact A.
Qed.

(** Bodies. *)
Lemma holds_split : forall k r T fin d e r', reader_read k r = (d, e, r') ->
  match e with None => d <> [] /\ exists T', T = d ++ T' /\ holds r' T' fin | Some x => d = T /\ x = fin end ->
  forall ks, (Forall (fun k => 0 < k)%nat ks) ->
  match drained (k :: ks) r with
  | (d, None) => (exists rest, T = d ++ rest) /\ (length (k :: ks) <= length d)%nat
  | (d, Some e) => d = T /\ e = fin
  end.
Proof.
  intros k r T fin d e r' E H ks Hks. cbn [drained]. rewrite E. destruct e as [x|]; [exact H|]. destruct H as [Hd [T' [-> H]]].
  specialize (H ks Hks). destruct (drained ks r') as [d' [x|]].
  - destruct H as [<- ->]. auto.
  - destruct H as [[rest ->] HL]. split; [exists rest; apply app_assoc|]. rewrite app_length. cbn [length].
    destruct d; [congruence|]. cbn [length]. lia.
Qed.
Lemma src_progress : forall k s, (0 < k)%nat -> exists d e s', src_read k s = (d, e, s') /\ s_fin s' = s_fin s /\
  s_rem s = d ++ s_rem s' /\ match e with None => d <> [] | Some x => d = s_rem s /\ x = s_fin s /\ s_rem s' = [] end.
Proof.
  intros k [rem fin sch] Hk. unfold src_read. cbn [s_rem s_fin]. destruct rem as [|x rem].
  - do 3 eexists. split; [reflexivity|]. cbn. auto.
  - destruct (sched_head _ k) as [[m early] sch'] eqn:E. do 3 eexists. split; [reflexivity|]. cbn [s_rem s_fin].
    split; [reflexivity|]. split; [symmetry; apply firstn_skipn|].
    assert (Hm : (0 < m)%nat) by (unfold sched_head in E; destruct (s_sched _) as [|[m0 e0] t]; injection E as <- _ _; lia).
    assert (Hn : firstn (Nat.min k m) (x :: rem) <> []) by (destruct (Nat.min k m) eqn:En; [lia|discriminate]).
    destruct (skipn (Nat.min k m) (x :: rem)) as [|y l] eqn:Es; [|exact Hn]. destruct early; [|exact Hn].
    split; [|split; reflexivity]. rewrite <- (firstn_skipn (Nat.min k m) (x :: rem)) at 2. rewrite Es, app_nil_r. reflexivity.
Qed.
Lemma plain_holds : forall s, holds (Plain s) (s_rem s) (s_fin s).
Proof.
  intros s sizes H. revert s. induction H as [|k ks Hk Hks IH]; intros s; [split; [exists (s_rem s); reflexivity|reflexivity]|].
  destruct (src_progress k s Hk) as [d [e [s' [E [F [R P]]]]]].
  cbn [drained reader_read]. rewrite E. destruct e as [x|]; [destruct P as [-> [-> _]]; split; reflexivity|].
  specialize (IH s'). destruct (drained ks (Plain s')) as [d' [x|]].
  - destruct IH as [-> ->]. split; [symmetry; assumption|assumption].
  - destruct IH as [[rest Er] HL]. split; [exists rest; rewrite R, Er; apply app_assoc|]. rewrite app_length. cbn [length]. destruct d; [congruence|]. cbn [length]. lia.
Qed.
(** What a joined reader still gives. *)
Lemma joined_holds : forall b s, holds (Joined (mkJoined b (Some s))) (match b with Some b => b | None => [] end ++ s_rem s) (s_fin s).
Proof.
  intros b s sizes H. revert b s. induction H as [|k ks Hk Hks IH]; intros b s; [split; [eexists; reflexivity|reflexivity]|].
  assert (Second : forall b, match b with Some (_ :: _) => False | _ => True end -> forall d e s', src_read k s = (d, e, s') ->
    joined_read k (mkJoined b (Some s)) = (d, e, mkJoined None (match e with Some EOF => None | _ => Some s' end))).
  { intros [[|c l]|] Hb d e s' E; [| |]; unfold joined_read; cbn [j_src j_buf buffer_read]; rewrite ?E; try reflexivity. destruct Hb. }
  assert (Case2 : match b with Some (_ :: _) => False | _ => True end ->
    match drained (k :: ks) (Joined (mkJoined b (Some s))) with
    | (d, None) => (exists rest, s_rem s = d ++ rest) /\ (length (k :: ks) <= length d)%nat
    | (d, Some e) => d = s_rem s /\ e = s_fin s end).
  { intros Hb. destruct (src_progress k s Hk) as [d [e [s' [E [F [R P]]]]]].
    cbn [drained reader_read]. rewrite (Second b Hb _ _ _ E). destruct e as [x|].
    - destruct P as [-> [-> _]]. auto.
    - specialize (IH None s'). cbn [app] in IH. destruct (drained ks _) as [d' [x|]].
      + destruct IH as [-> ->]. split; [symmetry; assumption|assumption].
      + destruct IH as [[rest Er] HL]. split; [exists rest; rewrite R, Er; apply app_assoc|]. rewrite app_length. cbn [length]. destruct d; [congruence|]. cbn [length]. lia. }
  destruct b as [[|c l]|]; [apply (Case2 I)| |apply (Case2 I)].
  cbn [drained reader_read]. unfold joined_read. cbn [j_buf j_src buffer_read].
  specialize (IH (Some (skipn k (c :: l))) s). destruct (drained ks _) as [d' [x|]].
  - destruct IH as [-> ->]. split; [|reflexivity]. rewrite app_assoc, firstn_skipn. reflexivity.
  - destruct IH as [[rest Er] HL]. split.
    + exists rest. rewrite <- app_assoc, <- Er, app_assoc, firstn_skipn. reflexivity.
    + rewrite app_length. cbn [length]. assert (X : (1 <= length (firstn k (c :: l)))%nat) by (destruct k; [lia|cbn [firstn length]; lia]). lia.
Qed.
