(** bufio operations depend only on the remaining bytes, not on the schedule. *)
From Verif Require Import Base M_Bufio.

(** All bytes still to be delivered. *)
Definition pending (b : bufr) : bytes := b_buf b ++ s_rem (b_src b).

(** Invariant of a buffered reader over a source ending with [fin]. *)
Definition buf_ok (cap : nat) (fin : err) (b : bufr) : Prop :=
  b_cap b = cap /\ (0 < cap)%nat /\ (length (b_buf b) <= cap)%nat /\ s_fin (b_src b) = fin /\
  (forall e, b_err b = Some e -> e = fin /\ s_rem (b_src b) = []).

Lemma new_bufr_ok : forall size s,
  buf_ok (Nat.max 16 size) (s_fin s) (new_bufr size s) /\ pending (new_bufr size s) = s_rem s.
Proof.
  intros. unfold buf_ok, pending, new_bufr; cbn [b_buf b_cap b_err b_src length app]. repeat split; try lia; try congruence.
Qed.

Lemma src_read_spec : forall k s d e s', (0 < k)%nat -> src_read k s = (d, e, s') ->
  d ++ s_rem s' = s_rem s /\ s_fin s' = s_fin s /\ (length d <= k)%nat /\
  (e = None -> d <> []) /\
  (forall x, e = Some x -> x = s_fin s /\ s_rem s' = []).
Proof.
  intros k s d e s' Hk H. unfold src_read in H.
  destruct (s_rem s) as [|c t] eqn:E.
  - injection H as <- <- <-. rewrite E. simpl. repeat split; try lia; try congruence.
  - destruct (sched_head s k) as [[m early] sch] eqn:Es.
    assert (Hm : (0 < m)%nat).
    { unfold sched_head in Es. destruct (s_sched s) as [|[m' e'] t']; injection Es as <- <- <-; lia. }
    injection H as <- <- <-. simpl.
    destruct (Nat.min k m) as [|n] eqn:En; [lia|].
    split; [|split; [|split; [|split]]].
    + apply firstn_skipn.
    + reflexivity.
    + rewrite firstn_length. simpl. lia.
    + simpl. discriminate.
    + intros x Hx. destruct (skipn (S n) (c :: t)); [destruct early|]; try discriminate.
      injection Hx as <-. auto.
Qed.

Lemma fill_spec : forall cap fin b, buf_ok cap fin b -> (length (b_buf b) < cap)%nat ->
  buf_ok cap fin (fill b) /\ pending (fill b) = pending b /\
  ((length (b_buf b) < length (b_buf (fill b)))%nat \/
   (b_buf (fill b) = b_buf b /\ b_err (fill b) = Some fin /\ s_rem (b_src (fill b)) = [])) /\
  (exists d, b_buf (fill b) = b_buf b ++ d).
Proof.
  intros cap fin b [Hc [Hp [Hl [Hf He]]]] Hlt. unfold fill.
  destruct (src_read (b_cap b - length (b_buf b)) (b_src b)) as [[d e] s'] eqn:E.
  apply src_read_spec in E; [|lia]. destruct E as [E1 [E2 [E3 [E4 E5]]]].
  split; [|split; [|split]].
  - unfold buf_ok; simpl. split; [assumption|]. split; [assumption|].
    split; [rewrite app_length; lia|]. split; [congruence|].
    intros e0 H. destruct e as [x|].
    + injection H as <-. destruct (E5 x eq_refl). split; congruence.
    + apply He in H. destruct H as [-> H]. split; [reflexivity|].
      rewrite H in E1. apply app_eq_nil in E1. tauto.
  - unfold pending; simpl. rewrite <- app_assoc, E1. reflexivity.
  - simpl. destruct d as [|c d].
    + right. rewrite app_nil_r. destruct e as [x|]; [|exfalso; apply (E4 eq_refl); reflexivity].
      destruct (E5 x eq_refl) as [-> ?]. rewrite Hf. auto.
    + left. rewrite app_length. simpl. lia.
  - simpl. eauto.
Qed.

Lemma clear_err_ok : forall cap fin b, buf_ok cap fin b -> buf_ok cap fin (clear_err b).
Proof.
  intros cap fin b [H1 [H2 [H3 [H4 H5]]]]. unfold buf_ok, clear_err; simpl. repeat split; auto; try congruence.
Qed.

Lemma pending_clear : forall b, pending (clear_err b) = pending b.
Proof. reflexivity. Qed.

Lemma set_buf_ok : forall cap fin b l, buf_ok cap fin b -> (length l <= length (b_buf b))%nat ->
  buf_ok cap fin (set_buf b l).
Proof.
  intros cap fin b l [H1 [H2 [H3 [H4 H5]]]] Hl. unfold buf_ok, set_buf; simpl. split; [auto|]. split; [auto|]. split; [lia|]. auto.
Qed.

Lemma read_byte_spec : forall cap fin b, buf_ok cap fin b ->
  exists b', buf_ok cap fin b' /\
  match pending b with
  | [] => read_byte b = (Err fin, b') /\ pending b' = []
  | c :: t => read_byte b = (Ok c, b') /\ pending b' = t
  end.
Proof.
  intros cap fin b Hok. unfold read_byte.
  destruct (b_buf b) as [|x t] eqn:Eb.
  - destruct (b_err b) as [e|] eqn:Ee.
    + pose proof Hok as [_ [_ [_ [_ H5]]]]. destruct (H5 _ Ee) as [-> Hr].
      exists (clear_err b). split; [apply clear_err_ok; assumption|].
      rewrite pending_clear. unfold pending. rewrite Eb, Hr. simpl. auto.
    + destruct (fill_spec cap fin b Hok) as [Hok' [Hp [Hd Hx]]].
      { rewrite Eb. simpl. destruct Hok as [_ [? _]]. assumption. }
      destruct (b_buf (fill b)) as [|x t] eqn:Ef.
      * destruct Hd as [Hd|[Hd1 [Hd2 Hd3]]]; [simpl in Hd; lia|].
        rewrite Hd2. exists (clear_err (fill b)). split; [apply clear_err_ok; assumption|].
        rewrite pending_clear, <- Hp. unfold pending at 1. rewrite Ef, Hd3. simpl. split; auto.
        unfold pending. rewrite Ef, Hd3. reflexivity.
      * exists (set_buf (fill b) t). split; [apply set_buf_ok; auto; rewrite Ef; simpl; lia|].
        rewrite <- Hp. unfold pending at 1. rewrite Ef. simpl. split; reflexivity.
  - exists (set_buf b t). split; [apply set_buf_ok; auto; rewrite Eb; simpl; lia|].
    unfold pending at 1. rewrite Eb. simpl. split; reflexivity.
Qed.

Lemma peek_fill_spec : forall fuel n cap fin b, buf_ok cap fin b ->
  (Nat.min n cap < fuel + length (b_buf b))%nat ->
  buf_ok cap fin (peek_fill fuel n b) /\ pending (peek_fill fuel n b) = pending b /\
  (exists d, b_buf (peek_fill fuel n b) = b_buf b ++ d) /\
  ((Nat.min n cap <= length (b_buf (peek_fill fuel n b)))%nat \/
   (s_rem (b_src (peek_fill fuel n b)) = [] /\ b_err (peek_fill fuel n b) = Some fin)).
Proof.
  induction fuel as [|fuel IH]; intros n cap fin b Hok Hf; simpl.
  - split; [assumption|]. split; [reflexivity|]. split; [exists []; rewrite app_nil_r; reflexivity|]. left. lia.
  - pose proof Hok as [Hc [Hp0 [Hl [Hfin He]]]].
    destruct ((buffered b <? n)%nat && (buffered b <? b_cap b)%nat &&
              match b_err b with None => true | Some _ => false end) eqn:E.
    + apply andb_true_iff in E. destruct E as [E E3]. apply andb_true_iff in E. destruct E as [E1 E2].
      apply Nat.ltb_lt in E1, E2. unfold buffered in *. rewrite Hc in E2.
      destruct (b_err b) eqn:Ee; [discriminate|].
      destruct (fill_spec cap fin b Hok E2) as [Hok' [Hp [Hd [d Hx]]]].
      destruct Hd as [Hd|[Hd1 [Hd2 Hd3]]].
      * destruct (IH n cap fin (fill b) Hok') as [I1 [I2 [[d' I3] I4]]]; [lia|].
        split; [assumption|]. split; [congruence|]. split; [|assumption].
        exists (d ++ d'). rewrite I3, Hx, app_assoc. reflexivity.
      * (* error set: loop stops *)
        assert (Hstop : peek_fill fuel n (fill b) = fill b).
        { destruct fuel; [reflexivity|]. simpl. rewrite Hd2. rewrite andb_false_r. reflexivity. }
        rewrite Hstop. split; [assumption|]. split; [assumption|]. split; [eauto|]. right; auto.
    + split; [assumption|]. split; [reflexivity|]. split; [exists []; rewrite app_nil_r; reflexivity|].
      unfold buffered in *.
      destruct (Nat.ltb_spec (length (b_buf b)) n); [|left; lia].
      destruct (Nat.ltb_spec (length (b_buf b)) (b_cap b)); [|left; lia].
      destruct (b_err b) as [e|] eqn:Ee; [|discriminate].
      destruct (He _ eq_refl) as [-> ?]. right; auto.
Qed.

Lemma peek_spec : forall cap fin b n, buf_ok cap fin b ->
  exists b', buf_ok cap fin b' /\ pending b' = pending b /\
  peek n b = (if (n <? 0)%Z then ([], Some err_negative_count, b')
              else if (Z.of_nat cap <? n)%Z then (firstn cap (pending b), Some err_buffer_full, b')
              else if (Z.of_nat (length (pending b)) <? n)%Z then (pending b, Some fin, b')
              else (firstn (Z.to_nat n) (pending b), None, b')).
Proof.
  intros cap fin b n Hok. unfold peek.
  destruct (Z.ltb_spec n 0).
  { exists b. auto. }
  pose proof Hok as [Hc [Hp0 [Hl [Hfin He]]]].
  remember (Z.to_nat n) as n'. rewrite Hc.
  destruct (peek_fill_spec (S (Nat.min n' cap)) n' cap fin b Hok) as [Hok' [Hp [[d Hd] Hx]]]; [lia|].
  remember (peek_fill (S (Nat.min n' cap)) n' b) as b' eqn:Eb'.
  pose proof Hok' as [Hc' [_ [Hl' [Hfin' He']]]].
  destruct (Nat.ltb_spec cap n') as [H1|H1].
  - exists b'. split; [assumption|]. split; [assumption|].
    destruct (Z.ltb_spec (Z.of_nat cap) n); [|lia]. f_equal. f_equal.
    rewrite <- Hp. unfold pending. destruct Hx as [Hx|[Hx _]].
    + rewrite firstn_app_le by lia. rewrite firstn_all2; [reflexivity|lia].
    + rewrite Hx, app_nil_r. rewrite firstn_all2; [reflexivity|lia].
  - destruct (Z.ltb_spec (Z.of_nat cap) n); [lia|].
    unfold buffered. destruct (Nat.ltb_spec (length (b_buf b')) n') as [H2|H2].
    + destruct Hx as [Hx|[Hx1 Hx2]]; [lia|]. rewrite Hx2.
      exists (clear_err b'). split; [apply clear_err_ok; assumption|]. split; [rewrite pending_clear; assumption|].
      rewrite <- Hp. unfold pending. rewrite Hx1, app_nil_r.
      destruct (Z.ltb_spec (Z.of_nat (length (b_buf b'))) n); [reflexivity|lia].
    + exists b'. split; [assumption|]. split; [assumption|].
      rewrite <- Hp. unfold pending. rewrite app_length.
      destruct (Z.ltb_spec (Z.of_nat (length (b_buf b') + length (s_rem (b_src b')))) n); [lia|].
      rewrite firstn_app_le by lia. reflexivity.
Qed.

Lemma discard_loop_spec : forall fuel remain cap fin b, buf_ok cap fin b -> (0 < remain)%nat ->
  (remain < fuel)%nat ->
  buf_ok cap fin (discard_loop fuel remain b) /\
  pending (discard_loop fuel remain b) = skipn remain (pending b).
Proof.
  induction fuel as [|fuel IH]; intros remain cap fin b Hok Hr Hf; [lia|]. simpl.
  set (b1 := if (buffered b =? 0)%nat then fill b else b).
  assert (H1 : buf_ok cap fin b1 /\ pending b1 = pending b /\
               ((0 < length (b_buf b1))%nat \/ (b_err b1 = Some fin /\ pending b = []))).
  { unfold b1, buffered. destruct (Nat.eqb_spec (length (b_buf b)) 0) as [E|E].
    - destruct (fill_spec cap fin b Hok) as [A [B [C D]]]; [destruct Hok as [_ [? _]]; lia|].
      split; [assumption|]. split; [assumption|].
      destruct C as [C|[C1 [C2 C3]]]; [left; lia|right]. split; [assumption|].
      rewrite <- B. unfold pending. rewrite C1, C3. apply length_zero_iff_nil in E. rewrite E. reflexivity.
    - split; [assumption|]. split; [reflexivity|]. left; lia. }
  clearbody b1. destruct H1 as [Hok1 [Hp1 Hd1]].
  set (skip := Nat.min (buffered b1) remain).
  assert (Hskip : (skip <= length (b_buf b1))%nat) by (unfold skip, buffered; lia).
  assert (Hok2 : buf_ok cap fin (set_buf b1 (skipn skip (b_buf b1)))).
  { apply set_buf_ok; auto. rewrite skipn_length. lia. }
  assert (Hp2 : pending (set_buf b1 (skipn skip (b_buf b1))) = skipn skip (pending b)).
  { rewrite <- Hp1. unfold pending; simpl. rewrite skipn_app_le by assumption. reflexivity. }
  destruct (Nat.eqb_spec (remain - skip) 0) as [E|E].
  - split; [assumption|]. rewrite Hp2. f_equal. unfold skip, buffered in *. lia.
  - assert (Hall : skip = length (b_buf b1)) by (unfold skip, buffered in *; lia).
    change (b_err (set_buf b1 (skipn skip (b_buf b1)))) with (b_err b1).
    destruct (b_err b1) as [e|] eqn:Ee.
    + pose proof Hok1 as [_ [_ [_ [_ He]]]]. destruct (He _ Ee) as [-> Hrem].
      split; [apply clear_err_ok; assumption|]. rewrite pending_clear, Hp2.
      rewrite <- Hp1. unfold pending. rewrite Hrem, app_nil_r.
      rewrite !skipn_all2; try reflexivity; lia.
    + destruct Hd1 as [Hd1|[Hd1 _]]; [|congruence].
      destruct (IH (remain - skip)%nat cap fin _ Hok2) as [I1 I2]; [lia|lia|].
      split; [assumption|]. rewrite I2, Hp2.
      rewrite skipn_skipn'. f_equal. lia.
Qed.

Lemma discard_spec : forall cap fin b n, buf_ok cap fin b ->
  buf_ok cap fin (discard n b) /\ pending (discard n b) = skipn (Z.to_nat n) (pending b).
Proof.
  intros cap fin b n Hok. unfold discard. destruct (Z.leb_spec n 0).
  - split; [assumption|]. replace (Z.to_nat n) with O by lia. reflexivity.
  - apply discard_loop_spec; auto; lia.
Qed.

(** Simulation: for every program, schedule and buffer contents. *)
Theorem run_buf_list : forall A (p : prog A) cap fin b, buf_ok cap fin b ->
  exists b', run_buf p b = (fst (run_list cap fin p (pending b)), b') /\
             buf_ok cap fin b' /\ pending b' = snd (run_list cap fin p (pending b)).
Proof.
  intros A p. induction p as [a|k IH|n k IH|n k IH]; intros cap fin b Hok; simpl.
  - exists b. auto.
  - destruct (read_byte_spec cap fin b Hok) as [b1 [Hok1 H1]].
    destruct (pending b) as [|c t]; destruct H1 as [H1 H2]; rewrite H1.
    + destruct (IH (Err fin) cap fin b1 Hok1) as [b' [I1 [I2 I3]]]. rewrite H2 in *. exists b'. auto.
    + destruct (IH (Ok c) cap fin b1 Hok1) as [b' [I1 [I2 I3]]]. rewrite H2 in *. exists b'. auto.
  - destruct (peek_spec cap fin b n Hok) as [b1 [Hok1 [Hp1 H1]]]. rewrite H1. rewrite <- Hp1. clear H1.
    destruct (n <? 0)%Z; [|destruct (Z.of_nat cap <? n)%Z; [|destruct (Z.of_nat (length (pending b1)) <? n)%Z]];
      rewrite ?Hp1; rewrite <- ?Hp1;
      match goal with |- context [run_buf (k ?d ?e) b1] =>
        destruct (IH d e cap fin b1 Hok1) as [b' [I1 [I2 I3]]]; exists b'; auto end.
  - destruct (discard_spec cap fin b n Hok) as [Hok1 Hp1].
    destruct (IH cap fin (discard n b) Hok1) as [b' [I1 [I2 I3]]].
    rewrite Hp1 in *. exists b'. auto.
Qed.

Lemma run_list_bind : forall A B (p : prog A) (f : A -> prog B) cap fin s,
  run_list cap fin (pbind p f) s =
  let '(a, s') := run_list cap fin p s in run_list cap fin (f a) s'.
Proof.
  intros A B p f cap fin. induction p as [a|k IH|n k IH|n k IH]; intros s; simpl.
  - reflexivity.
  - destruct s; apply IH.
  - repeat match goal with |- context [if ?c then _ else _] => destruct c end; apply IH.
  - apply IH.
Qed.
