(** The buffer layer of the JSON reader computes the same as the list reader, wherever the buffer
    boundaries fall. *)
From Verif Require Import Base M_Bufio L_Bufio M_Json S_JsonPure.

Definition jok (cap : nat) (fin : err) (st : jst) : Prop :=
  (16 <= cap)%nat /\ buf_ok cap fin (j_buf st).

Lemma discard_buf : forall b n, (0 <= n <= Z.of_nat (length (b_buf b)))%Z ->
  discard n b = b /\ n = 0%Z \/ discard n b = set_buf b (skipn (Z.to_nat n) (b_buf b)).
Proof.
  intros b n H. unfold discard. destruct (Z.leb_spec n 0); [left; split; [reflexivity|lia]|right].
  cbn [discard_loop]. unfold buffered.
  destruct (Nat.eqb_spec (length (b_buf b)) 0); [lia|].
  replace (Nat.min (length (b_buf b)) (Z.to_nat n)) with (Z.to_nat n) by lia.
  rewrite Nat.sub_diag. reflexivity.
Qed.

Lemma discard_within : forall cap fin b n, buf_ok cap fin b -> (0 <= n <= Z.of_nat (length (b_buf b)))%Z ->
  buf_ok cap fin (discard n b) /\ b_buf (discard n b) = skipn (Z.to_nat n) (b_buf b) /\
  pending (discard n b) = skipn (Z.to_nat n) (pending b) /\ b_src (discard n b) = b_src b.
Proof.
  intros cap fin b n Hok Hn. destruct (discard_spec cap fin b n Hok) as [H1 H2].
  split; [assumption|]. destruct (discard_buf b n Hn) as [[E ->]|E]; rewrite E.
  - auto.
  - split; [reflexivity|]. split; [|reflexivity]. rewrite <- E. assumption.
Qed.

Lemma peek_buffered : forall cap fin b, buf_ok cap fin b ->
  peek (Z.of_nat (buffered b)) b = (b_buf b, None, b).
Proof.
  intros cap fin b [Hc [H0 [Hl _]]]. unfold peek, buffered.
  destruct (Z.ltb_spec (Z.of_nat (length (b_buf b))) 0); [lia|].
  rewrite Nat2Z.id. cbn [peek_fill]. unfold buffered.
  rewrite Nat.ltb_irrefl. cbn [andb]. rewrite Hc.
  destruct (Nat.ltb_spec cap (length (b_buf b))); [lia|].
  rewrite Nat.ltb_irrefl, firstn_all. reflexivity.
Qed.

Lemma peek_block : forall cap fin b, (16 <= cap)%nat -> buf_ok cap fin b ->
  let b' := snd (peek block_size b) in
  buf_ok cap fin b' /\ pending b' = pending b /\ (exists d, b_buf b' = b_buf b ++ d) /\
  ((16 <= length (b_buf b'))%nat \/ s_rem (b_src b') = []).
Proof.
  intros cap fin b Hcap Hok. unfold peek.
  destruct (Z.ltb_spec block_size 0); [unfold block_size in *; lia|].
  pose proof Hok as [Hc [Hp0 [Hl [Hfin He]]]].
  remember (Z.to_nat block_size) as n'.
  assert (Hn : (16 <= n')%nat) by (unfold block_size in *; lia). rewrite Hc.
  destruct (peek_fill_spec (Datatypes.S (Nat.min n' cap)) n' cap fin b Hok) as [Hok' [Hp [Hd Hx]]]; [lia|].
  remember (peek_fill (Datatypes.S (Nat.min n' cap)) n' b) as b' eqn:Eb'.
  assert (Hx' : (16 <= length (b_buf b'))%nat \/ s_rem (b_src b') = []).
  { destruct Hx as [Hx|[Hx _]]; [left; lia|right; assumption]. }
  destruct (Nat.ltb_spec cap n').
  - cbn [snd]. auto.
  - destruct (Nat.ltb_spec (buffered b') n'); cbn [snd].
    + split; [apply clear_err_ok; assumption|]. split; [rewrite pending_clear; assumption|]. auto.
    + auto.
Qed.

(** [base] is the text from the start of the current call on; [buff] is its known prefix: bytes already
    discarded from the bufio.Reader ([prevSize] many) followed by the buffered ones. *)
Definition ext (cap : nat) (fin : err) (base buff : bytes) (st : jst) : Prop :=
  jok cap fin st /\
  exists pre, buff = pre ++ b_buf (j_buf st) /\ Z.of_nat (length pre) = j_prev st /\
              base = pre ++ pending (j_buf st).

Lemma ext_prefix : forall cap fin base buff st, ext cap fin base buff st ->
  base = buff ++ s_rem (b_src (j_buf st)) /\ (length buff <= length base)%nat /\
  (0 <= j_prev st <= Z.of_nat (length buff))%Z.
Proof.
  intros cap fin base buff st [_ [pre [-> [H2 ->]]]]. unfold pending.
  rewrite <- app_assoc. split; [reflexivity|]. rewrite !app_length. lia.
Qed.

Lemma extend_spec : forall cap fin base buff st, ext cap fin base buff st ->
  exists buff' more st', extend_buffer buff st = (buff', more, st') /\
  ext cap fin base buff' st' /\ j_prev st' = Z.of_nat (length buff) /\
  ((more = true /\ (length buff < length buff')%nat /\ ((length buff + 16 <= length buff')%nat \/ buff' = base)) \/
   (more = false /\ buff' = buff /\ buff = base /\ pending (j_buf st') = [])).
Proof.
  intros cap fin base buff st [[Hcap Hok] [pre [Hb [Hpre Hbase]]]].
  unfold extend_buffer.
  destruct (discard_within cap fin (j_buf st) (Z.of_nat (buffered (j_buf st))) Hok) as [D1 [D2 [D3 _]]];
    [unfold buffered; lia|].
  set (b1 := discard (Z.of_nat (buffered (j_buf st))) (j_buf st)) in *. clearbody b1.
  unfold buffered in D2, D3. rewrite Nat2Z.id in D2, D3. rewrite skipn_all in D2.
  destruct (peek_block cap fin b1 Hcap D1) as [P1 [P2 [[d P3] P4]]].
  set (b2 := snd (peek block_size b1)) in *. clearbody b2.
  rewrite D2 in P3. cbn in P3.
  assert (Hp2 : pending b2 = s_rem (b_src (j_buf st))).
  { rewrite P2, D3. unfold pending. rewrite skipn_app_le by lia. rewrite skipn_all. reflexivity. }
  assert (Hprev : (j_prev st + Z.of_nat (buffered (j_buf st)))%Z = Z.of_nat (length buff)).
  { rewrite Hb, app_length. unfold buffered. lia. }
  rewrite Hprev.
  destruct (Z.ltb_spec 0 (Z.of_nat (buffered b2))) as [Hz|Hz].
  - rewrite (peek_buffered cap fin b2 P1).
    exists (buff ++ b_buf b2), true, (mkJst b2 (Z.of_nat (length buff))).
    split; [reflexivity|]. split; [|split; [reflexivity|]].
    + split; [split; assumption|]. exists buff. cbn [j_buf j_prev]. split; [reflexivity|]. split; [reflexivity|].
      rewrite Hbase, Hb. rewrite Hp2. unfold pending. rewrite app_assoc. reflexivity.
    + left. split; [reflexivity|]. unfold buffered in Hz. rewrite app_length. split; [lia|].
      destruct P4 as [P4|P4]; [left; lia|right].
      rewrite Hbase, Hb. unfold pending. rewrite <- Hp2. unfold pending. rewrite P4, app_nil_r, <- app_assoc. reflexivity.
  - assert (Hb2 : b_buf b2 = []) by (apply length_zero_iff_nil; unfold buffered in Hz; lia).
    exists buff, false, (mkJst b2 (Z.of_nat (length buff))).
    assert (Hrem : pending b2 = []).
    { unfold pending. rewrite Hb2. destruct P4 as [P4|P4]; [rewrite Hb2 in P4; cbn in P4; lia|exact P4]. }
    assert (Hbb : base = buff).
    { rewrite Hbase, Hb. unfold pending. rewrite <- Hp2, Hrem, app_nil_r. reflexivity. }
    split; [reflexivity|]. split; [|split; [reflexivity|]].
    + split; [split; assumption|]. exists buff. cbn [j_buf j_prev]. rewrite Hb2, app_nil_r.
      split; [reflexivity|]. split; [reflexivity|]. rewrite Hrem, app_nil_r. assumption.
    + right. cbn [j_buf]. auto.
Qed.

(** One step of the scanning loops: look at position [i], extending the buffer if needed. *)
Lemma look_spec : forall cap fin base buff st i, ext cap fin base buff st -> (j_prev st <= Z.of_nat i)%Z ->
  exists buff' more st',
  (if (length buff <=? i)%nat then extend_buffer buff st else (buff, true, st)) = (buff', more, st') /\
  ext cap fin base buff' st' /\ (j_prev st' <= Z.of_nat i)%Z /\ (length buff <= length buff')%nat /\
  ((more = true /\ ((i < length buff')%nat \/ buff' = base /\ (length buff <= i)%nat \/ (length buff + 16 <= i)%nat)) \/
   (more = false /\ buff' = base /\ (length base <= i)%nat /\ pending (j_buf st') = [] /\
    j_prev st' = Z.of_nat (length base))).
Proof.
  intros cap fin base buff st i He Hi. destruct (Nat.leb_spec (length buff) i) as [L|L].
  - destruct (extend_spec cap fin base buff st He) as [buff' [more [st' [E1 [E2 [E3 E4]]]]]].
    exists buff', more, st'. split; [exact E1|]. split; [exact E2|]. split; [lia|].
    destruct E4 as [[-> [E4 E5]]|[-> [E4 [E5 E6]]]].
    + split; [lia|]. left. split; [reflexivity|].
      destruct E5 as [E5|E5]; [|right; left; split; assumption].
      destruct (Nat.ltb_spec i (length buff')); [left; assumption|right; right; lia].
    + split; [subst; lia|]. right. subst. auto.
  - exists buff, true, st. split; [reflexivity|]. split; [assumption|]. split; [assumption|]. split; [lia|].
    left. split; [reflexivity|]. left; assumption.
Qed.

Lemma ext_nth : forall cap fin base buff st i, ext cap fin base buff st -> (i < length buff)%nat ->
  exists c, nth_error buff i = Some c /\ skipn i base = c :: skipn (Datatypes.S i) base.
Proof.
  intros cap fin base buff st i He Hi.
  destruct (ext_prefix _ _ _ _ _ He) as [Hb _].
  destruct (nth_error buff i) as [c|] eqn:E; [|apply nth_error_None in E; lia].
  exists c. split; [reflexivity|]. rewrite Hb.
  destruct (nth_error_split buff i E) as [l1 [l2 [E1 E2]]]. subst buff i.
  rewrite <- app_assoc. rewrite skipn_app_le by lia. rewrite skipn_all. cbn [app].
  replace (Datatypes.S (length l1)) with (length (l1 ++ [c])) by (rewrite app_length; cbn; lia).
  change (l1 ++ c :: l2 ++ s_rem (b_src (j_buf st))) with (l1 ++ [c] ++ l2 ++ s_rem (b_src (j_buf st))).
  rewrite (app_assoc l1 [c]). rewrite skipn_app_le by lia. rewrite skipn_all. reflexivity.
Qed.

(** Consuming the first [i] bytes of [base]. *)
Lemma ext_consume : forall cap fin base buff st i, ext cap fin base buff st ->
  (j_prev st <= Z.of_nat i)%Z -> (i <= length buff)%nat ->
  let b' := discard (Z.of_nat i - j_prev st) (j_buf st) in
  buf_ok cap fin b' /\ b_buf b' = skipn i buff /\ pending b' = skipn i base.
Proof.
  intros cap fin base buff st i [[Hcap Hok] [pre [Hb [Hpre Hbase]]]] Hi Hl b'.
  rewrite Hb, app_length in Hl.
  destruct (discard_within cap fin (j_buf st) (Z.of_nat i - j_prev st)%Z Hok) as [D1 [D2 [D3 _]]]; [lia|].
  fold b' in D1, D2, D3. split; [assumption|].
  assert (Hsk : forall r, skipn i (pre ++ r) = skipn (Z.to_nat (Z.of_nat i - j_prev st)) r).
  { intros r. rewrite skipn_app. rewrite skipn_all2 by lia. cbn [app]. f_equal. lia. }
  rewrite D2, D3, Hb, Hbase, !Hsk. split; reflexivity.
Qed.

Lemma skip_ws_all : forall s t, Forall (fun c => is_ws c = true) s -> skip_ws (s ++ t) = skip_ws t.
Proof. induction s as [|c s IH]; intros t H; [reflexivity|]. inversion H; subst. cbn. rewrite H2. apply IH; assumption. Qed.

Lemma ws_loop_spec : forall fuel cap fin base buff st skip, ext cap fin base buff st ->
  (j_prev st <= Z.of_nat skip)%Z -> (skip <= length buff)%nat -> (length base - skip < fuel)%nat ->
  exists skip' buff' st', ws_loop fuel skip buff st = Ok (skip', buff', st') /\
  ext cap fin base buff' st' /\ (j_prev st' <= Z.of_nat skip')%Z /\ (skip' <= length buff')%nat /\
  skipn skip' base = skip_ws (skipn skip base) /\
  ((skip' < length buff')%nat \/ skipn skip' base = []).
Proof.
  induction fuel as [|fuel IH]; intros cap fin base buff st skip He Hp Hs Hf; [lia|].
  cbn [ws_loop].
  destruct (look_spec cap fin base buff st skip He Hp) as [buff' [more [st' [E1 [E2 [E3 [E4 E5]]]]]]].
  rewrite E1. destruct E5 as [[-> E5]|[-> [E5 [E6 [E7 E8]]]]]; cbn [negb].
  - assert (Hlt : (skip < length buff')%nat).
    { destruct E5 as [E5|[[E5 E6]|E5]]; try lia.
      assert (skip = length buff) by lia.
      destruct (extend_spec cap fin base buff st He) as [bf [mr [st2 [F1 [F2 [F3 F4]]]]]].
      rewrite (proj2 (Nat.leb_le _ _) E6) in E1. rewrite E1 in F1. inversion F1; subst bf mr st2.
      destruct F4 as [[_ [F4 _]]|[F4 _]]; [lia|discriminate]. }
    destruct (ext_nth cap fin base buff' st' skip E2 Hlt) as [c [N1 N2]]. rewrite N1, N2. cbn [skip_ws].
    destruct (is_ws c).
    + destruct (ext_prefix _ _ _ _ _ E2) as [_ [L _]].
      destruct (IH cap fin base buff' st' (Datatypes.S skip) E2) as [s2 [bf2 [st2 [I1 [I2 [I3 [I4 [I5 I6]]]]]]]]; try lia.
      exists s2, bf2, st2. auto 10.
    + exists skip, buff', st'. split; [reflexivity|]. split; [assumption|]. split; [assumption|]. split; [lia|].
      split; [assumption|left; assumption].
  - subst buff'. exists skip, base, st'. split; [reflexivity|]. split; [assumption|]. split; [assumption|].
    split; [lia|]. rewrite skipn_all2 by lia. split; [reflexivity|right; reflexivity].
Qed.

Definition ready (cap : nat) (fin : err) (s : bytes) (st : jst) : Prop :=
  ext cap fin s (b_buf (j_buf st)) st /\ j_prev st = 0%Z /\ (b_buf (j_buf st) = [] -> s = []).

Lemma current_buffer_spec : forall cap fin st, jok cap fin st ->
  exists st', current_buffer st = Ok (b_buf (j_buf st'), st') /\
              ready cap fin (skip_ws (pending (j_buf st))) st' .
Proof.
  intros cap fin st [Hcap Hok]. unfold current_buffer. rewrite (peek_buffered cap fin _ Hok).
  assert (He : ext cap fin (pending (j_buf st)) (b_buf (j_buf st)) (mkJst (j_buf st) 0)).
  { split; [split; assumption|]. exists []. cbn. auto. }
  destruct (ws_loop_spec (Datatypes.S (Datatypes.S (unread (j_buf st)))) cap fin _ _ _ O He) as
    [skip [buff [st2 [I1 [I2 [I3 [I4 [I5 I6]]]]]]]].
  { cbn. lia. } { lia. } { unfold pending, unread. rewrite app_length. lia. }
  rewrite I1. cbn [skipn] in I5.
  destruct (Nat.ltb_spec 0 skip) as [L|L].
  - destruct (ext_consume cap fin _ _ _ skip I2 I3 I4) as [C1 [C2 C3]].
    set (b' := discard (Z.of_nat skip - j_prev st2) (j_buf st2)) in *. clearbody b'.
    exists (mkJst b' 0). cbn [j_buf]. rewrite C2. split; [reflexivity|].
    unfold ready. cbn [j_buf j_prev]. rewrite <- I5, <- C3. split; [|split; [reflexivity|]].
    + split; [split; assumption|]. exists []. cbn. auto.
    + intros Hn. rewrite C2 in Hn. destruct I6 as [I6|I6]; [|rewrite C3; assumption].
      apply (f_equal (@length N)) in Hn. rewrite skipn_length in Hn. cbn in Hn. lia.
  - assert (skip = O) by lia. subst skip. cbn [skipn] in *.
    pose proof I2 as [Hj2 [pre [Hb [Hpre Hbase]]]].
    assert (pre = []) by (apply length_zero_iff_nil; lia). subst pre. cbn [app length Z.of_nat] in Hb, Hpre, Hbase.
    exists st2. rewrite Hb. split; [reflexivity|]. unfold ready. rewrite <- I5.
    split; [rewrite <- Hb; exact I2|]. split; [lia|].
    intros Hn. rewrite <- Hb in Hn. destruct I6 as [I6|I6]; [rewrite Hn in I6; cbn in I6; lia|assumption].
Qed.

Lemma ready_jok : forall cap fin s st, ready cap fin s st -> jok cap fin st /\ pending (j_buf st) = s.
Proof.
  intros cap fin s st [[Hj [pre [Hb [Hpre Hbase]]]] [Hz _]]. split; [assumption|].
  assert (pre = []) by (apply length_zero_iff_nil; lia). subst pre. cbn in Hbase. auto.
Qed.

(** readTokenChar *)
Lemma j_tok_spec : forall cap fin st ch, jok cap fin st ->
  exists st', j_tok ch st = Ok (match skip_ws (pending (j_buf st)) with
                                | c :: _ => N.eqb c ch
                                | [] => false end, st') /\ jok cap fin st' /\
              pending (j_buf st') = match skip_ws (pending (j_buf st)) with
                                    | c :: t => if N.eqb c ch then t else c :: t
                                    | [] => [] end.
Proof.
  intros cap fin st ch Hj. unfold j_tok, with_buffer.
  destruct (current_buffer_spec cap fin st Hj) as [st' [E HR]]. rewrite E.
  destruct (ready_jok _ _ _ _ HR) as [Hj' Hp'].
  set (s := skip_ws (pending (j_buf st))) in *. clearbody s.
  destruct HR as [He [Hz Hn]].
  destruct (ext_prefix _ _ _ _ _ He) as [Hb _].
  destruct (b_buf (j_buf st')) as [|c t] eqn:Eb.
  - rewrite (Hn eq_refl) in *. exists st'. split; [reflexivity|]. auto.
  - rewrite Hb. cbn [app]. destruct (N.eqb c ch) eqn:Ec.
    + pose proof Hj' as [Hcap Hok'].
      destruct (discard_within cap fin (j_buf st') 1 Hok') as [D1 [D2 [D3 _]]]; [rewrite Eb; cbn [length]; lia|].
      exists (mkJst (discard 1 (j_buf st')) (j_prev st')). split; [reflexivity|].
      split; [split; assumption|]. cbn [j_buf]. rewrite D3, Hp', Hb. reflexivity.
    + exists st'. split; [reflexivity|]. split; [assumption|]. rewrite Hp', Hb. reflexivity.
Qed.

Lemma j_skip_spec : forall cap fin st, jok cap fin st ->
  exists st', j_skip st = Ok (tt, st') /\ jok cap fin st' /\ pending (j_buf st') = skip_ws (pending (j_buf st)).
Proof.
  intros cap fin st Hj. unfold j_skip, with_buffer.
  destruct (current_buffer_spec cap fin st Hj) as [st' [E HR]]. rewrite E.
  destruct (ready_jok _ _ _ _ HR) as [Hj' Hp']. exists st'. auto.
Qed.

Lemma j_peek_spec : forall cap fin st, jok cap fin st ->
  exists st', j_peek st = Ok (hd 0%N (skip_ws (pending (j_buf st))), st') /\ jok cap fin st' /\
              pending (j_buf st') = skip_ws (pending (j_buf st)).
Proof.
  intros cap fin st Hj. unfold j_peek, with_buffer.
  destruct (current_buffer_spec cap fin st Hj) as [st' [E HR]]. rewrite E.
  destruct (ready_jok _ _ _ _ HR) as [Hj' Hp']. exists st'.
  split; [|auto]. f_equal. f_equal. destruct HR as [He [_ Hn]].
  destruct (ext_prefix _ _ _ _ _ He) as [Hb _].
  destruct (b_buf (j_buf st')) as [|c t]; [rewrite (Hn eq_refl); reflexivity|].
  rewrite Hb. reflexivity.
Qed.

(** Numbers *)
Lemma num_loop_spec : forall fuel cap fin base buff st i, ext cap fin base buff st ->
  (j_prev st <= Z.of_nat i)%Z -> (i <= length buff)%nat -> (length base - i < fuel)%nat ->
  exists i' buff' st', num_loop fuel i buff st = Ok (i', buff', st') /\
  ext cap fin base buff' st' /\ (j_prev st' <= Z.of_nat i')%Z /\ (i' <= length buff')%nat /\
  (i <= i')%nat /\
  num_span (skipn i base) = (firstn (i' - i) (skipn i base), skipn i' base).
Proof.
  induction fuel as [|fuel IH]; intros cap fin base buff st i He Hp Hs Hf; [lia|].
  cbn [num_loop].
  destruct (look_spec cap fin base buff st i He Hp) as [buff' [more [st' [E1 [E2 [E3 [E4 E5]]]]]]].
  rewrite E1. destruct E5 as [[-> E5]|[-> [E5 [E6 [E7 E8]]]]]; cbn [negb].
  - assert (Hlt : (i < length buff')%nat).
    { destruct E5 as [E5|[[E5 E6]|E5]]; try lia.
      destruct (extend_spec cap fin base buff st He) as [bf [mr [st2 [F1 [F2 [F3 F4]]]]]].
      rewrite (proj2 (Nat.leb_le _ _) E6) in E1. rewrite E1 in F1. inversion F1; subst bf mr st2.
      destruct F4 as [[_ [F4 _]]|[F4 _]]; [lia|discriminate]. }
    destruct (ext_nth cap fin base buff' st' i E2 Hlt) as [c [N1 N2]]. rewrite N1, N2. cbn [num_span].
    destruct (is_num_char c) eqn:Ec.
    + destruct (ext_prefix _ _ _ _ _ E2) as [_ [L _]].
      destruct (IH cap fin base buff' st' (Datatypes.S i) E2) as [s2 [bf2 [st2 [I1 [I2 [I3 [I4 [I5 I6]]]]]]]]; try lia.
      exists s2, bf2, st2. split; [assumption|]. split; [assumption|]. split; [assumption|]. split; [assumption|].
      split; [lia|]. rewrite I6. replace (s2 - i)%nat with (Datatypes.S (s2 - Datatypes.S i)) by lia. reflexivity.
    + exists i, buff', st'. split; [reflexivity|]. split; [assumption|]. split; [assumption|]. split; [lia|].
      split; [lia|]. rewrite Nat.sub_diag, N2. reflexivity.
  - subst buff'. exists i, base, st'. split; [reflexivity|]. split; [assumption|]. split; [assumption|].
    split; [lia|]. split; [lia|]. rewrite Nat.sub_diag. rewrite skipn_all2 by lia. reflexivity.
Qed.

Lemma ext_firstn : forall cap fin base buff st i, ext cap fin base buff st -> (i <= length buff)%nat ->
  firstn i buff = firstn i base.
Proof.
  intros cap fin base buff st i He Hi. destruct (ext_prefix _ _ _ _ _ He) as [Hb _]. rewrite Hb.
  rewrite firstn_app_le by lia. reflexivity.
Qed.

Lemma j_num_spec : forall cap fin st, jok cap fin st ->
  exists st', j_num st = Ok (fst (num_span (skip_ws (pending (j_buf st)))), st') /\ jok cap fin st' /\
              pending (j_buf st') = snd (num_span (skip_ws (pending (j_buf st)))).
Proof.
  intros cap fin st Hj. unfold j_num, with_buffer.
  destruct (current_buffer_spec cap fin st Hj) as [st' [E HR]]. rewrite E.
  destruct (ready_jok _ _ _ _ HR) as [Hj' Hp'].
  set (s := skip_ws (pending (j_buf st))) in *. clearbody s.
  destruct HR as [He [Hz Hn]].
  destruct (num_loop_spec (Datatypes.S (Datatypes.S (length (b_buf (j_buf st')) + unread (j_buf st'))))
              cap fin s _ _ O He) as [i [buff [st2 [I1 [I2 [I3 [I4 [I5 I6]]]]]]]].
  { lia. } { lia. } { destruct (ext_prefix _ _ _ _ _ He) as [Hb _]. rewrite Hb at 1. unfold unread.
    rewrite app_length. lia. }
  rewrite I1. cbn [skipn] in I6. rewrite Nat.sub_0_r in I6. rewrite I6. cbn [fst snd].
  destruct (Nat.ltb_spec 0 i).
  - destruct (ext_consume cap fin _ _ _ i I2 I3 I4) as [C1 [C2 C3]].
    unfold extract. rewrite (ext_firstn _ _ _ _ _ _ I2 I4).
    eexists. split; [reflexivity|]. cbn [j_buf]. split; [|assumption].
    split; [destruct Hj; assumption|assumption].
  - assert (i = O) by lia. subst i. cbn [firstn skipn].
    exists st2. split; [reflexivity|]. pose proof I2 as [Hj2 [pre [Hb [Hpre Hbase]]]].
    assert (pre = []) by (apply length_zero_iff_nil; lia). subst pre. split; [assumption|].
    rewrite Hbase. reflexivity.
Qed.

(** Strings *)

(** The input stops right after an escaped character. *)
Definition ends_escaped (s : bytes) : Prop := exists pre c, s = pre ++ [92%N; c].

Lemma str_loop_spec : forall fuel cap fin base buff st i, ext cap fin base buff st ->
  (j_prev st <= Z.of_nat i)%Z ->
  ((i <= length buff)%nat \/
   (i = Datatypes.S (length buff) /\ exists l, firstn (length buff) base = l ++ [92%N])) -> (Datatypes.S (length base) - i < fuel)%nat ->
  match str_span (skipn i base) with
  | Some (a, b) =>
      exists st', str_loop fuel i buff st = Ok (inl (firstn i base ++ a ++ [34%N]), st') /\ jok cap fin st' /\
                  pending (j_buf st') = b
  | None => str_loop fuel i buff st = Panic /\ ends_escaped base \/
            exists st', str_loop fuel i buff st = Ok (inr err_closing, st') /\ jok cap fin st' /\
                        pending (j_buf st') = []
  end.
Proof.
  induction fuel as [|fuel IH]; intros cap fin base buff st i He Hp Hs Hf; [lia|].
  cbn [str_loop].
  destruct (look_spec cap fin base buff st i He Hp) as [buff' [more [st' [E1 [E2 [E3 [E4 E5]]]]]]].
  rewrite E1.
  destruct (ext_prefix _ _ _ _ _ E2) as [Hb2 [L2 _]].
  destruct E5 as [[-> E5]|[-> [E5 [E6 [E7 E8]]]]]; cbn [negb].
  - destruct (Nat.ltb_spec i (length buff')) as [Hlt|Hge].
    + destruct (ext_nth cap fin base buff' st' i E2 Hlt) as [c [N1 N2]]. rewrite N1, N2. cbn [str_span].
      assert (Hi1 : firstn (Datatypes.S i) base = firstn i base ++ [c]).
      { replace (Datatypes.S i) with (i + 1)%nat by lia. rewrite firstn_add, N2. reflexivity. }
      destruct (N.eqb_spec c 92) as [->|Hc].
      * cbn [N.eqb Pos.eqb].
        destruct (skipn (Datatypes.S i) base) as [|d t] eqn:Ed.
        { (* backslash is the last byte *)
          assert (Hlen : length base = Datatypes.S i).
          { assert (L := f_equal (@length N) N2). rewrite skipn_length in L. cbn in L. lia. }
          specialize (IH cap fin base buff' st' (Datatypes.S (Datatypes.S i)) E2).
          rewrite (skipn_all2 base) in IH by lia. cbn [str_span] in IH. apply IH; try lia.
          destruct (Nat.eq_dec (Datatypes.S (Datatypes.S i)) (Datatypes.S (length buff'))) as [Q|Q]; [right|left; lia].
          split; [assumption|]. replace (length buff') with (Datatypes.S i) by lia. eauto. }
        assert (Hd : skipn (Datatypes.S (Datatypes.S i)) base = t).
        { replace (Datatypes.S (Datatypes.S i)) with (Datatypes.S i + 1)%nat by lia.
          rewrite <- skipn_skipn'. rewrite Ed. reflexivity. }
        assert (Hi2 : firstn (Datatypes.S (Datatypes.S i)) base = firstn i base ++ [92%N; d]).
        { replace (Datatypes.S (Datatypes.S i)) with (Datatypes.S i + 1)%nat by lia.
          rewrite firstn_add, Ed, Hi1, <- app_assoc. reflexivity. }
        specialize (IH cap fin base buff' st' (Datatypes.S (Datatypes.S i)) E2).
        rewrite Hd, Hi2 in IH.
        assert (Hii : (Datatypes.S (Datatypes.S i) <= length buff')%nat \/
          Datatypes.S (Datatypes.S i) = Datatypes.S (length buff') /\
          exists l, firstn (length buff') base = l ++ [92%N]).
        { destruct (Nat.eq_dec (Datatypes.S (Datatypes.S i)) (Datatypes.S (length buff'))) as [Q|Q]; [right|left; lia].
          split; [assumption|]. replace (length buff') with (Datatypes.S i) by lia. eauto. }
        destruct (str_span t) as [[a b]|].
        -- destruct IH as [st2 [I1 [I2 I3]]]; [lia|assumption|lia|]. exists st2. rewrite I1. rewrite <- !app_assoc. auto.
        -- apply IH; [lia|assumption|lia].
      * destruct (N.eqb_spec c 34) as [->|Hc2].
        -- unfold extract.
           destruct (ext_consume cap fin base buff' st' (Datatypes.S i) E2) as [C1 [C2 C3]]; [lia|lia|].
           rewrite (ext_firstn cap fin base buff' st' (Datatypes.S i) E2) by lia.
           eexists. split; [rewrite Hi1; reflexivity|]. cbn [j_buf].
           split; [destruct He as [[? _] _]; split; assumption|assumption].
        -- specialize (IH cap fin base buff' st' (Datatypes.S i) E2).
           destruct (str_span (skipn (Datatypes.S i) base)) as [[a b]|].
           ++ destruct IH as [st2 [I1 [I2 I3]]]; try lia. exists st2. rewrite I1, Hi1. rewrite <- !app_assoc. auto.
           ++ apply IH; lia.
    + destruct E5 as [E5|[[E5 E6]|E5]]; [lia| |lia]. subst buff'.
      rewrite skipn_all2 by lia. cbn [str_span].
      left. split.
      { destruct (nth_error base i) eqn:En; [|reflexivity].
        assert (i < length base)%nat by (apply nth_error_Some; congruence). lia. }
      assert (Hgrow : (length buff < length base)%nat).
      { destruct (extend_spec cap fin base buff st He) as [bf [mr [st2 [F1 [F2 [F3 F4]]]]]].
        rewrite (proj2 (Nat.leb_le _ _) E6) in E1. rewrite E1 in F1. inversion F1; subst bf mr st2.
        destruct F4 as [[_ [F4 _]]|[F4 _]]; [lia|discriminate]. }
      destruct Hs as [Hs|[Hs [l Hl]]]; [lia|].
      destruct (skipn (length buff) base) as [|c [|c' r]] eqn:Esk.
      { assert (L := f_equal (@length N) Esk). rewrite skipn_length in L. cbn in L. lia. }
      { exists l, c. rewrite <- (firstn_skipn (length buff) base), Hl, Esk, <- app_assoc. reflexivity. }
      { assert (L := f_equal (@length N) Esk). rewrite skipn_length in L. cbn in L. lia. }
  - subst buff'. rewrite skipn_all2 by lia. cbn [str_span]. right. exists st'.
    split; [reflexivity|]. split; [exact (proj1 E2)|assumption].
Qed.

Lemma j_str_spec : forall cap fin st, jok cap fin st ->
  match skip_ws (pending (j_buf st)) with
  | c :: t =>
      if N.eqb c 34 then
        match str_span t with
        | Some (a, b) => exists st', j_str st = Ok (inl (c :: a ++ [34%N]), st') /\ jok cap fin st' /\ pending (j_buf st') = b
        | None => j_str st = Panic /\ ends_escaped t \/
                  exists st', j_str st = Ok (inr err_closing, st') /\ jok cap fin st' /\ pending (j_buf st') = []
        end
      else exists st', j_str st = Ok (inr err_string, st') /\ jok cap fin st' /\ pending (j_buf st') = c :: t
  | [] => exists st', j_str st = Ok (inr err_string, st') /\ jok cap fin st' /\ pending (j_buf st') = []
  end.
Proof.
  intros cap fin st Hj. unfold j_str, with_buffer.
  destruct (current_buffer_spec cap fin st Hj) as [st' [E HR]]. rewrite E.
  destruct (ready_jok _ _ _ _ HR) as [Hj' Hp'].
  set (s := skip_ws (pending (j_buf st))) in *. clearbody s.
  destruct HR as [He [Hz Hn]].
  destruct (ext_prefix _ _ _ _ _ He) as [Hb _].
  destruct (b_buf (j_buf st')) as [|c t] eqn:Eb.
  - rewrite (Hn eq_refl) in *. exists st'. auto.
  - rewrite Hb. cbn [app]. destruct (N.eqb_spec c 34) as [->|Hc].
    + pose proof (str_loop_spec (Datatypes.S (Datatypes.S (length (34%N :: t) + unread (j_buf st')))) cap fin s _ _ 1%nat He) as HS.
      rewrite Hb in HS. cbn [skipn app firstn] in HS.
      assert (A1 : (j_prev st' <= Z.of_nat 1)%Z) by (rewrite Hz; lia).
      assert (A2 : (1 <= length (34%N :: t))%nat) by (cbn [length]; lia).
      specialize (HS A1 (or_introl A2)). clear A1 A2.
      destruct (str_span (t ++ s_rem (b_src (j_buf st')))) as [[a b]|] eqn:Es.
      * apply HS. unfold unread. cbn [length]. rewrite app_length. lia.
      * destruct HS as [[HS1 [pre [c HS2]]]|HS]; [unfold unread; cbn [length]; rewrite app_length; lia| |right; assumption].
        left. split; [assumption|]. destruct pre as [|x pre]; [|exists pre, c; cbn in HS2; congruence].
        cbn in HS2. congruence.
    + exists st'. split; [reflexivity|]. split; [assumption|]. rewrite Hp', Hb. reflexivity.
Qed.

(** Literals *)
Lemma is_prefix_spec : forall p s, is_prefix p s = true <-> exists r, s = p ++ r.
Proof.
  induction p as [|x p IH]; intros s; cbn.
  - split; [eauto|reflexivity].
  - destruct s as [|y s]; [split; [discriminate|intros [r H]; discriminate]|].
    rewrite andb_true_iff, N.eqb_eq, IH. split.
    + intros [-> [r ->]]. eauto.
    + intros [r H]. inversion H; subst. eauto.
Qed.

Definition letters (s : bytes) : Prop := Forall (fun c => is_lower c = true) s.

Lemma beqb_refl' : forall s, beqb s s = true.
Proof. induction s as [|c s IH]; [reflexivity|]. cbn. rewrite N.eqb_refl. assumption. Qed.
Lemma beqb_true : forall a b, beqb a b = true -> a = b.
Proof.
  induction a as [|x a IH]; destruct b as [|y b]; cbn; try congruence.
  intros H. apply andb_true_iff in H. destruct H as [H1 H2]. apply N.eqb_eq in H1. f_equal; auto.
Qed.

Lemma j_lit_spec : forall cap fin st tok, jok cap fin st -> (length tok <= 16)%nat -> tok <> [] ->
  let s := skip_ws (pending (j_buf st)) in
  exists st', j_lit tok st = Ok (is_prefix tok s, st') /\ jok cap fin st' /\
    (is_prefix tok s = true -> pending (j_buf st') = skipn (length tok) s) /\
    (exists x, s = x ++ pending (j_buf st')) .
Proof.
  intros cap fin st tok Hj Ht Hne s. unfold j_lit, with_buffer.
  destruct (current_buffer_spec cap fin st Hj) as [st' [E HR]]. rewrite E.
  destruct (ready_jok _ _ _ _ HR) as [Hj' Hp']. fold s in HR, Hp'. clearbody s.
  destruct HR as [He [Hz Hn]].
  assert (Hgen : forall buff st2, ext cap fin s buff st2 -> (j_prev st2 <= Z.of_nat (length tok))%Z ->
     ((length tok <= length buff)%nat \/ buff = s) ->
     exists st', (if (length tok <=? length buff)%nat && beqb tok (firstn (length tok) buff)
       then Ok (true, mkJst (discard (Z.of_nat (length tok) - j_prev st2) (j_buf st2)) (j_prev st2))
       else Ok (false, st2)) = Ok (is_prefix tok s, st') /\ jok cap fin st' /\
       (is_prefix tok s = true -> pending (j_buf st') = skipn (length tok) s) /\
       (exists x, s = x ++ pending (j_buf st'))).
  { intros buff st2 He2 Hp2 Hlen. destruct (ext_prefix _ _ _ _ _ He2) as [Hb2 [L2 _]].
    destruct ((length tok <=? length buff)%nat && beqb tok (firstn (length tok) buff)) eqn:Ec.
    - apply andb_true_iff in Ec. destruct Ec as [Ec1 Ec2]. apply Nat.leb_le in Ec1. apply beqb_true in Ec2.
      rewrite (ext_firstn cap fin s buff st2 (length tok) He2 Ec1) in Ec2.
      assert (Hpre : is_prefix tok s = true).
      { apply is_prefix_spec. exists (skipn (length tok) s). rewrite Ec2 at 1. symmetry. apply firstn_skipn. }
      rewrite Hpre.
      destruct (ext_consume cap fin s buff st2 (length tok) He2 Hp2 Ec1) as [C1 [C2 C3]].
      eexists. split; [reflexivity|]. cbn [j_buf]. split; [destruct Hj; split; assumption|].
      split; [intros _; assumption|]. exists (firstn (length tok) s). rewrite C3. symmetry. apply firstn_skipn.
    - assert (Hpre : is_prefix tok s = false).
      { destruct (is_prefix tok s) eqn:Ep; [|reflexivity]. apply is_prefix_spec in Ep. destruct Ep as [r Hr].
        assert (Hl : (length tok <= length buff)%nat).
        { destruct Hlen as [?| ->]; [assumption|]. rewrite Hr, app_length. lia. }
        rewrite (ext_firstn cap fin s buff st2 (length tok) He2 Hl), Hr in Ec.
        rewrite firstn_app_le in Ec by lia. rewrite firstn_all, beqb_refl' in Ec.
        rewrite (proj2 (Nat.leb_le _ _) Hl) in Ec. discriminate. }
      rewrite Hpre. exists st2. split; [reflexivity|]. split; [exact (proj1 He2)|]. split; [discriminate|].
      destruct He2 as [_ [pre [_ [_ Hbase]]]]. eauto. }
  destruct (Nat.ltb_spec (length (b_buf (j_buf st'))) (length tok)) as [L|L].
  - destruct (extend_spec cap fin s _ st' He) as [buff' [more [st2 [X1 [X2 [X3 X4]]]]]].
    rewrite X1. destruct X4 as [[-> [X4 X5]]|[-> [X4 [X5 X6]]]]; cbn [negb].
    + apply Hgen; [assumption|lia|]. destruct X5 as [X5|X5]; [left; lia|right; assumption].
    + assert (Hpre : is_prefix tok s = false).
      { destruct (is_prefix tok s) eqn:Ep; [|reflexivity]. apply is_prefix_spec in Ep. destruct Ep as [r Hr].
        rewrite <- X5 in Hr. apply (f_equal (@length N)) in Hr. rewrite app_length in Hr. lia. }
      rewrite Hpre. exists st2. split; [reflexivity|]. split; [exact (proj1 X2)|]. split; [discriminate|].
      exists s. rewrite X6, app_nil_r. reflexivity.
  - cbn [negb]. apply Hgen; [assumption|lia|left; lia].
Qed.

Lemma j_fill_spec : forall cap fin st, jok cap fin st ->
  jok cap fin (j_fill st) /\ pending (j_buf (j_fill st)) = pending (j_buf st).
Proof.
  intros cap fin st [Hcap Hok]. unfold j_fill. cbn [j_buf].
  destruct (peek_block cap fin (j_buf st) Hcap Hok) as [P1 [P2 _]]. split; [split; assumption|assumption].
Qed.

(** * The simulation *)
Definition knows (cap : nat) (fin : err) (st : jst) (ps : pst) : Prop :=
  jok cap fin st /\
  match ps with
  | Live s => pending (j_buf st) = s
  | Dead => letters (pending (j_buf st))
  | Lost => True
  end.

(** Literals the grammar asks for: at most 16 characters, which is the smallest buffer. *)
Fixpoint short_lits {A} (p : jprog A) : Prop :=
  match p with
  | JRet _ => True
  | JFill k => short_lits k
  | JTok _ k => forall x, short_lits (k x)
  | JLit t k => (length t <= 16)%nat /\ t <> [] /\ forall x, short_lits (k x)
  | JPeek k => forall x, short_lits (k x)
  | JSkip k => short_lits k
  | JStr k => forall x, short_lits (k x)
  | JNum k => forall x, short_lits (k x)
  end.

Lemma run_pure_dead : forall A (p : jprog A), snd (run_pure p Dead) = Dead \/ fst (run_pure p Dead) = None.
Proof.
  induction p as [a|k IH|ch k IH|tok k IH|k IH|k IH|k IH|k IH]; cbn; auto.
  destruct (is_lower ch); cbn; auto.
Qed.

Lemma letters_skip_ws : forall s, letters s -> skip_ws s = s.
Proof.
  intros s H. destruct s as [|c s]; [reflexivity|]. inversion H; subst. cbn.
  unfold is_lower in H2. apply andb_true_iff in H2. destruct H2 as [H1 H2]. apply N.leb_le in H1, H2.
  unfold is_ws. destruct (N.eqb_spec c 32); [lia|]. destruct (N.eqb_spec c 10); [lia|].
  destruct (N.eqb_spec c 13); [lia|]. destruct (N.eqb_spec c 9); [lia|]. reflexivity.
Qed.

Theorem run_json_pure : forall A (p : jprog A) cap fin st ps a ps', short_lits p -> knows cap fin st ps ->
  run_pure p ps = (Some a, ps') ->
  (exists st', run_json p st = Ok (a, st') /\ knows cap fin st' ps') \/
  (ps' = Dead /\ run_json p st = Panic).
Proof.
  induction p as [a|k IH|ch k IH|tok k IH|k IH|k IH|k IH|k IH]; intros cap fin st ps a0 ps' Hsl [Hj Hk] Hr;
    cbn [run_pure run_json short_lits] in *.
  - inversion Hr; subst. left. exists st. split; [reflexivity|]. split; assumption.
  - destruct (j_fill_spec cap fin st Hj) as [J1 J2].
    apply (IH cap fin (j_fill st) ps a0 ps' Hsl); [|assumption]. split; [assumption|]. rewrite J2. assumption.
  - destruct (j_tok_spec cap fin st ch Hj) as [st1 [E1 [E2 E3]]]. rewrite E1.
    destruct ps as [s| |]; [| |discriminate].
    + rewrite Hk in *. destruct (skip_ws s) as [|c t].
      * apply (IH false cap fin st1 (Live []) a0 ps' (Hsl false)); [split; assumption|assumption].
      * destruct (N.eqb c ch).
        -- apply (IH true cap fin st1 (Live t) a0 ps' (Hsl true)); [split; assumption|assumption].
        -- apply (IH false cap fin st1 (Live (c :: t)) a0 ps' (Hsl false)); [split; assumption|assumption].
    + destruct (is_lower ch) eqn:El; [discriminate|].
      assert (Hw : skip_ws (pending (j_buf st)) = pending (j_buf st)) by (apply letters_skip_ws; assumption).
      rewrite Hw in *.
      assert (Hf : match pending (j_buf st) with c :: _ => N.eqb c ch | [] => false end = false).
      { destruct (pending (j_buf st)) as [|c t]; [reflexivity|]. inversion Hk; subst.
        destruct (N.eqb_spec c ch); [congruence|reflexivity]. }
      rewrite Hf in *. apply (IH false cap fin st1 Dead a0 ps' (Hsl false)); [|assumption].
      split; [assumption|]. rewrite E3. destruct (pending (j_buf st)) as [|c t]; [constructor|].
      destruct (N.eqb c ch); [discriminate|assumption].
  - destruct Hsl as [Hs1 [Hs2 Hs3]].
    destruct (j_lit_spec cap fin st tok Hj Hs1 Hs2) as [st1 [E1 [E2 [E3 [x E4]]]]]. rewrite E1.
    destruct ps as [s| |]; [|discriminate|discriminate]. rewrite Hk in *.
    destruct (is_prefix tok (skip_ws s)) eqn:Ep.
    + apply (IH true cap fin st1 (Live (skipn (length tok) (skip_ws s))) a0 ps' (Hs3 true)); [|assumption].
      split; [assumption|]. apply E3; reflexivity.
    + destruct (is_prefix (skip_ws s) tok && forallb is_lower (skip_ws s)) eqn:Ed.
      * apply (IH false cap fin st1 Dead a0 ps' (Hs3 false)); [|assumption].
        split; [assumption|]. apply andb_true_iff in Ed. destruct Ed as [_ Ed].
        rewrite E4 in Ed. rewrite forallb_app in Ed. apply andb_true_iff in Ed. destruct Ed as [_ Ed].
        apply Forall_forall. intros c Hc. rewrite forallb_forall in Ed. auto.
      * apply (IH false cap fin st1 Lost a0 ps' (Hs3 false)); [|assumption]. split; [assumption|exact I].
  - destruct (j_peek_spec cap fin st Hj) as [st1 [E1 [E2 E3]]]. rewrite E1.
    destruct ps as [s| |]; [|discriminate|discriminate]. rewrite Hk in *.
    apply (IH _ cap fin st1 (Live (skip_ws s)) a0 ps' (Hsl _)); [split; assumption|assumption].
  - destruct (j_skip_spec cap fin st Hj) as [st1 [E1 [E2 E3]]]. rewrite E1.
    destruct ps as [s| |]; [| |discriminate].
    + rewrite Hk in *. apply (IH cap fin st1 (Live (skip_ws s)) a0 ps' Hsl); [split; assumption|assumption].
    + apply (IH cap fin st1 Dead a0 ps' Hsl); [|assumption]. split; [assumption|].
      rewrite E3. rewrite letters_skip_ws by assumption. assumption.
  - pose proof (j_str_spec cap fin st Hj) as HS.
    destruct ps as [s| |]; [|discriminate|discriminate]. rewrite Hk in *.
    destruct (skip_ws s) as [|c t].
    + destruct HS as [st1 [E1 [E2 E3]]]. rewrite E1.
      apply (IH _ cap fin st1 (Live []) a0 ps' (Hsl _)); [split; assumption|assumption].
    + destruct (N.eqb c 34).
      * destruct (str_span t) as [[x y]|].
        -- destruct HS as [st1 [E1 [E2 E3]]]. rewrite E1.
           apply (IH _ cap fin st1 (Live y) a0 ps' (Hsl _)); [split; assumption|assumption].
        -- destruct HS as [[HS _]|[st1 [E1 [E2 E3]]]].
           ++ rewrite HS. right. split; [|reflexivity].
              destruct (run_pure_dead A (k (inr err_closing))) as [H|H]; rewrite Hr in H; cbn in H; congruence.
           ++ rewrite E1. apply (IH _ cap fin st1 Dead a0 ps' (Hsl _)); [|assumption].
              split; [assumption|]. rewrite E3. constructor.
      * destruct HS as [st1 [E1 [E2 E3]]]. rewrite E1.
        apply (IH _ cap fin st1 (Live (c :: t)) a0 ps' (Hsl _)); [split; assumption|assumption].
  - destruct (j_num_spec cap fin st Hj) as [st1 [E1 [E2 E3]]]. rewrite E1.
    destruct ps as [s| |]; [|discriminate|discriminate]. rewrite Hk in *.
    destruct (num_span (skip_ws s)) as [x y]. cbn [fst snd] in *.
    apply (IH _ cap fin st1 (Live y) a0 ps' (Hsl _)); [split; assumption|assumption].
Qed.
