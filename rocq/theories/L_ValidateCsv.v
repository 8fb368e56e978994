(** CheckCsvRowLengths accepts the texts whose rows have one width. *)
From Coq Require Import ZArith Lia.
From Verif Require Import Base M_Utf8 M_Bufio L_Bufio M_NDJson L_NDJson M_CsvText S_Csv L_CsvSpec L_CsvText L_CsvIn L_DetectCsv M_Validate S_Validate.
Notation length := List.length.

Section Input.
  Variable cap : nat.
  Variable fin : err.
  Definition plain_is (b : bufr) (T : bytes) : Prop := buf_ok cap fin b /\ pending b = T.
  Lemma plain_left_pending : forall b, plain_left b = length (pending b).
  Proof. intros b. unfold plain_left, pending. rewrite app_length. reflexivity. Qed.
  Lemma plain_join_spec : forall f b, buf_ok cap fin b -> (length (pending b) < f)%nat ->
    exists line e b', plain_join f b = (Some (line, e), b') /\ buf_ok cap fin b' /\ raw_line fin (pending b) line e (pending b').
  Proof.
    induction f as [|f IH]; intros b Hok Hf; [lia|]. cbn [plain_join]. pose proof Hok as [Hc _].
    pose proof (read_slice_spec (S (S (b_cap b))) 10 cap fin b Hok) as Hs.
    destruct (read_slice (S (S (b_cap b))) 10 b) as [o b']. specialize (Hs ltac:(destruct (b_err b); lia)).
    destruct Hs as [H1 H2]. destruct o as [[d|d|d e]|]; [| | |contradiction].
    - destruct H2 as [a [-> [Ha E]]]. do 3 eexists. split; [reflexivity|]. split; [assumption|]. left. split; [reflexivity|].
      split; [assumption|]. exists a. auto.
    - destruct H2 as [Hd [Hne E]].
      assert (Hf2 : (length (pending b') < f)%nat).
      { rewrite E, app_length in Hf. destruct d; [contradiction|]. cbn [length] in Hf. lia. }
      destruct (IH b' H1 Hf2) as [r [e [b2 [M1 [M2 M3]]]]]. rewrite M1. do 3 eexists. split; [reflexivity|]. split; [assumption|].
      rewrite E. destruct M3 as [[-> [-> [a [-> Ha]]]]|[-> [-> [-> Hr]]]].
      + left. split; [reflexivity|]. split; [rewrite <- !app_assoc; reflexivity|]. exists (d ++ a).
        split; [rewrite app_assoc; reflexivity|]. rewrite in_app_iff. tauto.
      + right. split; [reflexivity|]. split; [reflexivity|]. split; [reflexivity|]. rewrite in_app_iff. tauto.
    - destruct H2 as [Hd [-> [E1 E2]]]. do 3 eexists. split; [reflexivity|]. split; [assumption|]. right. rewrite E1. auto.
  Qed.
  Lemma plain_line_fwd : fwd bufr bytes plain_is plain_line (pure_line fin).
  Proof.
    intros b T [Hb <-]. unfold plain_line. destruct (plain_join_spec (S (plain_left b)) b Hb) as [line [e [b' [K1 [K2 K3]]]]].
    { rewrite plain_left_pending. lia. }
    rewrite K1, (raw_pure 1 fin (le_n _) _ _ _ _ K3). cbn [fst snd]. split; [reflexivity|]. split; [assumption|reflexivity].
  Qed.

  Lemma clean_unix : forall d, unix_text fin d (clean fin d).
  Proof.
    intros d. remember (length d) as n eqn:En. assert (Hn : (length d <= n)%nat) by lia. clear En. revert d Hn.
    induction n as [|n IH]; intros d Hn; [destruct d; [constructor|cbn in Hn; lia]|].
    destruct d as [|c s]; [constructor|]. cbn [clean]. cbn [length] in Hn. destruct (N.eqb_spec c 13) as [->|Hc].
    - destruct s as [|x s].
      + destruct fin; cbn; [apply un_last; reflexivity|..]; (apply un_cr; [intros [r X]; discriminate|right; discriminate|constructor]).
      + destruct (N.eqb_spec x 10) as [->|Hx].
        * cbn [clean]. change (N.eqb 10 13) with false. cbv iota. apply un_crlf. apply IH. cbn [length] in Hn. lia.
        * apply un_cr; [intros [r X]; injection X as -> _; congruence|left; discriminate|apply IH; lia].
    - apply un_keep; [assumption|apply IH; lia].
  Qed.
  Lemma unix_fun : forall d t, unix_text fin d t -> t = clean fin d.
  Proof.
    induction 1 as [|c s o Hc _ IH|s o _ IH|s o Hb Hs _ IH|E].
    - reflexivity.
    - cbn [clean]. apply N.eqb_neq in Hc. rewrite Hc, IH. reflexivity.
    - cbn [clean]. change (N.eqb 13 13) with true. change (N.eqb 10 10) with true. change (N.eqb 10 13) with false. cbv iota. rewrite IH. reflexivity.
    - cbn [clean]. change (N.eqb 13 13) with true. cbv iota. destruct s as [|x s].
      + destruct Hs as [Hs|Hs]; [congruence|]. rewrite IH. destruct fin; cbn; [congruence|reflexivity..].
      + destruct (N.eqb_spec x 10) as [->|Hx]; [exfalso; apply Hb; eexists; reflexivity|]. rewrite IH. reflexivity.
    - cbn. rewrite E. reflexivity.
  Qed.

  (** One call. *)
  Notation answers := (answers false true [44%N] fin).
  Notation record := (record false true [44%N] fin).
  Lemma check_read_ok : forall b, buf_ok cap fin b -> exists o b', buf_ok cap fin b' /\
    record (clean fin (pending b)) o (clean fin (pending b')) /\
    check_read b = (match o with None => Err EOF | Some (fs, None) => Ok fs | Some (_, Some x) => Err (flaw_err x) end, b').
  Proof.
    intros b Hb. unfold check_read. rewrite plain_left_pending.
    destruct (fwd_read bufr bytes plain_is _ _ false true 44 (length (pending b) + 2) (-1) b (pending b) plain_line_fwd (conj Hb eq_refl))
      as [x [w' [b' [T' [E1 [E2 [HQ1 HQ2]]]]]]]. rewrite E1. cbn [r_st].
    destruct (raw_ok false true [44%N] fin ltac:(discriminate) ltac:(intros [X|[]]; discriminate) ltac:(intros [X|[]]; discriminate)
      (length (pending b) + 2) (pending b) (le_n _)) as [o [T2 [HT [E3 R]]]].
    unfold csv_read in E2. change (valid_delim 44) with true in E2. cbv iota in E2. cbn [r_st r_width] in E2.
    change (encode_rune 44) with [44%N] in E2. rewrite E3 in E2. exists o, b'. split; [assumption|]. destruct o as [[fs [fl|]]|]; cbn in E2.
    - injection E2 as <- <- <-. rewrite HQ2. auto.
    - injection E2 as <- <- <-. rewrite HQ2. auto.
    - injection E2 as <- <- <-. rewrite HQ2. auto.
  Qed.
  Lemma flaw_not_eof : forall T fs x r, record T (Some (fs, Some x)) r -> flaw_err x <> EOF.
  Proof.
    intros T fs [| |e] r H; [discriminate..|]. cbn [flaw_err].
    destruct (source_record false true 44 [] fin T _ r H fs e eq_refl) as [-> [_ X]]. exact X.
  Qed.

  (** What the loop finds. *)
  Lemma check_loop_ok : forall f w i b, buf_ok cap fin b -> (length (clean fin (pending b)) < f)%nat ->
    exists rows l, Forall (fun r => length r = w) rows /\ answers (-1) (clean fin (pending b)) (map Row rows ++ [l]) /\
      ((l = End /\ check_loop f w i b = Ok tt) \/
       (((exists x, l = Flaw x) \/ exists fs, l = Row fs /\ length fs <> w) /\ exists e, check_loop f w i b = Err e)).
  Proof.
    induction f as [|f IH]; intros w i b Hb Hf; [lia|]. cbn [check_loop].
    destruct (check_read_ok b Hb) as [o [b' [Hb' [R ->]]]]. destruct o as [[fs [x|]]|].
    - exists [], (Flaw x). split; [constructor|]. split; [eapply an_flaw; [exact R|constructor]|]. right. split; [left; eauto|].
      pose proof (flaw_not_eof _ _ _ _ R). destruct (flaw_err x); [congruence|eauto..].
    - pose proof (record_shorter false true 44 [] fin _ _ _ R fs eq_refl) as L.
      destruct (Nat.eqb_spec (length fs) w) as [Hw|Hw].
      + destruct (IH w (i + 1)%Z b' Hb' ltac:(lia)) as [rows [l [H1 [H2 H3]]]]. exists (fs :: rows), l.
        split; [constructor; assumption|]. split; [|exact H3]. cbn [map app]. eapply an_row; [exact R|left; lia|exact H2].
      + exists [], (Row fs). split; [constructor|]. split; [eapply an_row; [exact R|left; lia|constructor]|]. right.
        split; [right; eauto|eauto].
    - exists [], End. split; [constructor|]. split; [eapply an_end; [exact R|constructor]|]. left. auto.
  Qed.
End Input.

Lemma answers_app : forall lazy trim comma fin w T l1 l2, answers lazy trim comma fin w T (l1 ++ l2) -> answers lazy trim comma fin w T l1.
Proof.
  intros lazy trim comma fin w T l1. revert w T. induction l1 as [|a l1 IH]; intros w T l2 H; [constructor|]. cbn [app] in H.
  inversion H; subst; [eapply an_end|eapply an_flaw|eapply an_row|eapply an_count]; eauto.
Qed.
Lemma answers_prefix : forall T l1 l2 fin, answers false true [44%N] fin (-1) T l1 -> answers false true [44%N] fin (-1) T l2 ->
  (length l1 <= length l2)%nat -> exists r, l2 = l1 ++ r.
Proof.
  intros T l1 l2 fin H1 H2 HL. exists (skipn (length l1) l2). rewrite <- (firstn_skipn (length l1) l2) in H2 at 1. apply answers_app in H2.
  assert (E : l1 = firstn (length l1) l2).
  { eapply (answers_fun false true 44 [] fin); [intros []|intros [X|[]]; discriminate|intros [X|[]]; discriminate|exact H1|exact H2|].
    rewrite firstn_length_le by exact HL. reflexivity. }
  transitivity (firstn (length l1) l2 ++ skipn (length l1) l2); [symmetry; apply firstn_skipn|]. rewrite <- E. reflexivity.
Qed.
(** Rows of width w and then the end cannot also be rows of that width and then something else. *)
Lemma rows_end_not : forall T fin rows w rows' l, answers false true [44%N] fin (-1) T (map Row rows ++ [End]) -> Forall (fun r => length r = w) rows ->
  answers false true [44%N] fin (-1) T (map Row rows' ++ [l]) -> (exists x, l = Flaw x) \/ (exists fs, l = Row fs /\ length fs <> w) -> False.
Proof.
  intros T fin rows w rows' l H1 HF H2 Hl. rewrite Forall_forall in HF.
  destruct (Nat.le_ge_cases (length (map Row rows' ++ [l])) (length (map Row rows ++ [End]))) as [L|L].
  - destruct (answers_prefix _ _ _ _ H2 H1 L) as [r E]. assert (I : In l (map Row rows ++ [End])).
    { rewrite E, !in_app_iff. left. right. left. reflexivity. }
    apply in_app_iff in I. destruct I as [I|[<-|[]]].
    + apply in_map_iff in I. destruct I as [fs [<- I]]. destruct Hl as [[x X]|[fs' [X Hw]]]; [discriminate|]. injection X as <-. auto.
    + destruct Hl as [[x X]|[fs' [X Hw]]]; discriminate.
  - destruct (answers_prefix _ _ _ _ H1 H2 L) as [r E]. assert (I : In End (map Row rows' ++ [l])).
    { rewrite E, !in_app_iff. left. right. left. reflexivity. }
    apply in_app_iff in I. destruct I as [I|[X|[]]].
    + apply in_map_iff in I. destruct I as [fs [X _]]. discriminate.
    + destruct Hl as [[x Y]|[fs' [Y _]]]; congruence.
Qed.
