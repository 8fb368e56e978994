(** The buffered input of the CSV reader against a plain text. *)
From Coq Require Import ZArith Lia.
From Verif Require Import Base M_Bufio M_ReplaceCR M_Utf8 M_Unmarshal M_NDJson M_Sink M_CsvText S_ReplaceCR S_Csv
  L_Bufio L_ReplaceCR L_NDJson L_CsvText L_CsvSpec.

Section Backward.
  Variables S1 S2 : Type.
  Variable I : S1 -> Prop.
  Variable R : S1 -> S2 -> Prop.
  Definition bwd {A : Type} (f : S1 -> A * S1) (g : S2 -> A * S2) : Prop :=
    forall st, I st -> I (snd (f st)) /\ forall T', R (snd (f st)) T' -> exists T, R st T /\ g T = (fst (f st), T').
  Lemma bwd_bind : forall A B f g (h : A -> S1 -> B * S1) k, bwd f g -> (forall a, bwd (h a) (k a)) ->
    bwd (fun st => let '(a, st') := f st in h a st') (fun T => let '(a, T') := g T in k a T').
  Proof.
    intros A B f g h k Hf Hh st Hi. destruct (Hf st Hi) as [H1 H2]. destruct (f st) as [a st']. cbn [fst snd] in *.
    destruct (Hh a st' H1) as [H3 H4]. split; [assumption|]. intros T' HR. destruct (H4 T' HR) as [T1 [G1 G2]].
    destruct (H2 T1 G1) as [T [G3 G4]]. exists T. split; [assumption|]. rewrite G4. assumption.
  Qed.
  Lemma bwd_ret : forall A (a : A), bwd (fun st => (a, st)) (fun T => (a, T)).
  Proof. intros A a st Hi. split; [assumption|]. intros T' H. exists T'. auto. Qed.
  Lemma bwd_ext : forall A (f f' : S1 -> A * S1) g g', bwd f g -> (forall x, f' x = f x) -> (forall x, g' x = g x) -> bwd f' g'.
  Proof.
    intros A f f' g g' H E1 E2 st Hi. rewrite E1. destruct (H st Hi) as [H1 H2]. split; [assumption|].
    intros T' HR. destruct (H2 T' HR) as [T [G1 G2]]. exists T. rewrite E2. auto.
  Qed.
  Variable rl1 : S1 -> option (bytes * option err) * S1.
  Variable rl2 : S2 -> option (bytes * option err) * S2.
  Hypothesis line : bwd rl1 rl2.
  Variable lazy trim : bool.
  Variable comma : bytes.
  Lemma bwd_first : forall fuel, bwd (M_CsvText.first_line S1 rl1 fuel) (M_CsvText.first_line S2 rl2 fuel).
  Proof.
    induction fuel as [|f IH]; [apply bwd_ret|]. cbn [M_CsvText.first_line].
    eapply bwd_ext; [apply (bwd_bind _ _ rl1 rl2 (fun x st' => match x with None => (None, st') | Some (l, None) => if (length l =? length_nl l)%nat then M_CsvText.first_line S1 rl1 f st' else (Some (l, None), st') | Some (l, Some e) => (Some (l, Some e), st') end)
      (fun x st' => match x with None => (None, st') | Some (l, None) => if (length l =? length_nl l)%nat then M_CsvText.first_line S2 rl2 f st' else (Some (l, None), st') | Some (l, Some e) => (Some (l, Some e), st') end) line)| |].
    - intros [[l [e|]]|]; [apply bwd_ret| |apply bwd_ret]. destruct (length l =? length_nl l)%nat; [apply IH|apply bwd_ret].
    - intros x. cbv beta. destruct (rl1 x) as [[[l [e|]]|] x']; reflexivity.
    - intros x. cbv beta. destruct (rl2 x) as [[[l [e|]]|] x']; reflexivity.
  Qed.
  Lemma bwd_fields : forall fuel q cur done l er, bwd (fields S1 rl1 lazy trim comma fuel q cur done l er) (fields S2 rl2 lazy trim comma fuel q cur done l er).
  Proof.
    induction fuel as [|f IH]; intros q cur done l er; [apply bwd_ret|]. cbn [fields].
    repeat match goal with
    | |- bwd (fun st => (_, st)) _ => apply bwd_ret
    | |- bwd (fields _ _ _ _ _ f _ _ _ _ _) _ => apply IH
    | |- bwd (fun st => if ?b then _ else _) _ => destruct b
    | |- bwd (fun st => match ?b with Some _ => _ | None => _ end) _ => match b with rl1 _ => fail 1 | _ => destruct b end
    | |- bwd (fun st => match ?b with [] => _ | _ :: _ => _ end) _ => destruct b
    | |- bwd (fun st => fields _ _ _ _ _ f ?a ?b ?c ?d ?e st) _ => apply (IH a b c d e)
    end.
    all: try (apply IH).
    eapply bwd_ext; [apply (bwd_bind _ _ rl1 rl2
       (fun x st' => match x with None => (None, st') | Some (l', e) => fields S1 rl1 lazy trim comma f true (cur ++ n :: l) done l' (match e with Some EOF => None | _ => e end) st' end)
       (fun x st' => match x with None => (None, st') | Some (l', e) => fields S2 rl2 lazy trim comma f true (cur ++ n :: l) done l' (match e with Some EOF => None | _ => e end) st' end) line)| |].
    - intros [[l' e]|]; [apply IH|apply bwd_ret].
    - intros x. cbv beta. destruct (rl1 x) as [[[l' e]|] x']; reflexivity.
    - intros x. cbv beta. destruct (rl2 x) as [[[l' e]|] x']; reflexivity.
  Qed.
  Lemma bwd_raw : forall fuel, bwd (raw_record S1 rl1 lazy trim comma fuel) (raw_record S2 rl2 lazy trim comma fuel).
  Proof.
    intros fuel. unfold raw_record.
    eapply bwd_ext; [apply (bwd_bind _ _ (M_CsvText.first_line S1 rl1 fuel) (M_CsvText.first_line S2 rl2 fuel)
      (fun x st' => match x with None => (None, st') | Some (_, Some EOF) => (Some (None, Some EOF), st') | Some (l, er) =>
         match fields S1 rl1 lazy trim comma fuel false [] [] l er st' with (None, st2) => (None, st2) | (Some (fs, e), st2) => (Some (Some fs, e), st2) end end)
      (fun x st' => match x with None => (None, st') | Some (_, Some EOF) => (Some (None, Some EOF), st') | Some (l, er) =>
         match fields S2 rl2 lazy trim comma fuel false [] [] l er st' with (None, st2) => (None, st2) | (Some (fs, e), st2) => (Some (Some fs, e), st2) end end)
      (bwd_first fuel))| |].
    - assert (G : forall l er, bwd (fun st' => match fields S1 rl1 lazy trim comma fuel false [] [] l er st' with (None, st2) => (None, st2) | (Some (fs, e), st2) => (Some (Some fs, e), st2) end)
                  (fun st' => match fields S2 rl2 lazy trim comma fuel false [] [] l er st' with (None, st2) => (None, st2) | (Some (fs, e), st2) => (Some (Some fs, e), st2) end)).
      { intros l er. eapply bwd_ext; [apply (bwd_bind _ _ (fields S1 rl1 lazy trim comma fuel false [] [] l er) (fields S2 rl2 lazy trim comma fuel false [] [] l er)
          (fun x st2 => (match x with None => None | Some (fs, e) => Some (Some fs, e) end, st2)) (fun x st2 => (match x with None => None | Some (fs, e) => Some (Some fs, e) end, st2)) (bwd_fields _ _ _ _ _ _))| |].
        - intros [[fs e]|]; apply bwd_ret.
        - intros x. cbv beta. destruct (fields S1 rl1 lazy trim comma fuel false [] [] l er x) as [[[fs e]|] x']; reflexivity.
        - intros x. cbv beta. destruct (fields S2 rl2 lazy trim comma fuel false [] [] l er x) as [[[fs e]|] x']; reflexivity. }
      intros [[l [[| |]|]]|]; solve [apply bwd_ret|apply G].
    - intros x. cbv beta. destruct (M_CsvText.first_line S1 rl1 fuel x) as [[[l [[| |]|]]|] x']; reflexivity.
    - intros x. cbv beta. destruct (M_CsvText.first_line S2 rl2 fuel x) as [[[l [[| |]|]]|] x']; reflexivity.
  Qed.
End Backward.
Lemma bwd_read : forall S1 S2 I R rl1 rl2 lazy trim c fuel w (st : S1) x w' st', bwd S1 S2 I R rl1 rl2 -> I st ->
  csv_read rl1 lazy trim c fuel (mkCr w st) = (x, mkCr w' st') ->
  I st' /\ forall T', R st' T' -> exists T, R st T /\ csv_read rl2 lazy trim c fuel (mkCr w T) = (x, mkCr w' T').
Proof.
  intros S1 S2 I R rl1 rl2 lazy trim c fuel w st x w' st' HL Hi H. unfold csv_read in H |- *. cbn [r_width r_st] in *.
  destruct (valid_delim c).
  - destruct (bwd_raw S1 S2 I R rl1 rl2 HL lazy trim (encode_rune c) fuel st Hi) as [H1 H2].
    destruct (raw_record S1 rl1 lazy trim (encode_rune c) fuel st) as [o st2]. cbn [fst snd] in *.
    assert (E : st2 = st').
    { destruct o as [[[fs|] e]|]; [destruct (check_width w fs e)| |]; try (injection H; auto). destruct e; injection H; auto. }
    subst st2. split; [assumption|]. intros T' HR. destruct (H2 T' HR) as [T [G1 G2]]. exists T. split; [assumption|]. rewrite G2.
    destruct o as [[[fs|] e]|]; [destruct (check_width w fs e)| |]; try (injection H; intros; subst; reflexivity).
    destruct e; injection H; intros; subst; reflexivity.
  - injection H as <- <- <-. split; [assumption|]. intros T' HR. exists T'. auto.
Qed.
Section Forward.
  Variables S1 S2 : Type.
  Variable Q : S1 -> S2 -> Prop.
  Definition fwd {A : Type} (f : S1 -> A * S1) (g : S2 -> A * S2) : Prop :=
    forall a b, Q a b -> fst (f a) = fst (g b) /\ Q (snd (f a)) (snd (g b)).
  Lemma fwd_bind : forall A B f g (h : A -> S1 -> B * S1) k, fwd f g -> (forall a, fwd (h a) (k a)) ->
    fwd (fun st => let '(a, st') := f st in h a st') (fun T => let '(a, T') := g T in k a T').
  Proof.
    intros A B f g h k Hf Hh a b Hq. destruct (Hf a b Hq) as [H1 H2]. destruct (f a) as [x a'], (g b) as [y b']. cbn [fst snd] in *.
    subst y. apply Hh. assumption.
  Qed.
  Lemma fwd_ret : forall A (a : A), fwd (fun st => (a, st)) (fun T => (a, T)).
  Proof. intros A a x y H. auto. Qed.
  Lemma fwd_ext : forall A (f f' : S1 -> A * S1) g g', fwd f g -> (forall x, f' x = f x) -> (forall x, g' x = g x) -> fwd f' g'.
  Proof. intros A f f' g g' H E1 E2 a b Hq. rewrite E1, E2. auto. Qed.
  Variable rl1 : S1 -> option (bytes * option err) * S1.
  Variable rl2 : S2 -> option (bytes * option err) * S2.
  Hypothesis line : fwd rl1 rl2.
  Variable lazy trim : bool.
  Variable comma : bytes.
  Lemma fwd_first : forall fuel, fwd (M_CsvText.first_line S1 rl1 fuel) (M_CsvText.first_line S2 rl2 fuel).
  Proof.
    induction fuel as [|f IH]; [apply fwd_ret|]. cbn [M_CsvText.first_line].
    eapply fwd_ext; [apply (fwd_bind _ _ rl1 rl2 (fun x st' => match x with None => (None, st') | Some (l, None) => if (length l =? length_nl l)%nat then M_CsvText.first_line S1 rl1 f st' else (Some (l, None), st') | Some (l, Some e) => (Some (l, Some e), st') end)
      (fun x st' => match x with None => (None, st') | Some (l, None) => if (length l =? length_nl l)%nat then M_CsvText.first_line S2 rl2 f st' else (Some (l, None), st') | Some (l, Some e) => (Some (l, Some e), st') end) line)| |].
    - intros [[l [e|]]|]; [apply fwd_ret| |apply fwd_ret]. destruct (length l =? length_nl l)%nat; [apply IH|apply fwd_ret].
    - intros x. cbv beta. destruct (rl1 x) as [[[l [e|]]|] x']; reflexivity.
    - intros x. cbv beta. destruct (rl2 x) as [[[l [e|]]|] x']; reflexivity.
  Qed.
  Lemma fwd_fields : forall fuel q cur done l er, fwd (fields S1 rl1 lazy trim comma fuel q cur done l er) (fields S2 rl2 lazy trim comma fuel q cur done l er).
  Proof.
    induction fuel as [|f IH]; intros q cur done l er; [apply fwd_ret|]. cbn [fields].
    repeat match goal with
    | |- fwd (fun st => (_, st)) _ => apply fwd_ret
    | |- fwd (fields _ _ _ _ _ f _ _ _ _ _) _ => apply IH
    | |- fwd (fun st => if ?b then _ else _) _ => destruct b
    | |- fwd (fun st => match ?b with Some _ => _ | None => _ end) _ => match b with rl1 _ => fail 1 | _ => destruct b end
    | |- fwd (fun st => match ?b with [] => _ | _ :: _ => _ end) _ => destruct b
    | |- fwd (fun st => fields _ _ _ _ _ f ?a ?b ?c ?d ?e st) _ => apply (IH a b c d e)
    end.
    all: try (apply IH).
    eapply fwd_ext; [apply (fwd_bind _ _ rl1 rl2
       (fun x st' => match x with None => (None, st') | Some (l', e) => fields S1 rl1 lazy trim comma f true (cur ++ n :: l) done l' (match e with Some EOF => None | _ => e end) st' end)
       (fun x st' => match x with None => (None, st') | Some (l', e) => fields S2 rl2 lazy trim comma f true (cur ++ n :: l) done l' (match e with Some EOF => None | _ => e end) st' end) line)| |].
    - intros [[l' e]|]; [apply IH|apply fwd_ret].
    - intros x. cbv beta. destruct (rl1 x) as [[[l' e]|] x']; reflexivity.
    - intros x. cbv beta. destruct (rl2 x) as [[[l' e]|] x']; reflexivity.
  Qed.
  Lemma fwd_raw : forall fuel, fwd (raw_record S1 rl1 lazy trim comma fuel) (raw_record S2 rl2 lazy trim comma fuel).
  Proof.
    intros fuel. unfold raw_record.
    eapply fwd_ext; [apply (fwd_bind _ _ (M_CsvText.first_line S1 rl1 fuel) (M_CsvText.first_line S2 rl2 fuel)
      (fun x st' => match x with None => (None, st') | Some (_, Some EOF) => (Some (None, Some EOF), st') | Some (l, er) =>
         match fields S1 rl1 lazy trim comma fuel false [] [] l er st' with (None, st2) => (None, st2) | (Some (fs, e), st2) => (Some (Some fs, e), st2) end end)
      (fun x st' => match x with None => (None, st') | Some (_, Some EOF) => (Some (None, Some EOF), st') | Some (l, er) =>
         match fields S2 rl2 lazy trim comma fuel false [] [] l er st' with (None, st2) => (None, st2) | (Some (fs, e), st2) => (Some (Some fs, e), st2) end end)
      (fwd_first fuel))| |].
    - assert (G : forall l er, fwd (fun st' => match fields S1 rl1 lazy trim comma fuel false [] [] l er st' with (None, st2) => (None, st2) | (Some (fs, e), st2) => (Some (Some fs, e), st2) end)
                  (fun st' => match fields S2 rl2 lazy trim comma fuel false [] [] l er st' with (None, st2) => (None, st2) | (Some (fs, e), st2) => (Some (Some fs, e), st2) end)).
      { intros l er. eapply fwd_ext; [apply (fwd_bind _ _ (fields S1 rl1 lazy trim comma fuel false [] [] l er) (fields S2 rl2 lazy trim comma fuel false [] [] l er)
          (fun x st2 => (match x with None => None | Some (fs, e) => Some (Some fs, e) end, st2)) (fun x st2 => (match x with None => None | Some (fs, e) => Some (Some fs, e) end, st2)) (fwd_fields _ _ _ _ _ _))| |].
        - intros [[fs e]|]; apply fwd_ret.
        - intros x. cbv beta. destruct (fields S1 rl1 lazy trim comma fuel false [] [] l er x) as [[[fs e]|] x']; reflexivity.
        - intros x. cbv beta. destruct (fields S2 rl2 lazy trim comma fuel false [] [] l er x) as [[[fs e]|] x']; reflexivity. }
      intros [[l [[| |]|]]|]; solve [apply fwd_ret|apply G].
    - intros x. cbv beta. destruct (M_CsvText.first_line S1 rl1 fuel x) as [[[l [[| |]|]]|] x']; reflexivity.
    - intros x. cbv beta. destruct (M_CsvText.first_line S2 rl2 fuel x) as [[[l [[| |]|]]|] x']; reflexivity.
  Qed.
End Forward.
Lemma fwd_read : forall S1 S2 Q rl1 rl2 lazy trim c fuel w (a : S1) (b : S2), fwd S1 S2 Q rl1 rl2 -> Q a b ->
  exists x w' a' b', csv_read rl1 lazy trim c fuel (mkCr w a) = (x, mkCr w' a') /\ csv_read rl2 lazy trim c fuel (mkCr w b) = (x, mkCr w' b') /\ Q a' b'.
Proof.
  intros S1 S2 Q rl1 rl2 lazy trim c fuel w a b HL Hq. unfold csv_read. cbn [r_width r_st]. destruct (valid_delim c); [|do 4 eexists; eauto].
  destruct (fwd_raw S1 S2 Q rl1 rl2 HL lazy trim (encode_rune c) fuel a b Hq) as [H1 H2].
  destruct (raw_record S1 rl1 lazy trim (encode_rune c) fuel a) as [o a']. destruct (raw_record S2 rl2 lazy trim (encode_rune c) fuel b) as [o2 b'].
  cbn [fst snd] in *. subst o2.
  destruct o as [[[fs|] e]|]; [destruct (check_width w fs e)|destruct e|]; do 4 eexists; eauto.
Qed.

(** The invariant of the input, and the texts it may still stand for. *)
Section Input.
  Variable osize : nat.
  Variable fin : err.
  Hypothesis room : (0 < osize)%nat.
  Definition in_ok (b : csvin) : Prop :=
    (exists cap, buf_ok cap fin (i_inner b)) /\ (length (i_buf b) <= osize)%nat /\
    forall e, i_err b = Some e -> e = fin /\ pending (i_inner b) = [].
  Definition stands (b : csvin) (T : bytes) : Prop := exists o, inserts (pending (i_inner b)) o [] /\ T = i_buf b ++ o.
  Lemma in_left_pending : forall b, in_left b = (length (i_buf b) + 2 * length (pending (i_inner b)))%nat.
  Proof. intros b. unfold in_left, pending. rewrite app_length. reflexivity. Qed.
  Lemma inserts_all : forall s, inserts s s [].
  Proof. induction s; constructor; assumption. Qed.
  Lemma stands_some : forall b, exists T, stands b T.
  Proof. intros b. exists (i_buf b ++ pending (i_inner b)), (pending (i_inner b)). split; [apply inserts_all|reflexivity]. Qed.
  Lemma stands_length : forall b T, stands b T -> (length T <= in_left b)%nat.
  Proof.
    intros b T [o [H ->]]. rewrite in_left_pending, app_length. pose proof (inserts_length _ _ _ H). cbn [length] in *. lia.
  Qed.
  Lemma in_fill_spec : forall b, in_ok b -> (length (i_buf b) < osize)%nat -> exists o,
    in_ok (in_fill osize b) /\ i_buf (in_fill osize b) = i_buf b ++ o /\
    inserts (pending (i_inner b)) o (pending (i_inner (in_fill osize b))) /\
    (i_err (in_fill osize b) = None -> length (i_buf (in_fill osize b)) = osize).
  Proof.
    intros b [[cap Hb] [Hl He]] Hr. unfold in_fill.
    destruct (run_buf_list _ (cr_read (osize - length (i_buf b))) cap fin (i_inner b) Hb) as [b' [H1 [H2 H3]]].
    assert (Hc : (0 < cap)%nat) by apply Hb.
    change (run_list cap fin (cr_read (osize - length (i_buf b))) (pending (i_inner b))) with (crl cap fin (osize - length (i_buf b)) (pending (i_inner b))) in *.
    destruct (crl cap fin (osize - length (i_buf b)) (pending (i_inner b))) as [[o e] rest] eqn:E. cbn [fst snd] in *.
    rewrite H1. destruct (crl_spec cap fin Hc _ _ _ _ _ E) as [A [B [C [D _]]]]. exists o. cbn [i_buf i_err i_inner].
    split; [split; [exists cap; assumption|]|split; [reflexivity|split; [rewrite H3; assumption|]]].
    - cbn [i_buf i_err i_inner]. rewrite app_length. split; [lia|]. intros x ->. rewrite H3. auto.
    - intros ->. rewrite app_length, C by reflexivity. lia.
  Qed.
  Lemma fill_back : forall b T, in_ok b -> (length (i_buf b) < osize)%nat -> stands (in_fill osize b) T -> stands b T.
  Proof.
    intros b T Hb Hr [o [H ->]]. destruct (in_fill_spec b Hb Hr) as [p [_ [E [Hi _]]]]. exists (p ++ o).
    split; [eapply inserts_trans; eassumption|]. rewrite E, app_assoc. reflexivity.
  Qed.
  (** What one slice means for the text. *)
  Definition slice_of (sl : slice) (T T' : bytes) : Prop :=
    match sl with
    | SLine d => T = d ++ T' /\ exists a, d = a ++ [10%N] /\ ~ In 10%N a
    | SFull d => T = d ++ T' /\ ~ In 10%N d
    | SEnd d e => T = d /\ T' = [] /\ e = fin /\ ~ In 10%N d
    end.
  Definition slice_len (sl : slice) : nat := match sl with SLine d => length d | SFull d => length d | SEnd d _ => length d end.
  Lemma in_slice_spec : forall f b, in_ok b -> (i_err b = None -> (length (i_buf b) < osize)%nat -> (2 <= f)%nat) -> (1 <= f)%nat ->
    exists sl b', in_slice osize f b = (Some sl, b') /\ in_ok b' /\ (in_left b' + slice_len sl <= in_left b)%nat /\
      (match sl with SFull d => d <> [] | _ => True end) /\
      forall T', stands b' T' -> exists T, stands b T /\ slice_of sl T T'.
  Proof.
    induction f as [|f IH]; intros b Hb Hf Hf1; [lia|]. cbn [in_slice].
    destruct (index_byte 10 (i_buf b)) as [i|] eqn:E.
    - destruct (index_byte_some _ _ _ E) as [a [r [E1 [E2 E3]]]].
      exists (SLine (firstn (S i) (i_buf b))), (mkIn (skipn (S i) (i_buf b)) (i_err b) (i_inner b)).
      assert (F : i_buf b = firstn (S i) (i_buf b) ++ skipn (S i) (i_buf b)) by (symmetry; apply firstn_skipn).
      pose proof (f_equal (@length N) F) as F2. rewrite app_length in F2.
      split; [reflexivity|]. destruct Hb as [H1 [H2 H3]]. split; [split; [assumption|]; split; [cbn [i_buf]; lia|assumption]|].
      split; [rewrite !in_left_pending; cbn [i_buf i_inner slice_len]; lia|]. split; [exact Logic.I|].
      intros T' [o [Ho ->]]. exists (i_buf b ++ o). split; [exists o; auto|]. cbn [slice_of i_buf].
      split; [rewrite app_assoc, <- F; reflexivity|]. exists a. split; [|assumption].
      rewrite E1. replace (S i) with (length (a ++ [10%N])) by (rewrite app_length; cbn [length]; lia).
      change (a ++ 10%N :: r) with (a ++ [10%N] ++ r). rewrite app_assoc. rewrite firstn_app, Nat.sub_diag, firstn_all, firstn_O, app_nil_r. reflexivity.
    - pose proof (index_byte_none _ _ E) as Hn. destruct (i_err b) as [e|] eqn:Ee.
      + exists (SEnd (i_buf b) e), (mkIn [] None (i_inner b)). destruct Hb as [H1 [H2 H3]]. destruct (H3 e Ee) as [-> Hp].
        split; [reflexivity|]. split; [split; [assumption|]; split; [cbn [i_buf length]; lia|discriminate]|].
        split; [rewrite !in_left_pending; cbn [i_buf i_inner slice_len length]; lia|]. split; [exact Logic.I|].
        intros T' [o [Ho ->]]. cbn [i_buf i_inner app] in *. rewrite Hp in Ho. inversion Ho; subst.
        exists (i_buf b). split; [exists []; rewrite Hp, app_nil_r; split; [constructor|reflexivity]|]. cbn [slice_of]. auto.
      + destruct (Nat.leb_spec osize (length (i_buf b))) as [Hle|Hlt].
        * exists (SFull (i_buf b)), (mkIn [] None (i_inner b)). destruct Hb as [H1 [H2 H3]].
          split; [reflexivity|]. split; [split; [assumption|]; split; [cbn [i_buf length]; lia|discriminate]|].
          split; [rewrite !in_left_pending; cbn [i_buf i_inner slice_len length]; lia|].
          split; [destruct (i_buf b); cbn [length] in *; [lia|discriminate]|].
          intros T' [o [Ho ->]]. cbn [i_buf i_inner app] in *. exists (i_buf b ++ o). split; [exists o; auto|]. cbn [slice_of]. auto.
        * destruct (in_fill_spec b Hb Hlt) as [o [G1 [G2 [G3 G4]]]]. specialize (Hf eq_refl Hlt).
          destruct (IH (in_fill osize b) G1) as [sl [b' [K1 [K2 [K3 [K4 K5]]]]]]; [intros X Y; specialize (G4 X); lia|lia|].
          exists sl, b'. split; [assumption|]. split; [assumption|]. split.
          { rewrite (in_left_pending (in_fill osize b)), G2, app_length in K3. rewrite (in_left_pending b).
            pose proof (inserts_length _ _ _ G3). lia. }
          split; [assumption|]. intros T' HT. destruct (K5 T' HT) as [T [L1 L2]]. exists T. split; [apply fill_back; assumption|assumption].
  Qed.
  Definition raw_line (T : bytes) (line : bytes) (e : option err) (T' : bytes) : Prop :=
    (e = None /\ T = line ++ T' /\ exists a, line = a ++ [10%N] /\ ~ In 10%N a) \/ (e = Some fin /\ T = line /\ T' = [] /\ ~ In 10%N line).
  Lemma in_join_spec : forall f b, in_ok b -> (in_left b < f)%nat ->
    exists line e b', in_join osize f b = (Some (line, e), b') /\ in_ok b' /\ (in_left b' + length line <= in_left b)%nat /\
      forall T', stands b' T' -> exists T, stands b T /\ raw_line T line e T'.
  Proof.
    induction f as [|f IH]; intros b Hb Hf; [lia|]. cbn [in_join].
    destruct (in_slice_spec 2 b Hb) as [sl [b1 [K1 [K2 [K3 [K4 K5]]]]]]; [lia|lia|]. rewrite K1.
    destruct sl as [d|d|d e].
    - exists d, None, b1. split; [reflexivity|]. split; [assumption|]. split; [exact K3|].
      intros T' HT. destruct (K5 T' HT) as [T [L1 [L2 L3]]]. exists T. split; [assumption|]. left. auto.
    - assert (Hd : (0 < length d)%nat) by (destruct d; [congruence|cbn [length]; lia]). cbn [slice_len] in K3.
      destruct (IH b1 K2) as [r [e [b2 [M1 [M2 [M3 M4]]]]]]; [lia|]. rewrite M1.
      exists (d ++ r), e, b2. split; [reflexivity|]. split; [assumption|]. split; [rewrite app_length; lia|].
      intros T' HT. destruct (M4 T' HT) as [T1 [N1 N2]]. destruct (K5 T1 N1) as [T [L1 [L2 L3]]]. exists T. split; [assumption|].
      subst T. destruct N2 as [[-> [-> [a [-> Ha]]]]|[-> [-> [-> Hr]]]].
      + left. split; [reflexivity|]. split; [rewrite <- !app_assoc; reflexivity|]. exists (d ++ a). split; [rewrite app_assoc; reflexivity|].
        rewrite in_app_iff. tauto.
      + right. split; [reflexivity|]. split; [reflexivity|]. split; [reflexivity|]. rewrite in_app_iff. tauto.
    - exists d, (Some e), b1. split; [reflexivity|]. split; [assumption|]. split; [exact K3|].
      intros T' HT. destruct (K5 T' HT) as [T [L1 [L2 [L3 [L4 L5]]]]]. exists T. split; [assumption|]. right. subst e. auto.
  Qed.
  Lemma raw_pure : forall T line e T', raw_line T line e T' -> pure_line fin T = (Some (finish_line line e), T').
  Proof.
    intros T line e T' [[-> [-> [a [-> Ha]]]]|[-> [-> [-> Ha]]]]; unfold pure_line.
    - destruct (index_byte 10 ((a ++ [10%N]) ++ T')) as [i|] eqn:E.
      + destruct (index_byte_some _ _ _ E) as [a2 [r [E1 [E3 E2]]]].
        assert (Ea : a2 = a /\ r = T').
        { rewrite <- app_assoc in E1. cbn [app] in E1. clear - E1 E3 Ha. revert a2 E1 E3. induction a as [|c a IHa]; intros a2 E1 E3; destruct a2 as [|c2 a2]; cbn [app] in E1.
          - injection E1 as ->. auto.
          - injection E1 as E _. exfalso. apply E3. left. auto.
          - injection E1 as E _. exfalso. apply Ha. left. auto.
          - injection E1 as -> E. destruct (IHa (fun X => Ha (or_intror X)) a2 E) as [-> ->]; [intros X; apply E3; right; assumption|auto]. }
        destruct Ea as [-> ->]. replace (S i) with (length (a ++ [10%N])) by (rewrite app_length; cbn [length]; lia).
        rewrite firstn_app, Nat.sub_diag, firstn_all, firstn_O, app_nil_r, skipn_app, Nat.sub_diag, skipn_all. reflexivity.
      + exfalso. apply (index_byte_none _ _ E). rewrite !in_app_iff. left. right. left. reflexivity.
    - destruct (index_byte 10 line) as [i|] eqn:E; [|reflexivity].
      destruct (index_byte_some _ _ _ E) as [a2 [r [E1 _]]]. exfalso. apply Ha. rewrite E1. apply in_app_iff. right. left. reflexivity.
  Qed.
  Lemma in_line_back : bwd csvin bytes in_ok stands (in_line osize) (pure_line fin).
  Proof.
    intros b Hb. unfold in_line. destruct (in_join_spec (S (in_left b)) b Hb) as [line [e [b' [K1 [K2 [_ K4]]]]]]; [lia|].
    rewrite K1. cbn [fst snd]. split; [assumption|]. intros T' HT. destruct (K4 T' HT) as [T [L1 L2]]. exists T. split; [assumption|].
    apply raw_pure. assumption.
  Qed.

  (** One call of Read, and several. *)
  Fixpoint in_reads (lazy trim : bool) (c : N) (n : nat) (r : creader csvin) : list (res (list bytes)) * creader csvin :=
    match n with
    | O => ([], r)
    | S m => let '(x, r1) := in_read osize lazy trim c r in let '(xs, r2) := in_reads lazy trim c m r1 in (x :: xs, r2)
    end.
  Theorem in_reads_answers : forall lazy trim c n r, valid_delim c = true -> in_ok (r_st r) ->
    in_ok (r_st (snd (in_reads lazy trim c n r))) /\
    exists T l, stands (r_st r) T /\ answers lazy trim (encode_rune c) fin (r_width r) (clean fin T) l /\ fst (in_reads lazy trim c n r) = map answer_res l.
  Proof.
    intros lazy trim c n. induction n as [|n IH]; intros [w st] Hc Hi; cbn [r_st r_width] in *.
    - split; [assumption|]. destruct (stands_some st) as [T HT]. exists T, []. split; [assumption|]. split; [constructor|reflexivity].
    - cbn [in_reads]. destruct (in_read osize lazy trim c (mkCr w st)) as [x [w1 st1]] eqn:E. unfold in_read in E. cbn [r_st] in E.
      destruct (bwd_read csvin bytes in_ok stands _ _ lazy trim c _ _ _ _ _ _ in_line_back Hi E) as [H1 H2].
      destruct (in_reads lazy trim c n (mkCr w1 st1)) as [xs r2] eqn:E2.
      destruct (IH (mkCr w1 st1) Hc H1) as [I1 [T1 [l [I2 [I3 I4]]]]]. rewrite E2 in I1, I4. cbn [fst snd r_st r_width] in *.
      split; [assumption|]. destruct (H2 T1 I2) as [T [G1 G2]].
      destruct (pure_read_ok lazy trim c fin (2 * in_left st + 4) w T) as [a [w' [T' [P1 [P2 P3]]]]]; [assumption|pose proof (stands_length _ _ G1); lia|].
      rewrite P1 in G2. injection G2 as Ea Ew ET. subst x w1 T1. exists T, (a :: l). split; [assumption|]. split; [apply P3; assumption|].
      cbn [map]. f_equal. assumption.
  Qed.
End Input.

(** Line endings. *)
Lemma inserts_tidy : forall fin d T, inserts d T [] -> tidy fin d (clean fin T).
Proof.
  intros fin. assert (G : forall n d T, (length T < n)%nat -> inserts d T [] -> tidy fin d (clean fin T)).
  2: { intros d T. apply (G (S (length T))). lia. }
  induction n as [|n IH]; intros d T Hn H; [lia|].
  inversion H as [s E1 E2|c s o rest H1 E1 E2|s o rest Hh H1 E1 E2]; subst.
  - constructor.
  - cbn [length] in Hn. cbn [clean]. destruct (N.eqb_spec c 13) as [->|Hc]; [|apply td_keep; [assumption|apply IH; [lia|assumption]]].
    destruct o as [|x o].
    + inversion H1; subst. destruct fin; cbn [is_eof]; [apply td_last; reflexivity| |];
      (apply td_lone_cr; [intros [r X]; discriminate|right; discriminate|constructor]).
    + assert (Hx : hd_error s = Some x) by (inversion H1; subst; reflexivity).
      destruct (N.eqb_spec x 10) as [->|Hx10].
      * assert (Hs : exists s', s = 10%N :: s' /\ inserts s' o []) by (inversion H1; subst; eexists; split; [reflexivity|assumption]).
        destruct Hs as [s' [-> Hs]]. cbn [clean]. change (N.eqb 10 13) with false. cbv iota. apply td_crlf. apply IH; [cbn [length] in Hn; lia|assumption].
      * apply td_lone_cr; [|left; intros ->; discriminate|apply IH; [lia|assumption]].
        intros [r ->]. cbn in Hx. congruence.
  - cbn [length] in Hn. cbn [clean]. change (N.eqb cCR 13) with true. change (N.eqb cLF 10) with true. change (N.eqb cLF 13) with false. cbv iota.
    apply td_lone_lf; [|apply IH; [lia|assumption]]. intros [r ->]. apply Hh. reflexivity.
Qed.
(** Texts without lone carriage returns. *)
Fixpoint unix_ends (d : bytes) : bytes :=
  match d with
  | [] => []
  | c :: t => match t with
              | x :: _ => if N.eqb c 13 && N.eqb x 10 then unix_ends t else c :: unix_ends t
              | [] => [c]
              end
  end.
Lemma tidy_unix : forall fin d t, tidy fin d t -> no_lone_cr d -> t = unix_ends d.
Proof.
  intros fin. induction 1 as [|c s o Hc H IH|s o H IH|s o Hb H IH|s o Hb Hn H IH|Hf]; intros Hd.
  - reflexivity.
  - assert (Ho : o = unix_ends s). { apply IH. intros i [X Y]. apply (Hd (S i)). split; assumption. }
    subst o. cbn [unix_ends]. apply N.eqb_neq in Hc. rewrite Hc. destruct s; reflexivity.
  - assert (Ho : o = unix_ends s). { apply IH. intros i [X Y]. apply (Hd (S (S i))). split; assumption. }
    subst o. change (unix_ends (13%N :: 10%N :: s)) with (unix_ends (10%N :: s)). cbn [unix_ends]. change (N.eqb 10 13) with false. destruct s; reflexivity.
  - exfalso. apply (Hd O). split; [reflexivity|]. destruct s as [|x s]; [discriminate|]. cbn. intros X. injection X as ->. apply Hb. eexists. reflexivity.
  - exfalso. apply (Hd O). split; [reflexivity|]. destruct s as [|x s]; [discriminate|]. cbn. intros X. injection X as ->. apply Hb. eexists. reflexivity.
  - exfalso. apply (Hd O). split; [reflexivity|discriminate].
Qed.
Lemma unix_no_cr : forall d, ~ In 13%N d -> unix_ends d = d.
Proof.
  induction d as [|c t IH]; intros H; [reflexivity|]. cbn [unix_ends]. assert (Ht : unix_ends t = t) by (apply IH; intros X; apply H; right; assumption).
  destruct t as [|x t]; [reflexivity|]. replace (N.eqb c 13) with false; [cbn [andb]; f_equal; assumption|].
  symmetry. apply N.eqb_neq. intros ->. apply H. left. reflexivity.
Qed.

(** A new reader. *)
Lemma start_ok : forall osize size s, in_ok osize (s_fin s) (mkIn [] None (new_bufr size s)) /\
  forall T, stands (mkIn [] None (new_bufr size s)) T -> inserts (s_rem s) T [].
Proof.
  intros osize size s. destruct (new_bufr_ok size s) as [H1 H2]. split.
  - split; [eexists; exact H1|]. split; [cbn [i_buf length]; lia|discriminate].
  - intros T [o [Ho ->]]. cbn [i_buf i_inner app] in *. rewrite H2 in Ho. assumption.
Qed.

(** The chunks of the source and the size of the inner buffer do not matter. *)
Section Same.
  Variable osize : nat.
  Variable fin : err.
  Hypothesis room : (0 < osize)%nat.
  Definition same_in (a b : csvin) : Prop :=
    in_ok osize fin a /\ in_ok osize fin b /\ i_buf a = i_buf b /\ i_err a = i_err b /\ pending (i_inner a) = pending (i_inner b).
  Lemma same_left : forall a b, same_in a b -> in_left a = in_left b.
  Proof. intros a b [_ [_ [H1 [_ H2]]]]. rewrite !in_left_pending, H1, H2. reflexivity. Qed.
  Lemma same_fill : forall a b, same_in a b -> (length (i_buf a) < osize)%nat -> same_in (in_fill osize a) (in_fill osize b).
  Proof.
    intros a b [Ha [Hb [H1 [H2 H3]]]] Hl.
    destruct (in_fill_spec osize fin room a Ha Hl) as [oa [A1 _]]. rewrite H1 in Hl. destruct (in_fill_spec osize fin room b Hb Hl) as [ob [B1 _]].
    split; [assumption|]. split; [assumption|].
    destruct Ha as [[ca Ha] _]. destruct Hb as [[cb Hb] _]. assert (Hca : (0 < ca)%nat) by apply Ha. assert (Hcb : (0 < cb)%nat) by apply Hb.
    unfold in_fill. rewrite H1.
    destruct (run_buf_list _ (cr_read (osize - length (i_buf b))) ca fin (i_inner a) Ha) as [a' [E1 [_ E3]]].
    destruct (run_buf_list _ (cr_read (osize - length (i_buf b))) cb fin (i_inner b) Hb) as [b' [G1 [_ G3]]].
    rewrite E1, G1. pose proof (crl_cap_free ca cb fin Hca Hcb _ _ (le_n (osize - length (i_buf b))) (pending (i_inner a))) as C.
    unfold crl in C. fold (cr_read (osize - length (i_buf b))) in C. rewrite C in E3 |- *. rewrite <- H3 in G3 |- *.
    destruct (fst (run_list cb fin (cr_read (osize - length (i_buf b))) (pending (i_inner a)))) as [o e]. cbn [i_buf i_err i_inner].
    repeat split; congruence.
  Qed.
  Lemma same_make : forall a b buf e, same_in a b -> (length buf <= osize)%nat -> e = None \/ e = i_err a ->
    same_in (mkIn buf e (i_inner a)) (mkIn buf e (i_inner b)).
  Proof.
    intros a b buf e [[A1 [A2 A3]] [[B1 [B2 B3]] [H1 [H2 H3]]]] Hl He. split; [|split; [|split; [reflexivity|split; [reflexivity|assumption]]]].
    - split; [assumption|]. split; [assumption|]. cbn [i_err i_inner]. destruct He as [->| ->]; [discriminate|assumption].
    - split; [assumption|]. split; [assumption|]. cbn [i_err i_inner]. destruct He as [->| ->]; [discriminate|rewrite H2; assumption].
  Qed.
  Lemma same_slice : forall f, fwd csvin csvin same_in (in_slice osize f) (in_slice osize f).
  Proof.
    induction f as [|f IH]; intros a b H; [auto|]. cbn [in_slice]. pose proof H as [Ha [Hb [H1 [H2 H3]]]]. rewrite H1, H2.
    destruct (index_byte 10 (i_buf b)) as [i|].
    - split; [reflexivity|]. cbn [snd]. apply same_make; [assumption| |auto]. destruct Hb as [_ [Hb _]].
      pose proof (f_equal (@length N) (firstn_skipn (S i) (i_buf b))) as X. rewrite app_length in X. lia.
    - destruct (i_err b).
      + split; [reflexivity|]. cbn [snd]. apply same_make; [assumption|cbn [length]; lia|auto].
      + destruct (Nat.leb_spec osize (length (i_buf b))) as [Hle|Hlt].
        * split; [reflexivity|]. cbn [snd]. apply same_make; [assumption|cbn [length]; lia|auto].
        * apply IH. apply same_fill; [assumption|rewrite H1; assumption].
  Qed.
  Lemma same_join : forall f, fwd csvin csvin same_in (in_join osize f) (in_join osize f).
  Proof.
    induction f as [|f IH]; intros a b H; [auto|]. cbn [in_join]. destruct (same_slice 2 a b H) as [E1 E2].
    destruct (in_slice osize 2 a) as [x a1], (in_slice osize 2 b) as [y b1]. cbn [fst snd] in *. subst y.
    destruct x as [[d|d|d e]|]; auto. destruct (IH a1 b1 E2) as [G1 G2].
    destruct (in_join osize f a1) as [x a2], (in_join osize f b1) as [y b2]. cbn [fst snd] in *. subst y. destruct x as [[r e]|]; auto.
  Qed.
  Lemma same_line : fwd csvin csvin same_in (in_line osize) (in_line osize).
  Proof.
    intros a b H. unfold in_line. rewrite (same_left a b H). destruct (same_join (S (in_left b)) a b H) as [E1 E2].
    destruct (in_join osize (S (in_left b)) a) as [x a1], (in_join osize (S (in_left b)) b) as [y b1]. cbn [fst snd] in *. subst y.
    destruct x as [[l e]|]; auto.
  Qed.
  Lemma same_read : forall lazy trim c w a b, same_in a b -> exists x w' a' b',
    in_read osize lazy trim c (mkCr w a) = (x, mkCr w' a') /\ in_read osize lazy trim c (mkCr w b) = (x, mkCr w' b') /\ same_in a' b'.
  Proof.
    intros lazy trim c w a b H. unfold in_read. cbn [r_st]. rewrite (same_left a b H).
    apply fwd_read; [apply same_line|assumption].
  Qed.
End Same.
