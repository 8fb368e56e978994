(** JSON texts cut short: the list reader always runs into the end of its input. *)
From Verif Require Import Base M_Decimal L_Decimal M_Utf8 M_Json S_JsonPure S_JsonText L_JsonRead.

Definition ended (ps : pst) : Prop := ps = Live [] \/ ps = Dead.
Definition good {A} (r : res A) : Prop := match r with Ok _ => True | Err e => is_eof_text e <> true | _ => False end.
Definition cut_ok {A} (p : jprog (res A)) (ps : pst) : Prop :=
  exists r ps', run_pure p ps = (Some r, ps') /\ ended ps' /\ good r.

Lemma cut_ret : forall A (r : res A) ps, ended ps -> good r -> cut_ok (JRet r) ps.
Proof. intros A r ps H1 H2. exists r, ps. auto. Qed.

Lemma cut_bind : forall A B (p : jprog (res A)) (f : res A -> jprog (res B)) ps,
  cut_ok p ps -> (forall r ps', ended ps' -> good r -> cut_ok (f r) ps') -> cut_ok (jbind p f) ps.
Proof.
  intros A B p f ps [r [ps' [H1 [H2 H3]]]] Hf. unfold cut_ok. rewrite run_pure_bind, H1. apply Hf; assumption.
Qed.

Lemma cut_rbind : forall A B (p : jprog (res A)) (f : A -> jprog (res B)) ps,
  cut_ok p ps -> (forall a ps', ended ps' -> cut_ok (f a) ps') -> cut_ok (jrbind p f) ps.
Proof.
  intros A B p f ps Hp Hf. unfold jrbind. apply cut_bind; [assumption|].
  intros [a|e| |] ps' He Hg; [apply Hf; assumption|apply cut_ret; assumption|contradiction|contradiction].
Qed.

(** Continuing after a complete part. *)
Lemma cut_step : forall A B (p : jprog (res A)) (f : A -> jprog (res B)) ps a ps',
  run_pure p ps = (Some (Ok a), ps') -> cut_ok (f a) ps' -> cut_ok (jrbind p f) ps.
Proof. intros A B p f ps a ps' H Hf. unfold cut_ok, jrbind. rewrite run_pure_bind, H. exact Hf. Qed.

Lemma tok_ended : forall A ch (k : bool -> jprog A) ps, ended ps -> is_lower ch = false ->
  run_pure (JTok ch k) ps = run_pure (k false) ps.
Proof. intros A ch k ps [->| ->] Hc; cbn; [reflexivity|]. rewrite Hc. reflexivity. Qed.

Lemma skip_blank_only : forall w, blank w -> skip_ws w = [].
Proof. intros w H. rewrite <- (app_nil_r w), skip_blank by assumption. reflexivity. Qed.

Lemma split_prefix : forall (q q' a b : bytes), a ++ b = q ++ q' ->
  (exists a', a = q ++ a') \/ (exists b1, q = a ++ b1 /\ b = b1 ++ q').
Proof.
  induction q as [|c q IH]; intros q' a b E; [left; exists a; reflexivity|].
  destruct a as [|d a]; [right; exists (c :: q); auto|].
  cbn in E. injection E as -> E. destruct (IH _ _ _ E) as [[a' ->]|[b1 [-> ->]]].
  - left. exists a'. reflexivity.
  - right. exists b1. auto.
Qed.

Lemma blank_app : forall a b, blank (a ++ b) -> blank a /\ blank b.
Proof. intros a b H. apply Forall_app in H. exact H. Qed.
Lemma blank_app_intro : forall a b, blank a -> blank b -> blank (a ++ b).
Proof. intros a b H1 H2. apply Forall_app. auto. Qed.

Section Cut.
  Variable F : Type.
  Variable parse_float : bytes -> option F.
  Variable surrogate : bytes.
  Notation read_value := (read_value F parse_float surrogate).
  Notation read_object := (read_object F parse_float surrogate).
  Notation read_pairs := (read_pairs F parse_float surrogate).
  Notation read_pair := (read_pair F parse_float surrogate).
  Notation read_array := (read_array F parse_float surrogate).
  Notation read_elems := (read_elems F parse_float surrogate).
  Notation float_reads := (float_reads F parse_float).
  Notation jtext := (jtext F float_reads).
  Notation jtail := (jtail F float_reads).
  Notation jpair := (jpair F float_reads).
  Notation jptail := (jptail F float_reads).
  Notation gval := (gval F).

  Lemma delim_prefix : forall q q', delim (q ++ q') -> delim q.
  Proof. intros [|c q] q' H; [exact I|exact H]. Qed.

  Lemma elems_ended : forall fuel acc ps, ended ps -> cut_ok (read_elems (Datatypes.S fuel) acc) ps.
  Proof.
    intros fuel acc ps He. rewrite read_elems_S. exists (Err err_separate), ps.
    rewrite !tok_ended by auto. split; [|split; [assumption|discriminate]].
    destruct He as [->| ->]; reflexivity.
  Qed.
  Lemma pairs_ended : forall fuel obj ps, ended ps -> cut_ok (read_pairs (Datatypes.S fuel) obj) ps.
  Proof.
    intros fuel obj ps He. rewrite read_pairs_S. exists (Err err_separate), ps.
    rewrite !tok_ended by auto. split; [reflexivity|split; [assumption|discriminate]].
  Qed.
  Lemma value_blank : forall fuel w, blank w -> run_pure (read_value (Datatypes.S fuel)) (Live w) = (Some (Ok VNil), Live []).
  Proof. intros fuel w Hw. rewrite read_value_S. cbn [run_pure]. rewrite skip_blank_only by assumption. reflexivity. Qed.
  Lemma pair_blank : forall fuel w, blank w -> cut_ok (read_pair (Datatypes.S fuel)) (Live w).
  Proof.
    intros fuel w Hw. rewrite read_pair_S. exists (Err err_string), (Live []). unfold jrbind. rewrite run_pure_bind.
    unfold read_string. cbn [run_pure]. rewrite skip_blank_only by assumption.
    split; [reflexivity|split; [left; reflexivity|discriminate]].
  Qed.

  Lemma cut_eq : forall A (p p' : jprog (res A)) ps ps', run_pure p ps = run_pure p' ps' -> cut_ok p' ps' -> cut_ok p ps.
  Proof. intros A p p' ps ps' E H. unfold cut_ok. rewrite E. exact H. Qed.

  (** A number cut short. *)
  Lemma number_cut : forall c t' q q' fuel w, num_start c = true -> forallb is_num_char (c :: t') = true ->
    blank w -> c :: t' = q ++ q' -> cut_ok (read_value (Datatypes.S fuel)) (Live (w ++ q)).
  Proof.
    intros c t' q q' fuel w Hc Hn Hw E. destruct q as [|d q].
    - rewrite app_nil_r. exists (Ok VNil), (Live []). rewrite value_blank by assumption.
      split; [reflexivity|split; [left; reflexivity|exact I]].
    - cbn in E. injection E as <- E.
      assert (Hq : forallb is_num_char (c :: q) = true).
      { rewrite E in Hn. change (c :: q ++ q') with ((c :: q) ++ q') in Hn. rewrite forallb_app in Hn.
        apply andb_true_iff in Hn. tauto. }
      exists (convert_number F parse_float (c :: q)), (Live []).
      pose proof (number_value F parse_float surrogate c q [] w fuel Hc Hq Hw I) as H.
      rewrite app_nil_r in H. split; [exact H|]. split; [left; reflexivity|].
      unfold convert_number. destruct (existsb is_float_char (c :: q)).
      + destruct (parse_float (c :: q)); [exact I|discriminate].
      + destruct (parse_int64 (c :: q)); [exact I|discriminate].
  Qed.

  Theorem read_cut :
    (forall v t, jtext v t -> forall q q' fuel w, t = q ++ q' -> (2 * length t <= fuel)%nat -> blank w ->
       cut_ok (read_value fuel) (Live (w ++ q))) /\
    (forall vs t, jtail vs t -> forall q q' fuel acc, t = q ++ q' -> (2 * length t + 1 <= fuel)%nat ->
       cut_ok (read_elems fuel acc) (Live q)) /\
    (forall kv t, jpair kv t -> forall q q' fuel w, t = q ++ q' -> (2 * length t <= fuel)%nat -> blank w ->
       cut_ok (read_pair fuel) (Live (w ++ q))) /\
    (forall kvs t, jptail kvs t -> forall q q' fuel obj, t = q ++ q' -> (2 * length t + 1 <= fuel)%nat ->
       cut_ok (read_pairs fuel obj) (Live q)).
  Proof.
    destruct (read_text F parse_float surrogate) as [RT [_ [RP _]]].
    apply (json_text_ind F float_reads
      (fun v t => forall q q' fuel w, t = q ++ q' -> (2 * length t <= fuel)%nat -> blank w ->
         cut_ok (read_value fuel) (Live (w ++ q)))
      (fun vs t => forall q q' fuel acc, t = q ++ q' -> (2 * length t + 1 <= fuel)%nat ->
         cut_ok (read_elems fuel acc) (Live q))
      (fun kv t => forall q q' fuel w, t = q ++ q' -> (2 * length t <= fuel)%nat -> blank w ->
         cut_ok (read_pair fuel) (Live (w ++ q)))
      (fun kvs t => forall q q' fuel obj, t = q ++ q' -> (2 * length t + 1 <= fuel)%nat ->
         cut_ok (read_pairs fuel obj) (Live q))).
    - (* null *) intros q q' fuel w E Hf Hw. destruct fuel; [cbn in Hf; lia|].
      unfold cut_ok. rewrite read_value_S. cbn [run_pure]. rewrite skip_blank by assumption.
      destruct q as [|c1 [|c2 [|c3 [|c4 [|c5 q]]]]]; cbn in E; inversion E; subst; cbn;
        (eexists; eexists; split; [reflexivity|split; [unfold ended; auto|first [exact I|discriminate]]]).
    - (* true *) intros q q' fuel w E Hf Hw. destruct fuel; [cbn in Hf; lia|].
      unfold cut_ok. rewrite read_value_S. cbn [run_pure]. rewrite skip_blank by assumption.
      destruct q as [|c1 [|c2 [|c3 [|c4 [|c5 q]]]]]; cbn in E; inversion E; subst; cbn;
        (eexists; eexists; split; [reflexivity|split; [unfold ended; auto|first [exact I|discriminate]]]).
    - (* false *) intros q q' fuel w E Hf Hw. destruct fuel; [cbn in Hf; lia|].
      unfold cut_ok. rewrite read_value_S. cbn [run_pure]. rewrite skip_blank by assumption.
      destruct q as [|c1 [|c2 [|c3 [|c4 [|c5 [|c6 q]]]]]]; cbn in E; inversion E; subst; cbn;
        (eexists; eexists; split; [reflexivity|split; [unfold ended; auto|first [exact I|discriminate]]]).
    - (* int *) intros z t Hz Ht q q' fuel w E Hf Hw. destruct (int_text_facts z t Ht) as [c [t' [-> [Hc [H1 [H2 H3]]]]]].
      destruct fuel; [cbn in Hf; lia|]. apply (number_cut c t' q q'); assumption.
    - (* float *) intros f t [[c [t' [-> Hc]]] [H1 [H2 H3]]] q q' fuel w E Hf Hw.
      destruct fuel; [cbn in Hf; lia|]. apply (number_cut c t' q q'); assumption.
    - (* string *) intros s t Hs q q' fuel w E Hf Hw. destruct fuel; [cbn in Hf; lia|].
      destruct q as [|c q].
      { rewrite app_nil_r. exists (Ok VNil), (Live []). rewrite value_blank by assumption.
        split; [reflexivity|split; [left; reflexivity|exact I]]. }
      cbn in E. injection E as <- E.
      rewrite read_value_S. eapply cut_eq.
      { cbn [run_pure]. rewrite skip_blank by assumption. cbn [skip_ws]. change (is_ws 34) with false. cbn [hd N.eqb Pos.eqb]. reflexivity. }
      destruct (split_prefix q q' t [34%N] E) as [[a' Ea]|[b1 [Eq Eb]]].
      + apply cut_rbind; [|intros; apply cut_ret; [assumption|exact I]].
        exists (Err err_closing), Dead. split; [apply (string_cut surrogate s t [] q a' Hs); [constructor|assumption]|].
        split; [right; reflexivity|discriminate].
      + destruct b1 as [|d b1].
        * rewrite app_nil_r in Eq. subst q. apply cut_rbind; [|intros; apply cut_ret; [assumption|exact I]].
          exists (Err err_closing), Dead. split; [apply (string_cut surrogate s t [] t [] Hs); [constructor|symmetry; apply app_nil_r]|].
          split; [right; reflexivity|discriminate].
        * cbn in Eb. injection Eb as <- Eb. destruct b1; [|discriminate]. subst q.
          eapply cut_step; [apply (string_ok surrogate s t [] [] Hs); constructor|].
          apply cut_ret; [left; reflexivity|exact I].
    - (* [] *) intros w1 Hw1 q q' fuel w E Hf Hw. cbn [length] in Hf. rewrite app_length in Hf. cbn [length] in Hf.
      destruct fuel as [|[|[|fuel]]]; [lia|lia|lia|].
      destruct q as [|c q].
      { rewrite app_nil_r. exists (Ok VNil), (Live []). rewrite value_blank by assumption.
        split; [reflexivity|split; [left; reflexivity|exact I]]. }
      cbn in E. injection E as <- E.
      destruct (split_prefix q q' w1 [93%N] E) as [[a' Ea]|[b1 [Eq Eb]]].
      + eapply cut_eq.
        { rewrite read_value_S. cbn [run_pure]. rewrite skip_blank by assumption. cbn [skip_ws]. change (is_ws 91) with false.
          cbn [hd]. change (is_digit 91) with false. cbn [N.eqb Pos.eqb orb]. rewrite read_array_S.
          rewrite tok_yes0 by reflexivity. cbn [negb]. rewrite tok_end; [reflexivity|].
          rewrite Ea in Hw1. apply blank_app in Hw1. tauto. }
        unfold cut_ok. rewrite run_pure_bind. rewrite value_blank by constructor.
        apply elems_ended. left; reflexivity.
      + destruct b1 as [|d b1].
        * rewrite app_nil_r in Eq. subst q. eapply cut_eq.
          { rewrite read_value_S. cbn [run_pure]. rewrite skip_blank by assumption. cbn [skip_ws]. change (is_ws 91) with false.
            cbn [hd]. change (is_digit 91) with false. cbn [N.eqb Pos.eqb orb]. rewrite read_array_S.
            rewrite tok_yes0 by reflexivity. cbn [negb]. rewrite tok_end by assumption. reflexivity. }
          unfold cut_ok. rewrite run_pure_bind. rewrite value_blank by constructor.
          apply elems_ended. left; reflexivity.
        * cbn in Eb. injection Eb as <- Eb. destruct b1; [|discriminate]. subst q.
          exists (Ok (VArr [])), (Live []).
          assert (H : jtext (VArr []) (91%N :: w1 ++ [93%N])) by (constructor; assumption).
          pose proof (RT _ _ H (Datatypes.S (Datatypes.S (Datatypes.S fuel))) w []) as R.
          rewrite app_nil_r in R. split; [apply R; [cbn [length]; rewrite app_length; cbn [length]; lia|assumption|exact I]|].
          split; [left; reflexivity|exact I].
    - (* [v, ...] *) intros v vs w1 t rt Hw1 Ht IHt Hrt IHrt q q' fuel w E Hf Hw.
      cbn [length] in Hf. rewrite !app_length in Hf. cbn [length] in Hf.
      destruct fuel as [|[|[|fuel]]]; [lia|lia|lia|].
      destruct q as [|c q].
      { rewrite app_nil_r. exists (Ok VNil), (Live []). rewrite value_blank by assumption.
        split; [reflexivity|split; [left; reflexivity|exact I]]. }
      cbn in E. injection E as <- E.
      assert (Hblankcase : blank q -> cut_ok (read_value (Datatypes.S (Datatypes.S (Datatypes.S fuel)))) (Live (w ++ 91%N :: q))).
      { intros Hq. eapply cut_eq.
        { rewrite read_value_S. cbn [run_pure]. rewrite skip_blank by assumption. cbn [skip_ws]. change (is_ws 91) with false.
          cbn [hd]. change (is_digit 91) with false. cbn [N.eqb Pos.eqb orb]. rewrite read_array_S.
          rewrite tok_yes0 by reflexivity. cbn [negb]. rewrite tok_end by assumption. reflexivity. }
        unfold cut_ok. rewrite run_pure_bind. rewrite value_blank by constructor.
        apply elems_ended. left; reflexivity. }
      destruct (split_prefix q q' w1 _ E) as [[a' Ea]|[b1 [Eq Eb]]].
      { apply Hblankcase. rewrite Ea in Hw1. apply blank_app in Hw1. tauto. }
      destruct b1 as [|d b1].
      { apply Hblankcase. rewrite app_nil_r in Eq. subst q. assumption. }
      clear Hblankcase.
      destruct (jtext_head _ _ _ _ Ht) as [c [t' [Et [Hc1 [Hc2 Hc3]]]]].
      assert (d = c) by (rewrite Et in Eb; cbn in Eb; congruence). subst d.
      eapply cut_eq.
      { rewrite read_value_S. cbn [run_pure]. rewrite skip_blank by assumption. cbn [skip_ws]. change (is_ws 91) with false.
        cbn [hd]. change (is_digit 91) with false. cbn [N.eqb Pos.eqb orb]. rewrite read_array_S.
        rewrite tok_yes0 by reflexivity. cbn [negb]. rewrite Eq. rewrite (tok_no _ 93%N c) by assumption. reflexivity. }
      destruct (split_prefix (c :: b1) q' t _ Eb) as [[a' Ea]|[b2 [Eq2 Eb2]]].
      + apply cut_bind; [apply (IHt (c :: b1) a' (Datatypes.S fuel) []); [assumption|lia|constructor]|].
        intros [x|e| |] ps' He Hg; [apply elems_ended; assumption|apply cut_ret; [assumption|exact I]|contradiction|contradiction].
      + destruct (split_prefix b2 q' rt _ Eb2) as [[a' Ea]|[b3 [Eq3 Eb3]]].
        * unfold cut_ok. rewrite run_pure_bind. rewrite Eq2.
          pose proof (RT v t Ht (Datatypes.S fuel) [] b2) as R. cbn [app] in R. rewrite R; clear R; [|lia|constructor|].
          -- apply (IHrt b2 a' (Datatypes.S fuel) [v] Ea). lia.
          -- apply (delim_prefix b2 a'). rewrite <- Ea. rewrite <- (app_nil_r rt). eapply delim_tail; [eassumption|exact I].
        * assert (Hb3 : b3 = [] \/ b3 = [93%N]).
          { destruct b3 as [|x [|y b3]]; [left; reflexivity|right; inversion Eb3; subst; reflexivity|inversion Eb3]. }
          unfold cut_ok. rewrite run_pure_bind. rewrite Eq2.
          pose proof (RT v t Ht (Datatypes.S fuel) [] b2) as R. cbn [app] in R. rewrite R; clear R; [|lia|constructor|].
          -- destruct Hb3 as [-> | ->].
             ++ rewrite app_nil_r in Eq3. subst b2. apply (IHrt rt [] (Datatypes.S fuel) [v]); [symmetry; apply app_nil_r|lia].
             ++ rewrite Eq3. destruct (read_text F parse_float surrogate) as [_ [RE _]].
                pose proof (RE vs rt Hrt (Datatypes.S fuel) [v] []) as R. rewrite R by lia.
                eexists; eexists; split; [reflexivity|split; [left; reflexivity|exact I]].
          -- rewrite Eq3. eapply delim_tail; [eassumption|]. destruct Hb3 as [-> | ->]; [exact I|reflexivity].
    - (* {} *) intros w1 Hw1 q q' fuel w E Hf Hw. cbn [length] in Hf. rewrite app_length in Hf. cbn [length] in Hf.
      destruct fuel as [|[|[|fuel]]]; [lia|lia|lia|].
      destruct q as [|c q].
      { rewrite app_nil_r. exists (Ok VNil), (Live []). rewrite value_blank by assumption.
        split; [reflexivity|split; [left; reflexivity|exact I]]. }
      cbn in E. injection E as <- E.
      assert (Hblankcase : blank q -> cut_ok (read_value (Datatypes.S (Datatypes.S (Datatypes.S fuel)))) (Live (w ++ 123%N :: q))).
      { intros Hq. eapply cut_eq.
        { rewrite read_value_S. cbn [run_pure]. rewrite skip_blank by assumption. cbn [skip_ws]. change (is_ws 123) with false.
          cbn [hd]. change (is_digit 123) with false. cbn [N.eqb Pos.eqb orb]. rewrite read_object_S.
          rewrite tok_yes0 by reflexivity. cbn [negb]. rewrite tok_end by assumption. reflexivity. }
        apply cut_rbind; [apply pair_blank; constructor|]. intros. apply pairs_ended; assumption. }
      destruct (split_prefix q q' w1 [125%N] E) as [[a' Ea]|[b1 [Eq Eb]]].
      + apply Hblankcase. rewrite Ea in Hw1. apply blank_app in Hw1. tauto.
      + destruct b1 as [|d b1].
        * rewrite app_nil_r in Eq. subst q. apply Hblankcase; assumption.
        * cbn in Eb. injection Eb as <- Eb. destruct b1; [|discriminate]. subst q.
          exists (Ok (VMap [])), (Live []).
          assert (H : jtext (VMap []) (123%N :: w1 ++ [125%N])) by (constructor; assumption).
          pose proof (RT _ _ H (Datatypes.S (Datatypes.S (Datatypes.S fuel))) w []) as R.
          rewrite app_nil_r in R. split; [apply R; [cbn [length]; rewrite app_length; cbn [length]; lia|assumption|exact I]|].
          split; [left; reflexivity|exact I].
    - (* {k: v, ...} *) intros kv kvs w1 t rt Hw1 Ht IHt Hrt IHrt q q' fuel w E Hf Hw.
      cbn [length] in Hf. rewrite !app_length in Hf. cbn [length] in Hf.
      destruct fuel as [|[|[|fuel]]]; [lia|lia|lia|].
      destruct q as [|c q].
      { rewrite app_nil_r. exists (Ok VNil), (Live []). rewrite value_blank by assumption.
        split; [reflexivity|split; [left; reflexivity|exact I]]. }
      cbn in E. injection E as <- E.
      assert (Hblankcase : blank q -> cut_ok (read_value (Datatypes.S (Datatypes.S (Datatypes.S fuel)))) (Live (w ++ 123%N :: q))).
      { intros Hq. eapply cut_eq.
        { rewrite read_value_S. cbn [run_pure]. rewrite skip_blank by assumption. cbn [skip_ws]. change (is_ws 123) with false.
          cbn [hd]. change (is_digit 123) with false. cbn [N.eqb Pos.eqb orb]. rewrite read_object_S.
          rewrite tok_yes0 by reflexivity. cbn [negb]. rewrite tok_end by assumption. reflexivity. }
        apply cut_rbind; [apply pair_blank; constructor|]. intros. apply pairs_ended; assumption. }
      destruct (split_prefix q q' w1 _ E) as [[a' Ea]|[b1 [Eq Eb]]].
      { apply Hblankcase. rewrite Ea in Hw1. apply blank_app in Hw1. tauto. }
      destruct b1 as [|d b1].
      { apply Hblankcase. rewrite app_nil_r in Eq. subst q. assumption. }
      clear Hblankcase.
      destruct (jpair_head _ _ _ _ Ht) as [t' Et].
      assert (d = 34%N) by (rewrite Et in Eb; cbn in Eb; congruence). subst d.
      eapply cut_eq.
      { rewrite read_value_S. cbn [run_pure]. rewrite skip_blank by assumption. cbn [skip_ws]. change (is_ws 123) with false.
        cbn [hd]. change (is_digit 123) with false. cbn [N.eqb Pos.eqb orb]. rewrite read_object_S.
        rewrite tok_yes0 by reflexivity. cbn [negb]. rewrite Eq. rewrite (tok_no _ 125%N 34%N) by (assumption || reflexivity). reflexivity. }
      destruct (split_prefix (34%N :: b1) q' t _ Eb) as [[a' Ea]|[b2 [Eq2 Eb2]]].
      + apply cut_rbind; [apply (IHt (34%N :: b1) a' (Datatypes.S fuel) []); [assumption|lia|constructor]|].
        intros. apply pairs_ended; assumption.
      + assert (Hb2 : (exists a', rt = b2 ++ a') \/ b2 = rt ++ [125%N]).
        { destruct (split_prefix b2 q' rt _ Eb2) as [[a' Ea]|[b3 [Eq3 Eb3]]]; [left; eauto|].
          destruct b3 as [|x [|y b3]]; [left; exists []; rewrite app_nil_r in *; congruence|right; inversion Eb3; subst; reflexivity|inversion Eb3]. }
        assert (Hd : delim b2).
        { destruct Hb2 as [[a' Ea]| ->].
          - apply (delim_prefix b2 a'). rewrite <- Ea. rewrite <- (app_nil_r rt). eapply delim_ptail; [eassumption|exact I].
          - eapply delim_ptail; [eassumption|reflexivity]. }
        rewrite Eq2.
        pose proof (RP kv t Ht (Datatypes.S fuel) [] b2) as R. cbn [app] in R.
        eapply cut_step; [apply R; [lia|constructor|assumption]|].
        destruct Hb2 as [[a' Ea]| ->].
        * apply (IHrt b2 a' (Datatypes.S fuel) _ Ea). lia.
        * destruct (read_text F parse_float surrogate) as [_ [_ [_ RPS]]].
          pose proof (RPS kvs rt Hrt (Datatypes.S fuel) (map_set (fst kv) (snd kv) []) []) as R2.
          unfold cut_ok. rewrite R2 by lia. eexists; eexists; split; [reflexivity|split; [left; reflexivity|exact I]].
    - (* tail nil *) intros w Hw q q' fuel acc E Hf. destruct fuel; [lia|].
      assert (Hq : blank q) by (rewrite E in Hw; apply blank_app in Hw; tauto).
      eapply cut_eq; [rewrite read_elems_S, tok_end by assumption; reflexivity|].
      exists (Err err_separate), (Live []). split; [reflexivity|split; [left; reflexivity|discriminate]].
    - (* tail cons *) intros v vs w1 w2 t rt Hw1 Hw2 Ht IHt Hrt IHrt q q' fuel acc E Hf.
      rewrite !app_length in Hf. cbn [length] in Hf. rewrite !app_length in Hf.
      destruct fuel as [|[|fuel]]; [lia|lia|].
      assert (Hblankcase : blank q -> cut_ok (read_elems (Datatypes.S (Datatypes.S fuel)) acc) (Live q)).
      { intros Hq. eapply cut_eq; [rewrite read_elems_S, tok_end by assumption; reflexivity|].
        exists (Err err_separate), (Live []). split; [reflexivity|split; [left; reflexivity|discriminate]]. }
      destruct (split_prefix q q' w1 _ E) as [[a' Ea]|[b1 [Eq Eb]]].
      { apply Hblankcase. rewrite Ea in Hw1. apply blank_app in Hw1. tauto. }
      destruct b1 as [|d b1].
      { apply Hblankcase. rewrite app_nil_r in Eq. subst q. assumption. }
      clear Hblankcase. cbn in Eb. injection Eb as <- Eb. subst q.
      eapply cut_eq.
      { rewrite read_elems_S. rewrite (tok_no _ 93%N 44%N) by (assumption || reflexivity). rewrite tok_yes0 by reflexivity. cbn [negb]. reflexivity. }
      destruct (split_prefix b1 q' w2 _ Eb) as [[a' Ea]|[b2 [Eq2 Eb2]]].
      { eapply cut_step; [apply value_blank; rewrite Ea in Hw2; apply blank_app in Hw2; tauto|].
        apply elems_ended. left; reflexivity. }
      destruct (split_prefix b2 q' t _ Eb2) as [[a' Ea]|[b3 [Eq3 Eb3]]].
      + rewrite Eq2. apply cut_rbind; [apply (IHt b2 a' (Datatypes.S fuel) w2); [assumption|lia|assumption]|].
        intros. apply elems_ended; assumption.
      + rewrite Eq2, Eq3. eapply cut_step; [apply (RT v t Ht (Datatypes.S fuel) w2 b3); [lia|assumption|]|].
        * apply (delim_prefix b3 q'). rewrite <- Eb3. rewrite <- (app_nil_r rt). eapply delim_tail; [eassumption|exact I].
        * apply (IHrt b3 q' (Datatypes.S fuel) (acc ++ [v]) Eb3). lia.
    - (* pair *) intros k kt v t w1 w2 Hk Hw1 Hw2 Ht IHt q q' fuel w E Hf Hw.
      cbn [length] in Hf. rewrite !app_length in Hf. cbn [length] in Hf. rewrite !app_length in Hf. cbn [length] in Hf. rewrite app_length in Hf.
      destruct fuel as [|[|fuel]]; [lia|lia|].
      destruct q as [|c q]; [rewrite app_nil_r; apply pair_blank; assumption|].
      cbn in E. injection E as <- E. rewrite read_pair_S.
      assert (Hcut : (exists a', kt = q ++ a') -> cut_ok
         (jrbind (read_string surrogate) (fun key : bytes => JTok 58 (fun ok : bool =>
            if negb ok then JRet (Err (EMsg "Expected: ':' to separate key and value"))
            else jrbind (read_value (Datatypes.S fuel)) (fun v0 : gval => JRet (Ok (key, v0))))))
         (Live (w ++ 34%N :: q))).
      { intros [a' Ea]. exists (Err err_closing), Dead. unfold jrbind. rewrite run_pure_bind.
        rewrite (string_cut surrogate k kt w q a' Hk Hw Ea). split; [reflexivity|split; [right; reflexivity|discriminate]]. }
      destruct (split_prefix q q' kt _ E) as [Ea|[b1 [Eq Eb]]]; [apply Hcut; assumption|].
      destruct b1 as [|d b1].
      { apply Hcut. exists []. rewrite app_nil_r in *. congruence. }
      clear Hcut. cbn in Eb. injection Eb as <- Eb. subst q.
      eapply cut_step; [apply (string_ok surrogate k kt w b1 Hk Hw)|].
      assert (Hblankcase : blank b1 -> cut_ok (JTok 58 (fun ok : bool =>
            if negb ok then JRet (Err (EMsg "Expected: ':' to separate key and value"))
            else jrbind (read_value (Datatypes.S fuel)) (fun v0 : gval => JRet (Ok (k, v0))))) (Live b1)).
      { intros Hb. eapply cut_eq; [apply tok_end; assumption|]. cbn [negb]. apply cut_ret; [left; reflexivity|discriminate]. }
      destruct (split_prefix b1 q' w1 _ Eb) as [[a' Ea]|[b2 [Eq2 Eb2]]].
      { apply Hblankcase. rewrite Ea in Hw1. apply blank_app in Hw1. tauto. }
      destruct b2 as [|d b2].
      { apply Hblankcase. rewrite app_nil_r in Eq2. subst b1. assumption. }
      clear Hblankcase. cbn in Eb2. injection Eb2 as <- Eb2. rewrite Eq2.
      eapply cut_eq; [apply tok_yes; [assumption|reflexivity]|]. cbn [negb].
      destruct (split_prefix b2 q' w2 _ Eb2) as [[a' Ea]|[b3 [Eq3 Eb3]]].
      { eapply cut_step; [apply value_blank; rewrite Ea in Hw2; apply blank_app in Hw2; tauto|].
        apply cut_ret; [left; reflexivity|exact I]. }
      rewrite Eq3. apply cut_rbind; [apply (IHt b3 q' (Datatypes.S fuel) w2); [assumption|lia|assumption]|].
      intros. apply cut_ret; [assumption|exact I].
    - (* ptail nil *) intros w Hw q q' fuel obj E Hf. destruct fuel; [lia|].
      assert (Hq : blank q) by (rewrite E in Hw; apply blank_app in Hw; tauto).
      eapply cut_eq; [rewrite read_pairs_S, tok_end by assumption; reflexivity|].
      exists (Err err_separate), (Live []). split; [reflexivity|split; [left; reflexivity|discriminate]].
    - (* ptail cons *) intros kv kvs w1 w2 t rt Hw1 Hw2 Ht IHt Hrt IHrt q q' fuel obj E Hf.
      rewrite !app_length in Hf. cbn [length] in Hf. rewrite !app_length in Hf.
      destruct fuel as [|[|fuel]]; [lia|lia|].
      assert (Hblankcase : blank q -> cut_ok (read_pairs (Datatypes.S (Datatypes.S fuel)) obj) (Live q)).
      { intros Hq. eapply cut_eq; [rewrite read_pairs_S, tok_end by assumption; reflexivity|].
        exists (Err err_separate), (Live []). split; [reflexivity|split; [left; reflexivity|discriminate]]. }
      destruct (split_prefix q q' w1 _ E) as [[a' Ea]|[b1 [Eq Eb]]].
      { apply Hblankcase. rewrite Ea in Hw1. apply blank_app in Hw1. tauto. }
      destruct b1 as [|d b1].
      { apply Hblankcase. rewrite app_nil_r in Eq. subst q. assumption. }
      clear Hblankcase. cbn in Eb. injection Eb as <- Eb. subst q.
      eapply cut_eq.
      { rewrite read_pairs_S. rewrite (tok_no _ 125%N 44%N) by (assumption || reflexivity). rewrite tok_yes0 by reflexivity. cbn [negb]. reflexivity. }
      destruct (split_prefix b1 q' w2 _ Eb) as [[a' Ea]|[b2 [Eq2 Eb2]]].
      { apply cut_rbind; [apply pair_blank; rewrite Ea in Hw2; apply blank_app in Hw2; tauto|].
        intros. apply pairs_ended; assumption. }
      destruct (split_prefix b2 q' t _ Eb2) as [[a' Ea]|[b3 [Eq3 Eb3]]].
      + rewrite Eq2. apply cut_rbind; [apply (IHt b2 a' (Datatypes.S fuel) w2); [assumption|lia|assumption]|].
        intros. apply pairs_ended; assumption.
      + rewrite Eq2, Eq3. eapply cut_step; [apply (RP kv t Ht (Datatypes.S fuel) w2 b3); [lia|assumption|]|].
        * apply (delim_prefix b3 q'). rewrite <- Eb3. rewrite <- (app_nil_r rt). eapply delim_ptail; [eassumption|exact I].
        * apply (IHrt b3 q' (Datatypes.S fuel) _ Eb3). lia.
  Qed.
End Cut.
