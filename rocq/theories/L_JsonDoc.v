(** Whole JSON documents: ReadEntry until the first error. *)
From Verif Require Import Base M_Decimal M_Bufio L_Bufio M_Utf8 M_Json S_JsonPure S_JsonText L_JsonBuf L_JsonTotal L_JsonRead L_JsonCut.

(** Entries of an array are numbered from zero, entries of an object carry their key. *)
Fixpoint number_from {F} (k : Z) (vs : list (gval F)) : list (entry F) :=
  match vs with
  | [] => []
  | v :: t => mkEntry k [] v :: number_from (k + 1) t
  end.
Definition keyed {F} (kvs : list (bytes * gval F)) : list (entry F) :=
  map (fun kv => mkEntry 0 (fst kv) (snd kv)) kvs.

Inductive gtail {X} (J : X -> bytes -> Prop) : list X -> bytes -> Prop :=
| gl_nil : forall w, blank w -> gtail J [] w
| gl_cons : forall v vs w1 w2 t r, blank w1 -> blank w2 -> J v t -> gtail J vs r ->
    gtail J (v :: vs) (w1 ++ 44%N :: w2 ++ t ++ r).

Lemma gtail_delim : forall X (J : X -> bytes -> Prop) vs r x, gtail J vs r -> delim x -> delim (r ++ x).
Proof.
  intros X J vs r x H Hx. destruct H.
  - apply delim_blank; assumption.
  - rewrite <- app_assoc. apply delim_blank; [assumption|reflexivity].
Qed.

Section Doc.
  Variable F : Type.
  Variable parse_float : bytes -> option F.
  Variable surrogate : bytes.
  Notation float_reads := (float_reads F parse_float).
  Notation read_body := (read_body F parse_float surrogate).
  Notation read_entry := (read_entry F parse_float surrogate).
  Notation read_loop := (read_loop F parse_float surrogate).

  Lemma jtail_gtail : forall vs t, jtail F float_reads vs t -> gtail (jtext F float_reads) vs t.
  Proof.
    apply (jtail_mut F float_reads (fun _ _ => True) (fun vs t => gtail (jtext F float_reads) vs t)
             (fun _ _ => True) (fun _ _ => True)); auto; intros; constructor; assumption.
  Qed.
  Lemma jptail_gtail : forall vs t, jptail F float_reads vs t -> gtail (jpair F float_reads) vs t.
  Proof.
    apply (jptail_mut F float_reads (fun _ _ => True) (fun _ _ => True)
             (fun _ _ => True) (fun vs t => gtail (jpair F float_reads) vs t)); auto; intros; constructor; assumption.
  Qed.

  Definition opening (obj : bool) : N := if obj then 123%N else 91%N.
  Definition closing (obj : bool) : N := if obj then 125%N else 93%N.

  (** One mode of the reader: what an item is and how the body of ReadEntry treats it. *)
  Record mode_ok (obj : bool) (X : Type) (J : X -> bytes -> Prop) (ent : Z -> X -> entry F) : Prop := {
    mo_full : forall x t fuel w r k, J x t -> (2 * length t <= fuel)%nat -> blank w -> delim r ->
      run_pure (read_body fuel (mkJs obj true k)) (Live (w ++ t ++ r)) =
        (Some (Ok (ent k x), mkJs obj true (k + 1)), Live r) /\
      run_pure (read_body fuel (mkJs obj false k)) (Live (w ++ t ++ r)) =
        (Some (Ok (ent k x), mkJs obj true (k + 1)), Live r);
    mo_cut : forall x t fuel w q q' i k, J x t -> (2 * length t <= fuel)%nat -> blank w -> t = q ++ q' ->
      exists r js ps, run_pure (read_body fuel (mkJs obj i k)) (Live (w ++ q)) = (Some (r, js), ps) /\
        ended ps /\ good r /\ js_init js = true;
    mo_head : forall x t, J x t -> exists c t', t = c :: t' /\ is_ws c = false /\ N.eqb c (closing obj) = false
  }.

  Lemma read_entry_init : forall fuel obj k, read_entry fuel (mkJs obj true k) =
    JFill (JTok (closing obj) (fun ok => if ok then JRet (Err EOF, mkJs obj true k) else
             JTok 44 (fun ok => if ok then read_body fuel (mkJs obj true k) else JRet (Err err_sep, mkJs obj true k)))).
  Proof. reflexivity. Qed.
  Lemma read_entry_first : forall fuel obj k, read_entry fuel (mkJs obj false k) =
    JFill (JTok (opening obj) (fun ok => if ok then
             JTok (closing obj) (fun ok => if ok then JRet (Err EOF, mkJs obj false k) else
               read_body fuel (mkJs obj false k))
           else JRet (Err (err_open obj), mkJs obj false k))).
  Proof. reflexivity. Qed.
  Lemma read_loop_S : forall n fuel js, read_loop (Datatypes.S n) fuel js =
    jbind (read_entry fuel js) (fun '(r, js') =>
          match r with
          | Ok e => jbind (read_loop n fuel js') (fun '(es, x) => JRet (e :: es, x))
          | Err e => JRet ([], Err e)
          | Panic => JRet ([], Panic)
          | OutOfFuel => JRet ([], OutOfFuel)
          end).
  Proof. reflexivity. Qed.

  Lemma closing_facts : forall obj, is_ws (closing obj) = false /\ is_lower (closing obj) = false /\
    N.eqb 44 (closing obj) = false.
  Proof. intros [|]; auto. Qed.
  Lemma opening_facts : forall obj, is_ws (opening obj) = false /\ is_lower (opening obj) = false.
  Proof. intros [|]; auto. Qed.

  (** At the end of the input nothing but an error follows. *)
  Lemma loop_ended : forall n fuel js ps, ended ps -> js_init js = true ->
    run_pure (read_loop (Datatypes.S n) fuel js) ps = (Some ([], Err err_sep), ps).
  Proof.
    intros n fuel [obj i k] ps He Hi. cbn in Hi. subst i. rewrite read_loop_S, run_pure_bind, read_entry_init.
    cbn [run_pure]. destruct (closing_facts obj) as [_ [Hl _]].
    destruct He as [->| ->]; cbn; rewrite ?Hl; reflexivity.
  Qed.

  Section Mode.
    Variables (obj : bool) (X : Type) (J : X -> bytes -> Prop) (ent : Z -> X -> entry F).
    Hypothesis M : mode_ok obj X J ent.

    Fixpoint entries_from (k : Z) (xs : list X) : list (entry F) :=
      match xs with
      | [] => []
      | x :: t => ent k x :: entries_from (k + 1) t
      end.

    Lemma entry_step : forall n fuel k w q e js ps,
      blank w ->
      run_pure (read_body fuel (mkJs obj true k)) (Live q) = (Some (Ok e, js), ps) ->
      run_pure (read_loop (Datatypes.S n) fuel (mkJs obj true k)) (Live (w ++ 44%N :: q)) =
      match run_pure (read_loop n fuel js) ps with
      | (Some (es, x), ps') => (Some (e :: es, x), ps')
      | (None, ps') => (None, ps')
      end.
    Proof.
      intros n fuel k w q e js ps Hw Hb. destruct (closing_facts obj) as [H1 [H2 H3]].
      rewrite read_loop_S, run_pure_bind, read_entry_init.
      change (run_pure (JFill ?p) ?s) with (run_pure p s).
      rewrite (tok_no _ (closing obj) 44%N _ w q Hw eq_refl H3). rewrite (tok_yes0 _ 44%N _ q eq_refl).
      rewrite Hb. rewrite run_pure_bind. destruct (run_pure (read_loop n fuel js) ps) as [[[es x]|] ps']; reflexivity.
    Qed.

    Lemma loop_tail : forall vs t, gtail J vs t -> forall n fuel k r, (length vs < n)%nat -> (2 * length t <= fuel)%nat ->
      run_pure (read_loop n fuel (mkJs obj true k)) (Live (t ++ closing obj :: r)) =
      (Some (entries_from k vs, Err EOF), Live r).
    Proof.
      induction 1 as [w Hw|v vs w1 w2 t rt Hw1 Hw2 Ht Hrt IH]; intros n fuel k r Hn Hf.
      - destruct n; [cbn in Hn; lia|]. rewrite read_loop_S, run_pure_bind, read_entry_init.
        change (run_pure (JFill ?p) ?s) with (run_pure p s).
        rewrite tok_yes; [reflexivity|assumption|apply closing_facts].
      - rewrite !app_length in Hf. cbn [length] in Hf. rewrite !app_length in Hf. cbn [length] in Hn.
        destruct n; [lia|]. rewrite <- app_assoc. cbn [app]. rewrite <- !app_assoc.
        rewrite (entry_step n fuel k w1 (w2 ++ t ++ rt ++ closing obj :: r) (ent k v) (mkJs obj true (k + 1)) (Live (rt ++ closing obj :: r))).
        + rewrite IH by lia. reflexivity.
        + assumption.
        + apply (mo_full _ _ _ _ M); [assumption|lia|assumption|].
          apply (gtail_delim X J vs); [assumption|destruct obj; reflexivity].
    Qed.

    (** What a cut document yields: a prefix of the entries, possibly one damaged entry, then an error
        that is not io.EOF. *)
    Definition cut_result (all : list (entry F)) (p : jprog (list (entry F) * res unit)) (s : bytes) : Prop :=
      exists es e ps m x, run_pure p (Live s) = (Some (es, Err e), ps) /\ ended ps /\ is_eof_text e <> true /\
        es = firstn m all ++ x /\ (length x <= 1)%nat.

    Lemma cut_result_sep : forall all n fuel k q, blank q ->
      cut_result all (read_loop (Datatypes.S n) fuel (mkJs obj true k)) q.
    Proof.
      intros all n fuel k q Hq. exists [], err_sep, (Live []), O, [].
      split; [|split; [left; reflexivity|split; [discriminate|split; [reflexivity|cbn; lia]]]].
      rewrite read_loop_S, run_pure_bind, read_entry_init.
      change (run_pure (JFill ?p) ?s) with (run_pure p s).
      rewrite tok_end by assumption. rewrite (tok_end _ 44%N _ []) by constructor. reflexivity.
    Qed.

    (** The damaged entry case. *)
    Lemma cut_result_body : forall all n fuel k w w2 x t q q', blank w -> blank w2 -> J x t -> (2 * length t <= fuel)%nat ->
      t = q ++ q' ->
      cut_result all (read_loop (Datatypes.S (Datatypes.S n)) fuel (mkJs obj true k)) (w ++ 44%N :: w2 ++ q).
    Proof.
      intros all n fuel k w w2 x t q q' Hw Hw2 Hx Hf Hq.
      destruct (mo_cut _ _ _ _ M x t fuel w2 q q' true k Hx Hf Hw2 Hq) as [r [js [ps [E [He [Hg Hi]]]]]].
      destruct r as [e|e| |]; try contradiction.
      - exists [e], err_sep, ps, O, [e]. rewrite (entry_step _ _ _ _ _ e js ps Hw E).
        rewrite loop_ended by assumption.
        split; [reflexivity|]. split; [assumption|split; [discriminate|split; [reflexivity|cbn; lia]]].
      - exists [], e, ps, O, []. split; [|split; [assumption|split; [assumption|split; [reflexivity|cbn; lia]]]].
        rewrite read_loop_S, run_pure_bind, read_entry_init.
        change (run_pure (JFill ?p) ?s) with (run_pure p s). destruct (closing_facts obj) as [H1 [H2 H3]].
        rewrite (tok_no _ (closing obj) 44%N _ w _ Hw eq_refl H3). rewrite (tok_yes0 _ 44%N _ _ eq_refl).
        rewrite E. reflexivity.
    Qed.

    Lemma loop_tail_cut : forall vs t, gtail J vs t -> forall q q' n fuel k, t = q ++ q' ->
      (S (length vs) < n)%nat -> (2 * length t <= fuel)%nat ->
      cut_result (entries_from k vs) (read_loop n fuel (mkJs obj true k)) q.
    Proof.
      induction 1 as [w Hw|v vs w1 w2 t rt Hw1 Hw2 Ht Hrt IH]; intros q q' n fuel k E Hn Hf.
      - destruct n; [lia|]. apply cut_result_sep. rewrite E in Hw. apply blank_app in Hw. tauto.
      - rewrite !app_length in Hf. cbn [length] in Hf. rewrite !app_length in Hf. cbn [length] in Hn.
        destruct n as [|[|n]]; [lia|lia|].
        destruct (split_prefix q q' w1 _ E) as [[a' Ea]|[b1 [Eq Eb]]].
        { apply cut_result_sep. rewrite Ea in Hw1. apply blank_app in Hw1. tauto. }
        destruct b1 as [|d b1].
        { apply cut_result_sep. rewrite app_nil_r in Eq. subst q. assumption. }
        cbn in Eb. injection Eb as <- Eb. subst q.
        destruct (split_prefix b1 q' w2 _ Eb) as [[a' Ea]|[b2 [Eq2 Eb2]]].
        { rewrite <- (app_nil_r b1). apply (cut_result_body _ n fuel k w1 b1 v t [] t); [assumption| |assumption|lia|reflexivity].
          rewrite Ea in Hw2. apply blank_app in Hw2. tauto. }
        rewrite Eq2.
        destruct (split_prefix b2 q' t _ Eb2) as [[a' Ea]|[b3 [Eq3 Eb3]]].
        { apply (cut_result_body _ n fuel k w1 w2 v t b2 a'); [assumption|assumption|assumption|lia|assumption]. }
        rewrite Eq3.
        destruct (IH b3 q' (Datatypes.S n) fuel (k + 1)%Z Eb3) as [es [e [ps [m [x [I1 [I2 [I3 [I4 I5]]]]]]]]]; [lia|lia|].
        exists (ent k v :: es), e, ps, (Datatypes.S m), x.
        rewrite (entry_step _ _ _ _ _ (ent k v) (mkJs obj true (k + 1)) (Live b3) Hw1).
        + rewrite I1. split; [reflexivity|]. split; [assumption|]. split; [assumption|].
          split; [cbn [entries_from firstn app]; rewrite I4; reflexivity|assumption].
        + apply (mo_full _ _ _ _ M); [assumption|lia|assumption|].
          apply (delim_prefix b3 q'). rewrite <- Eb3. rewrite <- (app_nil_r rt). apply (gtail_delim X J vs); [assumption|exact I].
    Qed.

    (** Documents. *)
    Inductive gdoc : list X -> bytes -> Prop :=
    | gd_nil : forall w1 w2, blank w1 -> blank w2 -> gdoc [] (w1 ++ opening obj :: w2 ++ [closing obj])
    | gd_cons : forall v vs w1 w2 t r, blank w1 -> blank w2 -> J v t -> gtail J vs r ->
        gdoc (v :: vs) (w1 ++ opening obj :: w2 ++ t ++ r ++ [closing obj]).

    Lemma read_first : forall n fuel w q, blank w ->
      run_pure (read_loop (Datatypes.S n) fuel (mkJs obj false 0)) (Live (w ++ opening obj :: q)) =
      run_pure (jbind (JTok (closing obj) (fun ok => if ok then JRet (Err EOF, mkJs obj false 0) else
               read_body fuel (mkJs obj false 0))) (fun '(r, js') =>
          match r with
          | Ok e => jbind (read_loop n fuel js') (fun '(es, x) => JRet (e :: es, x))
          | Err e => JRet ([], Err e)
          | Panic => JRet ([], Panic)
          | OutOfFuel => JRet ([], OutOfFuel)
          end)) (Live q).
    Proof.
      intros n fuel w q Hw. rewrite read_loop_S, !run_pure_bind, read_entry_first.
      change (run_pure (JFill ?p) ?s) with (run_pure p s).
      rewrite tok_yes; [reflexivity|assumption|apply opening_facts].
    Qed.

    Theorem doc_reads : forall vs doc, gdoc vs doc -> forall n fuel r, (length vs < n)%nat -> (2 * length doc <= fuel)%nat ->
      run_pure (read_loop n fuel (mkJs obj false 0)) (Live (doc ++ r)) = (Some (entries_from 0 vs, Err EOF), Live r).
    Proof.
      intros vs doc H n fuel r Hn Hf. destruct n; [lia|]. destruct H as [w1 w2 Hw1 Hw2|v vs w1 w2 t rt Hw1 Hw2 Ht Hrt].
      - rewrite <- app_assoc. cbn [app]. rewrite read_first by assumption. rewrite run_pure_bind.
        rewrite <- app_assoc. cbn [app]. rewrite tok_yes; [reflexivity|assumption|apply closing_facts].
      - rewrite !app_length in Hf. cbn [length] in Hf. rewrite !app_length in Hf. cbn [length] in *.
        rewrite <- app_assoc. cbn [app]. rewrite read_first by assumption. rewrite run_pure_bind.
        destruct (mo_head _ _ _ _ M v t Ht) as [c [t' [Et [Hc1 Hc2]]]].
        rewrite <- !app_assoc.
        assert (Etok : forall A (k : bool -> jprog A) x, run_pure (JTok (closing obj) k) (Live (w2 ++ t ++ x)) =
                run_pure (k false) (Live (t ++ x))).
        { intros A k x. rewrite Et. cbn [app]. apply tok_no; assumption. }
        rewrite Etok. cbn [app].
        destruct (mo_full _ _ _ _ M v t fuel [] (rt ++ closing obj :: r) 0%Z Ht) as [_ E]; [lia|constructor| |].
        { apply (gtail_delim X J vs); [assumption|destruct obj; reflexivity]. }
        cbn [app] in E. rewrite E. rewrite run_pure_bind.
        rewrite (loop_tail vs rt Hrt) by lia. reflexivity.
    Qed.

    Theorem doc_cut : forall vs doc, gdoc vs doc -> forall q c q' n fuel, doc = q ++ c :: q' ->
      (S (length vs) < n)%nat -> (2 * length doc <= fuel)%nat ->
      cut_result (entries_from 0 vs) (read_loop n fuel (mkJs obj false 0)) q.
    Proof.
      intros vs doc H q cq q' n fuel E Hn Hf.
      assert (Hopen : forall all, blank q -> cut_result all (read_loop n fuel (mkJs obj false 0)) q).
      { intros all Hq. exists [], (err_open obj), (Live []), O, [].
        split; [|split; [left; reflexivity|split; [destruct obj; discriminate|split; [reflexivity|cbn; lia]]]].
        destruct n; [lia|]. rewrite read_loop_S, run_pure_bind, read_entry_first.
        change (run_pure (JFill ?p) ?s) with (run_pure p s). rewrite tok_end by assumption. reflexivity. }
      destruct H as [w1 w2 Hw1 Hw2|v vs w1 w2 t rt Hw1 Hw2 Ht Hrt].
      - destruct (split_prefix q (cq :: q') w1 _ E) as [[a' Ea]|[b1 [Eq Eb]]].
        { apply Hopen. rewrite Ea in Hw1. apply blank_app in Hw1. tauto. }
        destruct b1 as [|d b1].
        { apply Hopen. rewrite app_nil_r in Eq. subst q. assumption. }
        clear Hopen. cbn in Eb. injection Eb as <- Eb. subst q.
        assert (Hb1 : blank b1).
        { destruct (split_prefix b1 (cq :: q') w2 _ Eb) as [[a' Ea]|[b2 [Eq2 Eb2]]].
          - rewrite Ea in Hw2. apply blank_app in Hw2. tauto.
          - destruct b2 as [|x b2]; [rewrite app_nil_r in Eq2; subst b1; assumption|].
            cbn in Eb2. injection Eb2 as _ Eb2. destruct b2; discriminate. }
        destruct n as [|[|n]]; [lia|lia|].
        (* nothing after the opening bracket: the body reads nothing, or fails *)
        assert (HB : exists r js ps, run_pure (read_body fuel (mkJs obj false 0)) (Live []) = (Some (r, js), ps) /\
                  ended ps /\ good r /\ js_init js = true).
        { unfold M_Json.read_body. cbn [js_obj js_count]. rewrite !app_length in Hf. cbn [length] in Hf.
          rewrite app_length in Hf. cbn [length] in Hf. destruct fuel; [lia|]. destruct obj.
          - destruct (pair_blank F parse_float surrogate fuel []) as [r [ps [E1 [E2 E3]]]]; [constructor|].
            rewrite run_pure_bind, E1. destruct r as [[k v]|e| |]; try contradiction;
              (eexists; eexists; eexists; split; [reflexivity|split; [assumption|split; [exact E3|reflexivity]]]).
          - rewrite run_pure_bind, value_blank by constructor.
            eexists; eexists; eexists; split; [reflexivity|split; [left; reflexivity|split; [exact I|reflexivity]]]. }
        destruct HB as [r [js [ps [E1 [E2 [E3 E4]]]]]].
        unfold cut_result. rewrite read_first by assumption. rewrite run_pure_bind. rewrite tok_end by assumption.
        rewrite E1. destruct r as [e|e| |]; try contradiction.
        + exists [e], err_sep, ps, O, [e]. rewrite run_pure_bind, loop_ended by assumption.
          split; [reflexivity|]. split; [assumption|split; [discriminate|split; [reflexivity|cbn; lia]]].
        + exists [], e, ps, O, []. split; [reflexivity|]. split; [assumption|split; [assumption|split; [reflexivity|cbn; lia]]].
      - destruct (split_prefix q (cq :: q') w1 _ E) as [[a' Ea]|[b1 [Eq Eb]]].
        { apply Hopen. rewrite Ea in Hw1. apply blank_app in Hw1. tauto. }
        destruct b1 as [|d b1].
        { apply Hopen. rewrite app_nil_r in Eq. subst q. assumption. }
        clear Hopen. cbn in Eb. injection Eb as <- Eb. subst q.
        rewrite !app_length in Hf. cbn [length] in Hf. rewrite !app_length in Hf. cbn [length] in *.
        destruct n as [|[|n]]; [lia|lia|].
        destruct (mo_head _ _ _ _ M v t Ht) as [c [t' [Et [Hc1 Hc2]]]].
        (* the body on a cut item *)
        assert (HC : forall w a a', blank w -> t = a ++ a' ->
           (forall A (k : bool -> jprog A), run_pure (JTok (closing obj) k) (Live b1) = run_pure (k false) (Live (w ++ a))) ->
           cut_result (entries_from 0 (v :: vs)) (read_loop (Datatypes.S (Datatypes.S n)) fuel (mkJs obj false 0)) (w1 ++ opening obj :: b1)).
        { intros w a a' Hw Ha Htok.
          destruct (mo_cut _ _ _ _ M v t fuel w a a' false 0%Z Ht) as [r [js [ps [E1 [E2 [E3 E4]]]]]]; [lia|assumption|assumption|].
          unfold cut_result. rewrite read_first by assumption. rewrite run_pure_bind. rewrite Htok, E1.
          destruct r as [e|e| |]; try contradiction.
          + exists [e], err_sep, ps, O, [e]. rewrite run_pure_bind, loop_ended by assumption.
            split; [reflexivity|]. split; [assumption|split; [discriminate|split; [reflexivity|cbn; lia]]].
          + exists [], e, ps, O, []. split; [reflexivity|]. split; [assumption|split; [assumption|split; [reflexivity|cbn; lia]]]. }
        destruct (split_prefix b1 (cq :: q') w2 _ Eb) as [[a' Ea]|[b2 [Eq2 Eb2]]].
        { apply (HC [] [] t); [constructor|reflexivity|]. intros A k. cbn [app]. apply tok_end.
          rewrite Ea in Hw2. apply blank_app in Hw2. tauto. }
        destruct b2 as [|d b2].
        { apply (HC [] [] t); [constructor|reflexivity|]. intros A k. cbn [app]. apply tok_end.
          rewrite app_nil_r in Eq2. subst b1. assumption. }
        assert (d = c) by (rewrite Et in Eb2; cbn in Eb2; congruence). subst d.
        destruct (split_prefix (c :: b2) (cq :: q') t _ Eb2) as [[a' Ea]|[b3 [Eq3 Eb3]]].
        { apply (HC [] (c :: b2) a'); [constructor|assumption|]. intros A k. rewrite Eq2. cbn [app]. apply tok_no; assumption. }
        clear HC.
        assert (Hb3 : exists a', rt = b3 ++ a').
        { destruct (split_prefix b3 (cq :: q') rt _ Eb3) as [?|[b4 [Eq4 Eb4]]]; [assumption|].
          destruct b4 as [|x b4]; [exists []; rewrite app_nil_r in *; congruence|].
          cbn in Eb4. injection Eb4 as _ Eb4. destruct b4; discriminate. }
        destruct Hb3 as [a' Ea].
        destruct (loop_tail_cut vs rt Hrt b3 a' (Datatypes.S n) fuel 1%Z Ea) as [es [e [ps [m [x [I1 [I2 [I3 [I4 I5]]]]]]]]]; [lia|lia|].
        exists (ent 0 v :: es), e, ps, (Datatypes.S m), x.
        split; [|split; [assumption|split; [assumption|split; [|assumption]]]].
        + rewrite read_first by assumption. rewrite run_pure_bind, Eq2.
          rewrite (tok_no _ (closing obj) c _ w2 b2 Hw2 Hc1 Hc2).
          destruct (mo_full _ _ _ _ M v t fuel [] b3 0%Z Ht) as [_ E1]; [lia|constructor| |].
          { apply (delim_prefix b3 a'). rewrite <- Ea. rewrite <- (app_nil_r rt). apply (gtail_delim X J vs); [assumption|exact I]. }
          cbn [app] in E1. rewrite Eq3, E1. rewrite run_pure_bind.
          change (0 + 1)%Z with 1%Z. rewrite I1. reflexivity.
        + cbn [entries_from firstn app]. rewrite I4. reflexivity.
    Qed.
  End Mode.

  (** The two modes. *)
  Lemma array_mode : mode_ok false (gval F) (jtext F float_reads) (fun k v => mkEntry k [] v).
  Proof.
    constructor.
    - intros v t fuel w r k Ht Hf Hw Hr. destruct (read_text F parse_float surrogate) as [RT _].
      unfold M_Json.read_body. cbn [js_obj js_count]. rewrite !run_pure_bind, (RT v t Ht fuel w r Hf Hw Hr). auto.
    - intros v t fuel w q q' i k Ht Hf Hw Hq. destruct (read_cut F parse_float surrogate) as [RC _].
      destruct (RC v t Ht q q' fuel w Hq Hf Hw) as [r [ps [E1 [E2 E3]]]].
      unfold M_Json.read_body. cbn [js_obj js_count]. rewrite run_pure_bind, E1.
      destruct r; try contradiction; (eexists; eexists; eexists; split; [reflexivity|split; [assumption|split; [exact E3|reflexivity]]]).
    - intros v t Ht. destruct (jtext_head _ _ _ _ Ht) as [c [t' [A [B [C D]]]]]. eauto.
  Qed.
  Lemma object_mode : mode_ok true (bytes * gval F) (jpair F float_reads) (fun _ kv => mkEntry 0 (fst kv) (snd kv)).
  Proof.
    constructor.
    - intros [k0 v] t fuel w r k Ht Hf Hw Hr. destruct (read_text F parse_float surrogate) as [_ [_ [RT _]]].
      unfold M_Json.read_body. cbn [js_obj js_count]. rewrite !run_pure_bind, (RT _ t Ht fuel w r Hf Hw Hr). auto.
    - intros v t fuel w q q' i k Ht Hf Hw Hq. destruct (read_cut F parse_float surrogate) as [_ [_ [RC _]]].
      destruct (RC v t Ht q q' fuel w Hq Hf Hw) as [r [ps [E1 [E2 E3]]]].
      unfold M_Json.read_body. cbn [js_obj js_count]. rewrite run_pure_bind, E1.
      destruct r as [[k0 v0]| | |]; try contradiction; (eexists; eexists; eexists; split; [reflexivity|split; [assumption|split; [exact E3|reflexivity]]]).
    - intros v t Ht. destruct (jpair_head _ _ _ _ Ht) as [t' ->]. exists 34%N, t'. auto.
  Qed.

  Lemma entries_from_number : forall vs k, entries_from (gval F) (fun k v => mkEntry k [] v) k vs = number_from k vs.
  Proof. induction vs as [|v vs IH]; intros k; cbn; [reflexivity|]. rewrite IH. reflexivity. Qed.
  Lemma entries_from_keyed : forall kvs k, entries_from (bytes * gval F) (fun _ kv => mkEntry 0 (fst kv) (snd kv)) k kvs = keyed kvs.
  Proof. induction kvs as [|v vs IH]; intros k; cbn; [reflexivity|]. rewrite IH. reflexivity. Qed.

  Lemma jdoc_array_gdoc : forall vs doc, jdoc_array F float_reads vs doc -> gdoc false (gval F) (jtext F float_reads) vs doc.
  Proof. intros vs doc H. destruct H; constructor; auto. apply jtail_gtail. assumption. Qed.
  Lemma jdoc_object_gdoc : forall vs doc, jdoc_object F float_reads vs doc -> gdoc true (bytes * gval F) (jpair F float_reads) vs doc.
  Proof. intros vs doc H. destruct H; constructor; auto. apply jptail_gtail. assumption. Qed.

  Lemma gtail_jtail : forall vs t, gtail (jtext F float_reads) vs t -> jtail F float_reads vs t.
  Proof. induction 1; constructor; assumption. Qed.
  Lemma gtail_jptail : forall vs t, gtail (jpair F float_reads) vs t -> jptail F float_reads vs t.
  Proof. induction 1; constructor; assumption. Qed.
  Lemma gdoc_jdoc_array : forall vs doc, gdoc false (gval F) (jtext F float_reads) vs doc -> jdoc_array F float_reads vs doc.
  Proof. intros vs doc H. destruct H; constructor; try assumption. apply gtail_jtail. assumption. Qed.
  Lemma gdoc_jdoc_object : forall vs doc, gdoc true (bytes * gval F) (jpair F float_reads) vs doc -> jdoc_object F float_reads vs doc.
  Proof. intros vs doc H. destruct H; constructor; try assumption. apply gtail_jptail. assumption. Qed.
  Lemma gtail_length : forall X (J : X -> bytes -> Prop) vs t, gtail J vs t -> (length vs <= length t)%nat.
  Proof.
    induction 1 as [|v vs w1 w2 t rt _ _ _ H IH]; cbn; [lia|]. rewrite app_length. cbn [length]. rewrite !app_length. lia.
  Qed.
  Lemma gdoc_length : forall obj X (J : X -> bytes -> Prop) vs doc, gdoc obj X J vs doc -> (length vs + 1 <= length doc)%nat.
  Proof.
    intros obj X J vs doc H. destruct H as [|v vs w1 w2 t rt _ _ _ H]; cbn [length]; rewrite !app_length; cbn [length]; [lia|].
    apply gtail_length in H. rewrite !app_length. cbn [length]. lia.
  Qed.

  (** The grammar only asks for short literals. *)
  Lemma short_bind : forall A B (p : jprog A) (f : A -> jprog B), short_lits p -> (forall a, short_lits (f a)) ->
    short_lits (jbind p f).
  Proof.
    induction p as [a|k IH|ch k IH|tok k IH|k IH|k IH|k IH|k IH]; intros f Hp Hf; cbn in *; auto.
    destruct Hp as [H1 [H2 H3]]. auto.
  Qed.
  Lemma short_rbind : forall A B (p : jprog (res A)) (f : A -> jprog (res B)), short_lits p -> (forall a, short_lits (f a)) ->
    short_lits (jrbind p f).
  Proof. intros. apply short_bind; [assumption|]. intros [a|e| |]; cbn; auto. Qed.
  Lemma short_read : forall fuel,
    short_lits (M_Json.read_value F parse_float surrogate fuel) /\
    short_lits (M_Json.read_object F parse_float surrogate fuel) /\
    (forall m, short_lits (M_Json.read_pairs F parse_float surrogate fuel m)) /\
    short_lits (M_Json.read_pair F parse_float surrogate fuel) /\
    short_lits (M_Json.read_array F parse_float surrogate fuel) /\
    (forall l, short_lits (M_Json.read_elems F parse_float surrogate fuel l)).
  Proof.
    induction fuel as [|f [Hv [Ho [Hps [Hp [Ha He]]]]]]; [cbn; auto 10|].
    split; [|split; [|split; [|split; [|split]]]].
    - rewrite read_value_S. cbn [short_lits]. intros c.
      destruct (N.eqb c 110); [cbn; split; [lia|split; [discriminate|auto]]|].
      destruct (N.eqb c 116); [cbn; split; [lia|split; [discriminate|auto]]|].
      destruct (N.eqb c 102); [cbn; split; [lia|split; [discriminate|auto]]|].
      destruct (N.eqb c 34); [apply short_rbind; cbn; auto|].
      destruct (N.eqb c 45 || is_digit c); [cbn; auto|].
      destruct (N.eqb c 123); [assumption|]. destruct (N.eqb c 91); [assumption|exact I].
    - rewrite read_object_S. cbn [short_lits]. intros [|]; cbn [negb]; [|exact I]. intros [|]; [exact I|].
      apply short_rbind; [assumption|]. intros; apply Hps.
    - intros m. rewrite read_pairs_S. cbn [short_lits]. intros [|]; [exact I|]. intros [|]; cbn [negb]; [|exact I].
      apply short_rbind; [assumption|]. intros; apply Hps.
    - rewrite read_pair_S. apply short_rbind; [cbn; auto|]. intros k. cbn [short_lits]. intros [|]; cbn [negb]; [|exact I].
      apply short_rbind; [assumption|]. intros; exact I.
    - rewrite read_array_S. cbn [short_lits]. intros [|]; cbn [negb]; [|exact I]. intros [|]; [exact I|].
      apply short_bind; [assumption|]. intros [v|e| |]; cbn; auto.
    - intros l. rewrite read_elems_S. cbn [short_lits]. intros [|]; [exact I|]. intros [|]; cbn [negb]; [|exact I].
      apply short_rbind; [assumption|]. intros; apply He.
  Qed.
  Lemma short_loop : forall n fuel js, short_lits (read_loop n fuel js).
  Proof.
    induction n as [|n IH]; intros fuel js; [exact I|]. rewrite read_loop_S. apply short_bind.
    - assert (HB : short_lits (read_body fuel js)).
      { unfold M_Json.read_body. destruct (short_read fuel) as [Hv [_ [_ [Hp _]]]].
        destruct (js_obj js); apply short_bind; try assumption; intros; exact I. }
      unfold M_Json.read_entry. cbn [short_lits]. destruct (js_init js); cbn [short_lits].
      + intros [|]; [exact I|]. intros [|]; [assumption|exact I].
      + intros [|]; [|exact I]. intros [|]; [exact I|assumption].
    - intros [r js']. destruct r; [|exact I|exact I|exact I]. apply short_bind; [apply IH|]. intros [es x]. exact I.
  Qed.

  (** The buffered reader agrees with the list reader. *)
  Theorem read_json_pure : forall obj size s n fuel x ps,
    run_pure (read_loop n fuel (mkJs obj false 0)) (Live (s_rem s)) = (Some x, ps) ->
    read_json F parse_float surrogate obj size s n fuel = Ok x \/
    (ps = Dead /\ read_json F parse_float surrogate obj size s n fuel = Panic).
  Proof.
    intros obj size s n fuel x ps H. unfold read_json.
    destruct (new_bufr_ok size s) as [Hb Hp].
    destruct (run_json_pure _ _ (Nat.max 16 size) (s_fin s) (mkJst (new_bufr size s) 0) (Live (s_rem s)) x ps
                (short_loop n fuel (mkJs obj false 0))) as [[st' [E _]]|[E1 E2]].
    - split; [split; [lia|exact Hb]|exact Hp].
    - assumption.
    - left. rewrite E. reflexivity.
    - right. rewrite E2. auto.
  Qed.
End Doc.
