(** The documents the JSON writer produces, for histories with rejected entries and for failing sinks. *)
From Verif Require Import Base M_Decimal L_Decimal M_Bufio M_Utf8 S_Utf8 L_Utf8 M_Sink M_Json M_JsonWrite S_JsonPure S_JsonText S_JsonBack
  L_JsonRead L_JsonCut L_JsonDoc L_JsonMarshal L_JsonBad.

Section Writer.
  Variable F : Type.
  Variable fmt_float : F -> option bytes.
  Notation jwriter := jwriter.
  Notation write_entry := (json_write_entry F fmt_float).
  Notation write_all := (json_write_all F fmt_float).
  Notation encode := (encode F fmt_float).
  Notation val_bytes := (val_bytes F fmt_float).

  (** Failing sinks: what happened if nothing was reported. *)
  Definition calm (w : jwriter) : jwriter :=
    mkJw (jw_obj w) (jw_indent w) (jw_rows w) (jw_keys w) (mkSink (k_out (jw_sink w)) []).

  Lemma sink_write_calm : forall data k k', sink_write data k = (None, k') ->
    sink_write data (mkSink (k_out k) []) = (None, mkSink (k_out k') []).
  Proof.
    intros data [out plan] k' H. unfold sink_write in *. cbn [k_plan k_out] in *.
    destruct plan as [|[[n e]|] p]; [|discriminate|]; inversion H; reflexivity.
  Qed.
  Lemma write_entry_calm : forall w e w', write_entry w e = (None, w') -> write_entry (calm w) e = (None, calm w').
  Proof.
    intros w e w' H. unfold json_write_entry in *. cbn [calm jw_rows jw_obj jw_indent jw_keys jw_sink] in *.
    change (val_bytes (calm w) e) with (val_bytes w e). change (pretty (calm w)) with (pretty w).
    destruct (Nat.eqb (jw_rows w) 0).
    - destruct (sink_write [if jw_obj w then 123%N else 91%N] (jw_sink w)) as [[x|] k] eqn:E; [discriminate|].
      apply sink_write_calm in E. rewrite E. destruct (val_bytes w e) as [[data|err] keys]; [|discriminate].
      destruct (sink_write (([] ++ (if pretty w then [10%N] else [])) ++ data) k) as [x2 k2] eqn:E2.
      inversion H; subst. apply sink_write_calm in E2. rewrite E2. reflexivity.
    - destruct (val_bytes w e) as [[data|err] keys]; [|discriminate].
      destruct (sink_write (([44%N] ++ (if pretty w then [10%N] else [])) ++ data) (jw_sink w)) as [x2 k2] eqn:E2.
      inversion H; subst. apply sink_write_calm in E2. rewrite E2. reflexivity.
  Qed.
  Lemma write_all_calm : forall es w os w', write_all w es = (os, w') -> Forall (fun o => o = None) os ->
    write_all (calm w) es = (os, calm w').
  Proof.
    induction es as [|e es IH]; intros w os w' H Ho; cbn [json_write_all] in *; [inversion H; reflexivity|].
    destruct (write_entry w e) as [o w1] eqn:E. destruct (write_all w1 es) as [os1 w2] eqn:E2. inversion H; subst.
    inversion Ho; subst. rewrite (write_entry_calm _ _ _ E). rewrite (IH _ _ _ E2) by assumption. reflexivity.
  Qed.
  Lemma close_calm : forall closer w w', jw_indent w = [] -> json_close closer w = (None, w') ->
    json_close closer (calm w) = (None, calm w').
  Proof.
    intros closer w w' Hi H. unfold json_close in *. cbn [calm jw_rows jw_obj jw_indent jw_keys jw_sink] in *.
    change (pretty (calm w)) with (pretty w). unfold pretty in *. rewrite Hi in *.
    destruct (Nat.eqb (jw_rows w) 0).
    - destruct (sink_write (if jw_obj w then [123; 125]%N else [91; 93]%N) (jw_sink w)) as [[x|] k] eqn:E; [discriminate|].
      apply sink_write_calm in E. rewrite E. inversion H; subst. reflexivity.
    - destruct (sink_write [if jw_obj w then 125%N else 93%N] (jw_sink w)) as [[x|] k] eqn:E; [discriminate|].
      apply sink_write_calm in E. rewrite E. inversion H; subst. reflexivity.
  Qed.

  (** Accepted writes, on a sink that takes everything. *)
  Lemma encode_refused : forall ind v, encode ind v = None <-> refused F fmt_float v.
  Proof.
    intros ind v. unfold M_JsonWrite.encode. destruct ind as [|c ind]; [apply marshal_refused|].
    rewrite <- (marshal_refused F fmt_float v [32%N] (c :: ind) (10%N :: c :: ind)).
    destruct (marshal F fmt_float [32%N] (c :: ind) (10%N :: c :: ind) v); split; intros; congruence.
  Qed.

  (** What one call writes after the opening bracket. *)
  Definition chunk (w : jwriter) (data : bytes) : bytes :=
    (if Nat.eqb (jw_rows w) 0 then [] else [44%N]) ++ (if pretty w then [10%N] else []) ++ data.

  Lemma existsb_key : forall k keys, existsb (beqb k) keys = true <-> In k keys.
  Proof.
    intros k keys. rewrite existsb_exists. split.
    - intros [x [H E]]. apply beqb_eq in E. subst. assumption.
    - intros H. exists k. split; [assumption|]. apply beqb_eq. reflexivity.
  Qed.
  Lemma val_bytes_verdict : forall w e, exists b seen', verdict F fmt_float (jw_obj w) (jw_keys w) e b seen' /\
    if b then exists data, val_bytes w e = (inl data, seen') else exists x, val_bytes w e = (inr x, seen').
  Proof.
    intros w e. unfold M_JsonWrite.val_bytes.
    assert (HR : (encode (jw_indent w) (e_val e) = None /\ refused F fmt_float (e_val e)) \/
                 (exists t, encode (jw_indent w) (e_val e) = Some t /\ ~ refused F fmt_float (e_val e))).
    { pose proof (encode_refused (jw_indent w) (e_val e)) as R. destruct (encode (jw_indent w) (e_val e)) as [t|].
      - right. exists t. split; [reflexivity|]. intros X. apply R in X. discriminate.
      - left. split; [reflexivity|]. apply R. reflexivity. }
    destruct (jw_obj w) eqn:Eo; cbn [negb].
    - destruct (e_key e) as [|c k] eqn:Ek; [exists false, (jw_keys w); split; [apply vd_empty; auto|eauto]|].
      destruct (existsb (beqb (c :: k)) (jw_keys w)) eqn:Ex.
      + apply existsb_key in Ex. exists false, (jw_keys w). split; [|eauto]. apply vd_seen; rewrite ?Ek; auto. discriminate.
      + assert (Hn : ~ In (c :: k) (jw_keys w)).
        { intros X. apply existsb_key in X. congruence. }
        destruct HR as [[-> HR]|[t [-> HR]]].
        * exists false, (e_key e :: jw_keys w). split; [apply vd_object_no; rewrite ?Ek; auto; discriminate|]. rewrite Ek. eauto.
        * exists true, (e_key e :: jw_keys w). split; [apply vd_object; rewrite ?Ek; auto; discriminate|]. rewrite Ek. eauto.
    - destruct HR as [[-> HR]|[t [-> HR]]].
      + exists false, (jw_keys w). split; [apply vd_array_no; auto|eauto].
      + exists true, (jw_keys w). split; [apply vd_array; auto|eauto].
  Qed.

  Definition quiet (w : jwriter) : Prop := k_plan (jw_sink w) = [].
  Lemma sink_quiet : forall data k, k_plan k = [] -> sink_write data k = (None, mkSink (k_out k ++ data) []).
  Proof. intros data [o p] H. cbn in H. subst. reflexivity. Qed.

  (** One call on a sink that takes everything. *)
  Lemma write_entry_quiet : forall w e, quiet w -> exists b seen',
    verdict F fmt_float (jw_obj w) (jw_keys w) e b seen' /\
    exists o w', write_entry w e = (o, w') /\ quiet w' /\ jw_obj w' = jw_obj w /\ jw_indent w' = jw_indent w /\
      jw_rows w' = Datatypes.S (jw_rows w) /\ jw_keys w' = seen' /\ (o = None <-> b = true) /\
      let opened := if Nat.eqb (jw_rows w) 0 then [opening (jw_obj w)] else [] in
      if b then exists data, val_bytes w e = (inl data, seen') /\ k_out (jw_sink w') = k_out (jw_sink w) ++ opened ++ chunk w data
      else k_out (jw_sink w') = k_out (jw_sink w) ++ opened.
  Proof.
    intros w e Hq. destruct (val_bytes_verdict w e) as [b [seen' [Hv Hb]]]. exists b, seen'. split; [assumption|].
    unfold json_write_entry. unfold quiet in *. cbv zeta. unfold opening.
    destruct (Nat.eqb (jw_rows w) 0) eqn:Er.
    - rewrite (sink_quiet _ _ Hq). destruct b.
      + destruct Hb as [data Hb]. rewrite Hb. rewrite sink_quiet by reflexivity. eexists; eexists; split; [reflexivity|].
        cbn. repeat (split; [reflexivity|]). split; [tauto|]. exists data. split; [reflexivity|].
        unfold chunk. rewrite Er. rewrite <- !app_assoc. reflexivity.
      + destruct Hb as [x Hb]. rewrite Hb. eexists; eexists; split; [reflexivity|].
        cbn. repeat (split; [reflexivity|]). split; [split; discriminate|]. reflexivity.
    - destruct b.
      + destruct Hb as [data Hb]. rewrite Hb. rewrite sink_quiet by assumption. eexists; eexists; split; [reflexivity|].
        cbn. repeat (split; [reflexivity|]). split; [tauto|]. exists data. split; [reflexivity|].
        unfold chunk. rewrite Er. rewrite <- ?app_assoc. reflexivity.
      + destruct Hb as [x Hb]. rewrite Hb. eexists; eexists; split; [reflexivity|].
        cbn. split; [assumption|]. repeat (split; [reflexivity|]). split; [split; discriminate|]. rewrite app_nil_r. reflexivity.
  Qed.

  (** A history on such a sink: the verdicts, and nothing but separators and items after the opening bracket. *)
  Lemma verdict_fun : forall obj seen e b s, verdict F fmt_float obj seen e b s -> forall b2 s2, verdict F fmt_float obj seen e b2 s2 -> b = b2 /\ s = s2.
  Proof.
    intros obj seen e b s H b2 s2 H2. destruct H; destruct H2; try congruence; try contradiction; auto.
  Qed.
  Lemma history_fun : forall obj seen es l, history F fmt_float obj seen es l -> forall l2, history F fmt_float obj seen es l2 -> l = l2.
  Proof.
    induction 1 as [|seen seen' e es b l Hv H IH]; intros l2 H2; inversion H2; subst; [reflexivity|].
    destruct (verdict_fun _ _ _ _ _ Hv _ _ H4) as [-> ->]. f_equal. apply IH. assumption.
  Qed.
  Lemma write_all_history : forall es w, quiet w -> exists l os w', write_all w es = (os, w') /\
    history F fmt_float (jw_obj w) (jw_keys w) es l /\ Forall2 (fun o b => o = None <-> b = true) os l /\
    quiet w' /\ jw_obj w' = jw_obj w /\ jw_indent w' = jw_indent w /\ jw_rows w' = (jw_rows w + length es)%nat.
  Proof.
    induction es as [|e es IH]; intros w Hq.
    - exists [], [], w. cbn. repeat split; auto; try constructor.
    - destruct (write_entry_quiet w e Hq) as [b [seen' [Hv [o [w1 [E [Q1 [O1 [I1 [R1 [K1 [Hb _]]]]]]]]]]]].
      destruct (IH w1 Q1) as [l [os [w2 [E2 [H2 [F2 [Q2 [O2 [I2 R2]]]]]]]]].
      exists (b :: l), (o :: os), w2. cbn [json_write_all]. rewrite E, E2. split; [reflexivity|].
      rewrite O1, K1 in H2. split; [econstructor; eassumption|]. split; [constructor; assumption|].
      split; [assumption|]. split; [congruence|]. split; [congruence|]. cbn [length]. lia.
  Qed.
  Lemma close_quiet : forall closer w, quiet w -> exists w', json_close closer w = (closer, w') /\
    k_out (jw_sink w') = k_out (jw_sink w) ++ (if Nat.eqb (jw_rows w) 0 then [opening (jw_obj w); closing (jw_obj w)]
                                               else (if pretty w then [10%N] else []) ++ [closing (jw_obj w)]).
  Proof.
    intros closer w Hq. unfold json_close, quiet in *. destruct (Nat.eqb (jw_rows w) 0) eqn:Er.
    - rewrite sink_quiet by assumption. eexists. split; [reflexivity|]. cbn. destruct (jw_obj w); reflexivity.
    - destruct (pretty w).
      + rewrite (sink_quiet [10%N]) by assumption. cbn [snd]. rewrite sink_quiet by reflexivity.
        eexists. split; [reflexivity|]. cbn. rewrite <- app_assoc. destruct (jw_obj w); reflexivity.
      + rewrite sink_quiet by assumption. eexists. split; [reflexivity|]. cbn. destruct (jw_obj w); reflexivity.
  Qed.

    (** After some accepted calls, whatever follows starts with something that ends a number. *)
    Lemma growth : forall es w os w', quiet w -> jw_rows w <> 0%nat -> write_all w es = (os, w') ->
      exists g, k_out (jw_sink w') = k_out (jw_sink w) ++ g /\ (g = [] \/ exists g', g = 44%N :: g').
    Proof.
      induction es as [|e es IH]; intros w os w' Hq Hr E.
      - cbn in E. inversion E; subst. exists []. rewrite app_nil_r. auto.
      - cbn [json_write_all] in E.
        destruct (write_entry_quiet w e Hq) as [b [seen2 [Hv2 [o [w1 [E1 [Q1 [O1 [I1 [R1 [K1 [Hob Hout]]]]]]]]]]]].
        rewrite E1 in E. destruct (write_all w1 es) as [os1 w2] eqn:E2. inversion E; subst. clear E.
        cbv zeta in Hout. rewrite (proj2 (Nat.eqb_neq _ _) Hr) in Hout. cbn [app] in Hout.
        destruct (IH w1 os1 w' Q1 ltac:(lia) E2) as [g [Hg Hd]]. destruct b.
        + destruct Hout as [data [Hval Hout]]. exists (chunk w data ++ g). rewrite Hg, Hout, <- app_assoc. split; [reflexivity|].
          right. unfold chunk. rewrite (proj2 (Nat.eqb_neq _ _) Hr). eexists. reflexivity.
        + rewrite app_nil_r in Hout. exists g. rewrite Hg, Hout. auto.
    Qed.

    Lemma nl_blank : forall w, blank (if pretty w then [10%N] else []).
    Proof. intros w. destruct (pretty w); [constructor; [right; left; reflexivity|constructor]|constructor]. Qed.

  (** The shape of the document, for one kind of item. *)
  Section Items.
    Variables (obj : bool) (ind : bytes) (X : Type) (J : X -> bytes -> Prop) (back : entry F -> X -> Prop).
    Hypothesis Hind : blank ind.
    Hypothesis Hitem : forall w e x data keys, jw_obj w = obj -> jw_indent w = ind -> val_bytes w e = (inl data, keys) -> back e x ->
      exists w2 t, blank w2 /\ data = w2 ++ t /\ J x t.

    Lemma tail_layout : forall es w l os w' xs, quiet w -> jw_obj w = obj -> jw_indent w = ind -> jw_rows w <> 0%nat ->
      write_all w es = (os, w') -> history F fmt_float obj (jw_keys w) es l -> Forall2 back (kept F es l) xs ->
      exists g, k_out (jw_sink w') = k_out (jw_sink w) ++ g /\ forall we, blank we -> gtail J xs (g ++ we).
    Proof.
      induction es as [|e es IH]; intros w l os w' xs Hq Ho Hi Hr E Hh Hb.
      - cbn in E. inversion E; subst. inversion Hh; subst. cbn in Hb. inversion Hb; subst.
        exists []. rewrite app_nil_r. split; [reflexivity|]. intros we Hwe. constructor. assumption.
      - inversion Hh as [|seen seen' e0 es0 b l0 Hv Hh2]; subst. cbn [json_write_all] in E.
        destruct (write_entry_quiet w e Hq) as [b2 [seen2 [Hv2 [o [w1 [E1 [Q1 [O1 [I1 [R1 [K1 [Hob Hout]]]]]]]]]]]].
        rewrite E1 in E. destruct (write_all w1 es) as [os1 w2] eqn:E2. inversion E; subst. clear E.
        assert (Hseen : seen' = jw_keys w1) by (destruct (verdict_fun _ _ _ _ _ Hv _ _ Hv2); assumption). subst seen'.
        destruct (verdict_fun _ _ _ _ _ Hv _ _ Hv2) as [<- _]. cbv zeta in Hout. rewrite (proj2 (Nat.eqb_neq _ _) Hr) in Hout. cbn [app] in Hout.
        destruct b.
        + destruct Hout as [data [Hval Hout]]. cbn [kept] in Hb. inversion Hb as [|e1 x es1 xs1 Hx Hb2]; subst.
          destruct (IH w1 l0 os1 w' xs1 Q1) as [g [Hg Hgt]]; [congruence|congruence|lia|assumption|assumption|assumption|].
          destruct (Hitem w e x data (jw_keys w1)) as [wi [t [Hwi [-> Ht]]]]; auto.
          exists (chunk w (wi ++ t) ++ g). rewrite Hg, Hout. split; [rewrite <- app_assoc; reflexivity|].
          intros we Hwe. unfold chunk. rewrite (proj2 (Nat.eqb_neq _ _) Hr).
          replace ((([44%N] ++ (if pretty w then [10%N] else []) ++ wi ++ t) ++ g) ++ we)
            with ([] ++ 44%N :: ((if pretty w then [10%N] else []) ++ wi) ++ t ++ (g ++ we)) by (cbn [app]; rewrite <- !app_assoc; reflexivity).
          constructor; [constructor|apply blank_app2; [apply nl_blank|assumption]|assumption|apply Hgt; assumption].
        + cbn [kept] in Hb. rewrite app_nil_r in Hout.
          destruct (IH w1 l0 os1 w' xs Q1) as [g [Hg Hgt]]; [congruence|congruence|lia|assumption|assumption|assumption|].
          exists g. rewrite Hg, Hout. auto.
    Qed.

    (** Documents: a proper one if the first call was accepted or none was, otherwise one that starts
        with the opening bracket and a comma. *)
    Lemma doc_layout : forall es closer l os c out xs, json_write F fmt_float obj ind good_sink closer es = (os, c, out) ->
      history F fmt_float obj [] es l -> Forall2 back (kept F es l) xs ->
      (hd true l = true -> gdoc obj X J xs out) /\
      (hd true l = false -> exists gt, gtail J xs gt /\ out = opening obj :: gt ++ [closing obj]).
    Proof.
      intros es closer l os c out xs E Hh Hb. unfold json_write in E.
      destruct (write_all (new_jwriter obj ind good_sink) es) as [os1 w] eqn:E1.
      destruct (write_all_history es (new_jwriter obj ind good_sink) eq_refl) as [l2 [os2 [w2 [E2 [H2 [F2 [Q2 [O2 [I2 R2]]]]]]]]].
      rewrite E1 in E2. injection E2 as <- <-. cbn [new_jwriter jw_obj jw_keys jw_indent jw_rows] in *.
      destruct (close_quiet closer w Q2) as [w3 [E3 Hout]]. rewrite E3 in E. injection E as <- <- <-.
      rewrite O2, R2 in Hout. cbn [Nat.add] in Hout. rewrite Hout. clear Hout.
      destruct es as [|e es].
      - cbn in E1. clear O2 I2 R2 Q2 E3. injection E1 as <- <-. inversion Hh; subst l. inversion Hb; subst xs. cbn [hd length Nat.eqb new_jwriter jw_sink good_sink k_out]. split; [|discriminate].
        intros _. change ([] ++ [opening obj; closing obj]) with ([] ++ opening obj :: [] ++ [closing obj]). apply gd_nil; constructor.
      - cbn [length Nat.eqb]. cbn [json_write_all] in E1.
        inversion Hh as [|seen seen' e0 es0 b l0 Hv Hh2]; try subst b; try subst l; subst seen e0 es0. cbn [hd].
        destruct (write_entry_quiet (new_jwriter obj ind good_sink) e eq_refl) as [b2 [seen2 [Hv2 [o [w1 [Ew [Q1 [O1 [I1 [R1 [K1 [Hob Hout]]]]]]]]]]]].
        rewrite Ew in E1. destruct (write_all w1 es) as [os9 w4] eqn:E4. injection E1 as <- ->. subst seen2.
        cbn [new_jwriter jw_obj jw_keys jw_indent jw_rows jw_sink good_sink k_out] in *.
        destruct (verdict_fun _ _ _ _ _ Hv _ _ Hv2) as [<- _]. cbn [Nat.eqb app] in Hout. cbv zeta in Hout. destruct b.
        + split; [intros _|discriminate]. destruct Hout as [data [Hval Hout]]. cbn [kept] in Hb.
          inversion Hb as [|e1 x es1 xs1 Hx Hb2]; subst e1 es1 xs.
          destruct (Hitem (new_jwriter obj ind good_sink) e x data (jw_keys w1)) as [wi [t [Hwi [-> Ht]]]]; auto.
          assert (Hseen : seen' = jw_keys w1) by (destruct (verdict_fun _ _ _ _ _ Hv _ _ Hv2); assumption). subst seen'.
          destruct (tail_layout es w1 l0 os9 w xs1 Q1) as [g [Hg Hgt]]; auto; [lia|].
          rewrite Hg, Hout. unfold chunk. cbn [new_jwriter jw_rows Nat.eqb app].
          set (nl := if pretty (new_jwriter obj ind good_sink) then [10%N] else []).
          set (nl2 := if pretty w then [10%N] else []).
          replace (opening obj :: ((nl ++ wi ++ t) ++ g) ++ nl2 ++ [closing obj]) with ([] ++ opening obj :: (nl ++ wi) ++ t ++ (g ++ nl2) ++ [closing obj])
            by (cbn [app]; rewrite <- !app_assoc; reflexivity).
          apply gd_cons; [constructor|apply blank_app2; [apply nl_blank|assumption]|assumption|apply Hgt; apply nl_blank].
        + split; [discriminate|intros _]. cbn [kept] in Hb.
          assert (Hseen : seen' = jw_keys w1) by (destruct (verdict_fun _ _ _ _ _ Hv _ _ Hv2); assumption). subst seen'.
          destruct (tail_layout es w1 l0 os9 w xs Q1) as [g [Hg Hgt]]; auto; [lia|].
          exists (g ++ (if pretty w then [10%N] else [])). split; [apply Hgt; apply nl_blank|].
          rewrite Hg, Hout. cbn [app]. rewrite <- !app_assoc. reflexivity.
    Qed.

    Variable BAD : bytes -> Prop.
    Variable broken : entry F -> Prop.
    Hypothesis Hbroken : forall w e data keys, jw_obj w = obj -> jw_indent w = ind -> val_bytes w e = (inl data, keys) -> broken e ->
      exists w2 t r, blank w2 /\ data = w2 ++ t ++ r /\ BAD t /\ delim r.

    (** The items before a broken one, and the broken one. *)
    Lemma tail_broken : forall es w l os w' xs e post, quiet w -> jw_obj w = obj -> jw_indent w = ind -> jw_rows w <> 0%nat ->
      write_all w (es ++ e :: post) = (os, w') -> history F fmt_float obj (jw_keys w) (es ++ e :: post) (map (fun _ => true) es ++ true :: l) ->
      Forall2 back es xs -> broken e ->
      exists gt w2 t r g, k_out (jw_sink w') = k_out (jw_sink w) ++ gt ++ 44%N :: w2 ++ t ++ r ++ g /\ gtail J xs gt /\ blank w2 /\ BAD t /\
        delim r /\ (g = [] \/ exists g', g = 44%N :: g').
    Proof.
      induction es as [|e1 es IH]; intros w l os w' xs e post Hq Ho Hi Hr E Hh Hb Hbr; cbn [app map] in *.
      - inversion Hh as [|seen seen' e0 es0 b l0 Hv Hh2]; subst. cbn [json_write_all] in E.
        destruct (write_entry_quiet w e Hq) as [b2 [seen2 [Hv2 [o [w1 [E1 [Q1 [O1 [I1 [R1 [K1 [Hob Hout]]]]]]]]]]]].
        rewrite E1 in E. destruct (write_all w1 post) as [os1 w2] eqn:E2. inversion E; subst. clear E.
        destruct (verdict_fun _ _ _ _ _ Hv _ _ Hv2) as [<- _]. cbv zeta in Hout. rewrite (proj2 (Nat.eqb_neq _ _) Hr) in Hout. cbn [app] in Hout.
        destruct Hout as [data [Hval Hout]]. destruct (Hbroken w e data (jw_keys w1)) as [wi [t [r [Hwi [-> [Ht Hd]]]]]]; auto.
        destruct (growth post w1 os1 w' Q1 ltac:(lia) E2) as [g [Hg Hgd]].
        inversion Hb; subst. exists [], ((if pretty w then [10%N] else []) ++ wi), t, r, g.
        split; [|split; [constructor; constructor|split; [apply blank_app2; [apply nl_blank|assumption]|auto]]].
        rewrite Hg, Hout. unfold chunk. rewrite (proj2 (Nat.eqb_neq _ _) Hr). cbn [app]. rewrite <- !app_assoc. cbn [app]. rewrite <- !app_assoc. reflexivity.
      - inversion Hh as [|seen seen' e0 es0 b l0 Hv Hh2]; subst. cbn [json_write_all] in E.
        destruct (write_entry_quiet w e1 Hq) as [b2 [seen2 [Hv2 [o [w1 [E1 [Q1 [O1 [I1 [R1 [K1 [Hob Hout]]]]]]]]]]]].
        rewrite E1 in E. destruct (write_all w1 (es ++ e :: post)) as [os1 w2] eqn:E2. inversion E; subst. clear E.
        assert (Hseen : seen' = jw_keys w1) by (destruct (verdict_fun _ _ _ _ _ Hv _ _ Hv2); assumption). subst seen'.
        destruct (verdict_fun _ _ _ _ _ Hv _ _ Hv2) as [<- _]. cbv zeta in Hout. rewrite (proj2 (Nat.eqb_neq _ _) Hr) in Hout. cbn [app] in Hout.
        destruct Hout as [data [Hval Hout]]. inversion Hb as [|e2 x es1 xs1 Hx Hb2]; subst.
        destruct (Hitem w e1 x data (jw_keys w1)) as [wi [t [Hwi [-> Ht]]]]; auto.
        destruct (IH w1 l os1 w' xs1 e post Q1) as [gt [w2 [t2 [r [g [Hg [Hgt [Hw2 [Hbad [Hd Hgd]]]]]]]]]]; auto; [lia|].
        exists ([] ++ 44%N :: ((if pretty w then [10%N] else []) ++ wi) ++ t ++ gt), w2, t2, r, g.
        split; [|split; [constructor; [constructor|apply blank_app2; [apply nl_blank|assumption]|assumption|assumption]|auto]].
        rewrite Hg, Hout. unfold chunk. rewrite (proj2 (Nat.eqb_neq _ _) Hr). cbn [app]. rewrite <- !app_assoc. cbn [app]. rewrite <- !app_assoc. reflexivity.
    Qed.

    Lemma delim_app_choice : forall r g x, delim r -> (g = [] \/ exists g', g = 44%N :: g') -> delim x -> delim (r ++ g ++ x).
    Proof. intros r g x Hr [->|[g' ->]] Hx; destruct r; try assumption; reflexivity. Qed.
    Lemma end_delim : forall w, delim ((if pretty w then [10%N] else []) ++ [closing obj]).
    Proof. intros w. destruct (pretty w); [reflexivity|]. destruct obj; reflexivity. Qed.

    Lemma doc_broken : forall pre e post closer l os c out xs, json_write F fmt_float obj ind good_sink closer (pre ++ e :: post) = (os, c, out) ->
      history F fmt_float obj [] (pre ++ e :: post) (map (fun _ => true) pre ++ true :: l) -> Forall2 back pre xs -> broken e ->
      (xs = [] -> exists w2 t r, out = [] ++ opening obj :: w2 ++ t ++ r /\ blank w2 /\ BAD t /\ delim r) /\
      (xs <> [] -> exists p w2 t r, opened obj X J xs p /\ out = p ++ 44%N :: w2 ++ t ++ r /\ blank w2 /\ BAD t /\ delim r).
    Proof.
      intros pre e post closer l os c out xs E Hh Hb Hbr. unfold json_write in E.
      set (es := pre ++ e :: post) in *.
      destruct (write_all (new_jwriter obj ind good_sink) es) as [os1 w] eqn:E1.
      destruct (write_all_history es (new_jwriter obj ind good_sink) eq_refl) as [l2 [os2 [w2 [E2 [H2 [F2 [Q2 [O2 [I2 R2]]]]]]]]].
      rewrite E1 in E2. injection E2 as <- <-. cbn [new_jwriter jw_obj jw_keys jw_indent jw_rows] in *.
      destruct (close_quiet closer w Q2) as [w3 [E3 Hout]]. rewrite E3 in E. injection E as <- <- <-.
      rewrite O2, R2 in Hout. cbn [Nat.add] in Hout.
      assert (Hlen : length es <> 0%nat) by (unfold es; rewrite app_length; cbn; lia).
      rewrite (proj2 (Nat.eqb_neq _ _) Hlen) in Hout. rewrite Hout. clear Hout Hlen H2 F2 R2. subst es.
      set (fin := (if pretty w then [10%N] else []) ++ [closing obj]).
      assert (Hfin : delim fin) by apply end_delim.
      destruct pre as [|e1 pre]; cbn [app map] in *.
      - inversion Hb; subst xs. split; [intros _|congruence]. cbn [json_write_all] in E1.
        inversion Hh as [|seen seen' e0 es0 b l0 Hv Hh2]; try subst b; try subst l; subst seen e0 es0.
        destruct (write_entry_quiet (new_jwriter obj ind good_sink) e eq_refl) as [b2 [seen2 [Hv2 [o [w1 [Ew [Q1 [O1 [I1 [R1 [K1 [Hob Hout]]]]]]]]]]]].
        rewrite Ew in E1. destruct (write_all w1 post) as [os9 w4] eqn:E4. injection E1 as <- ->. subst seen2.
        cbn [new_jwriter jw_obj jw_keys jw_indent jw_rows jw_sink good_sink k_out] in *.
        destruct (verdict_fun _ _ _ _ _ Hv _ _ Hv2) as [<- _]. cbn [Nat.eqb app] in Hout. cbv zeta in Hout.
        destruct Hout as [data [Hval Hout]].
        destruct (Hbroken (new_jwriter obj ind good_sink) e data (jw_keys w1)) as [wi [t [r [Hwi [-> [Ht Hd]]]]]]; auto.
        destruct (growth post w1 os9 w Q1 ltac:(lia) E4) as [g [Hg Hgd]].
        exists ((if pretty (new_jwriter obj ind good_sink) then [10%N] else []) ++ wi), t, (r ++ g ++ fin).
        rewrite Hg, Hout. unfold chunk. cbn [new_jwriter jw_rows Nat.eqb app].
        split; [cbn [app]; rewrite <- !app_assoc; reflexivity|].
        split; [apply blank_app2; [apply nl_blank|assumption]|]. split; [assumption|apply delim_app_choice; assumption].
      - inversion Hb as [|e2 x es1 xs1 Hx Hb2]; subst e2 es1 xs. split; [congruence|intros _]. cbn [json_write_all] in E1.
        inversion Hh as [|seen seen' e0 es0 b l0 Hv Hh2]; try subst b; try subst l; subst seen e0 es0.
        destruct (write_entry_quiet (new_jwriter obj ind good_sink) e1 eq_refl) as [b2 [seen2 [Hv2 [o [w1 [Ew [Q1 [O1 [I1 [R1 [K1 [Hob Hout]]]]]]]]]]]].
        rewrite Ew in E1. destruct (write_all w1 (pre ++ e :: post)) as [os9 w4] eqn:E4. injection E1 as <- ->. subst seen2.
        cbn [new_jwriter jw_obj jw_keys jw_indent jw_rows jw_sink good_sink k_out] in *.
        assert (Hseen : seen' = jw_keys w1) by (destruct (verdict_fun _ _ _ _ _ Hv _ _ Hv2); assumption). subst seen'.
        destruct (verdict_fun _ _ _ _ _ Hv _ _ Hv2) as [<- _]. cbn [Nat.eqb app] in Hout. cbv zeta in Hout.
        destruct Hout as [data [Hval Hout]].
        destruct (Hitem (new_jwriter obj ind good_sink) e1 x data (jw_keys w1)) as [wi [t [Hwi [-> Ht]]]]; auto.
        destruct (tail_broken pre w1 l os9 w xs1 e post Q1) as [gt [w2 [t2 [r [g [Hg [Hgt [Hw2 [Hbad [Hd Hgd]]]]]]]]]]; auto; [lia|].
        exists ([] ++ opening obj :: ((if pretty (new_jwriter obj ind good_sink) then [10%N] else []) ++ wi) ++ t ++ gt), w2, t2, (r ++ g ++ fin).
        split.
        + exists [], ((if pretty (new_jwriter obj ind good_sink) then [10%N] else []) ++ wi), x, xs1, t, gt.
          split; [reflexivity|]. split; [constructor|]. split; [apply blank_app2; [apply nl_blank|assumption]|]. auto.
        + split; [|split; [assumption|split; [assumption|apply delim_app_choice; assumption]]].
          rewrite Hg, Hout. unfold chunk. cbn [new_jwriter jw_rows Nat.eqb app]. rewrite <- !app_assoc. cbn [app]. rewrite <- !app_assoc. cbn [app]. rewrite <- ?app_assoc. reflexivity.
    Qed.
  End Items.

  (** The two kinds of items. *)
  Variable parse_float : bytes -> option F.
  Hypothesis Hfmt : float_format F fmt_float parse_float.
  Notation float_reads := (float_reads F parse_float).

  Lemma encode_text : forall ind v v' t, blank ind -> encode ind v = Some t -> comes_back F fmt_float v v' ->
    exists w t', blank w /\ t = w ++ t' /\ jtext F float_reads v' t'.
  Proof.
    intros ind v v' t Hi E Hb. unfold M_JsonWrite.encode in E. destruct ind as [|c ind].
    - exists [], t. split; [constructor|]. split; [reflexivity|]. eapply marshal_text; try eassumption; constructor.
    - destruct (marshal F fmt_float [32%N] (c :: ind) (10%N :: c :: ind) v) as [t'|] eqn:Em; [|discriminate]. inversion E; subst.
      exists (c :: ind), t'. split; [assumption|]. split; [reflexivity|]. eapply marshal_text; [eassumption| | | |eassumption|eassumption]; try assumption.
      + repeat constructor.
      + constructor; [right; left; reflexivity|assumption].
  Qed.
  Lemma encode_spoiled : forall ind v t, blank ind -> encode ind v = Some t -> spoiled F fmt_float v ->
    exists w a b, blank w /\ t = w ++ a ++ b /\ jbad F float_reads a /\ delim b.
  Proof.
    intros ind v t Hi E Hb. unfold M_JsonWrite.encode in E. destruct ind as [|c ind].
    - destruct (marshal_spoiled F fmt_float parse_float Hfmt v Hb [] [] [] t) as [a [b [H1 [H2 H3]]]]; try constructor; [assumption|].
      exists [], a, b. split; [constructor|auto].
    - destruct (marshal F fmt_float [32%N] (c :: ind) (10%N :: c :: ind) v) as [t'|] eqn:Em; [|discriminate]. inversion E; subst.
      destruct (marshal_spoiled F fmt_float parse_float Hfmt v Hb [32%N] (c :: ind) (10%N :: c :: ind) t') as [a [b [-> [H2 H3]]]]; auto.
      + repeat constructor.
      + constructor; [right; left; reflexivity|assumption].
      + exists (c :: ind), a, b. auto.
  Qed.

  Definition back_value (e : entry F) (v : gval F) : Prop := comes_back F fmt_float (e_val e) v.
  Definition back_pair (e : entry F) (kv : bytes * gval F) : Prop := cleaned (e_key e) (fst kv) /\ comes_back F fmt_float (e_val e) (snd kv).

  Lemma array_item : forall ind, blank ind -> forall w e x data keys, jw_obj w = false -> jw_indent w = ind -> val_bytes w e = (inl data, keys) -> back_value e x ->
      exists w2 t, blank w2 /\ data = w2 ++ t /\ jtext F float_reads x t.
  Proof.
    intros ind Hi w e x data keys Ho <- Hv Hb. unfold M_JsonWrite.val_bytes in Hv. rewrite Ho in Hv. cbn [negb] in Hv.
    destruct (encode (jw_indent w) (e_val e)) as [t|] eqn:E; [|discriminate]. inversion Hv; subst.
    eapply encode_text; eassumption.
  Qed.
  Lemma array_broken : forall ind, blank ind -> forall w e data keys, jw_obj w = false -> jw_indent w = ind -> val_bytes w e = (inl data, keys) -> spoiled F fmt_float (e_val e) ->
      exists w2 t r, blank w2 /\ data = w2 ++ t ++ r /\ jbad F float_reads t /\ delim r.
  Proof.
    intros ind Hi w e data keys Ho <- Hv Hb. unfold M_JsonWrite.val_bytes in Hv. rewrite Ho in Hv. cbn [negb] in Hv.
    destruct (encode (jw_indent w) (e_val e)) as [t|] eqn:E; [|discriminate]. inversion Hv; subst.
    eapply encode_spoiled; eassumption.
  Qed.
  Local Opaque quote.
  Lemma object_item : forall ind, blank ind -> forall w e x data keys, jw_obj w = true -> jw_indent w = ind -> val_bytes w e = (inl data, keys) -> back_pair e x ->
      exists w2 t, blank w2 /\ data = w2 ++ t /\ jpair F float_reads x t.
  Proof.
    intros ind Hi w e [k v] data keys Ho <- Hv [Hk Hb]. unfold M_JsonWrite.val_bytes in Hv. rewrite Ho in Hv. cbn [negb fst snd] in *.
    destruct (e_key e) as [|c kk] eqn:Ek; [discriminate|]. destruct (existsb (beqb (c :: kk)) (jw_keys w)); [discriminate|].
    destruct (encode (jw_indent w) (e_val e)) as [t|] eqn:E; [|discriminate]. inversion Hv; subst.
    destruct (encode_text (jw_indent w) (e_val e) v t Hi E Hb) as [w2 [t' [Hw2 [-> Ht]]]].
    destruct (quote_chars (c :: kk) k Hk) as [kt [-> Hkt]].
    exists (jw_indent w), (34%N :: kt ++ 34%N :: [] ++ 58%N :: w2 ++ t'). split; [assumption|]. split.
    - cbn [app]. rewrite <- !app_assoc. cbn [app]. reflexivity.
    - apply (jp_intro _ _ k kt v t' [] w2); auto. constructor.
  Qed.
  Lemma object_broken : forall ind, blank ind -> forall w e data keys, jw_obj w = true -> jw_indent w = ind -> val_bytes w e = (inl data, keys) -> spoiled F fmt_float (e_val e) ->
      exists w2 t r, blank w2 /\ data = w2 ++ t ++ r /\ jbad_pair F float_reads t /\ delim r.
  Proof.
    intros ind Hi w e data keys Ho <- Hv Hb. unfold M_JsonWrite.val_bytes in Hv. rewrite Ho in Hv. cbn [negb] in *.
    destruct (e_key e) as [|c kk] eqn:Ek; [discriminate|]. destruct (existsb (beqb (c :: kk)) (jw_keys w)); [discriminate|].
    destruct (encode (jw_indent w) (e_val e)) as [t|] eqn:E; [|discriminate]. inversion Hv; subst.
    destruct (encode_spoiled (jw_indent w) (e_val e) t Hi E Hb) as [w2 [a [b [Hw2 [-> [Ha Hd]]]]]].
    destruct (cleaned_total (c :: kk)) as [k' Hk]. destruct (quote_chars (c :: kk) k' Hk) as [kt [-> Hkt]].
    exists (jw_indent w), (34%N :: kt ++ 34%N :: [] ++ 58%N :: w2 ++ a), b. split; [assumption|]. split; [|split; [|assumption]].
    - cbn [app]. rewrite <- !app_assoc. cbn [app]. rewrite <- !app_assoc. cbn [app]. rewrite <- ?app_assoc. reflexivity.
    - apply (jbp_intro _ _ k' kt a [] w2); auto. constructor.
  Qed.
End Writer.
