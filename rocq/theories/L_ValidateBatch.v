(** EntryReader checks the batches of what it reads. *)
From Coq Require Import ZArith Lia.
From Verif Require Import Base M_Decimal M_Utf8 M_Sink M_Json M_JsonWrite M_Unmarshal M_Stream S_Stream L_Stream S_Utf8 S_JsonText S_JsonBack S_NDJson
  L_JsonMarshal L_NDJson L_UnmarshalInv M_Validate S_Validate.
Notation length := List.length.

Section Batches.
  Variables F St E : Type.
  Variable fmt_float : F -> option bytes.
  Variable parse_float : bytes -> option F.
  Variable depth : nat.
  Variable check : gval F -> list E.
  Notation entry := (entry F).
  Notation marshal := (marshal F fmt_float).
  Notation writable := (writable F fmt_float).
  Notation flush_batch := (flush_batch F E parse_float depth check).

  (** The JSON of an entry, and of a batch without its closing bracket. *)
  Definition item (obj : bool) (e : entry) (t : bytes) : Prop :=
    exists u, marshal [] [] [] (e_val e) = Some u /\ t = if obj then quote (e_key e) ++ 58%N :: u else u.
  Definition content (obj : bool) (items : list bytes) : bytes :=
    match items with [] => [] | i :: r => (if obj then 123%N else 91%N) :: i ++ flat_map (cons 44%N) r end.
  (** The buffer after writing b. *)
  Definition holds (obj : bool) (b : list entry) (w : jwriter) : Prop :=
    jw_obj w = obj /\ jw_indent w = [] /\ jw_rows w = length b /\ jw_keys w = (if obj then rev (map e_key b) else []) /\
    k_plan (jw_sink w) = [] /\ (obj = true -> Forall (fun e => e_key e <> []) b /\ NoDup (map e_key b)) /\
    exists items, Forall2 (item obj) b items /\ k_out (jw_sink w) = content obj items.
  Lemma holds_new : forall obj, holds obj [] (new_jwriter obj [] (mkSink [] [])).
  Proof.
    intros obj. repeat split; try reflexivity; [destruct obj; reflexivity|constructor|constructor|]. exists []. split; [constructor|reflexivity].
  Qed.
  Lemma item_not_refused : forall obj e t, item obj e t -> ~ refused F fmt_float (e_val e).
  Proof. intros obj e t [u [H _]] X. apply (marshal_refused F fmt_float _ [] [] []) in X. congruence. Qed.
  Lemma holds_writable : forall obj b w, holds obj b w -> writable obj b.
  Proof.
    intros obj b w [_ [_ [_ [_ [_ [Hk [items [Hi _]]]]]]]]. split; [|exact Hk].
    clear Hk. induction Hi; constructor; eauto using item_not_refused.
  Qed.
  Lemma existsb_keys : forall k l, existsb (beqb k) l = true <-> In k l.
  Proof.
    intros k l. rewrite existsb_exists. split; [intros [x [I H]]; apply beqb_eq in H; subst; assumption|].
    intros I. exists k. split; [assumption|apply beqb_eq; reflexivity].
  Qed.
  Lemma nodup_snoc : forall (l : list bytes) x, NoDup (l ++ [x]) <-> NoDup l /\ ~ In x l.
  Proof.
    intros l x. split.
    - intros H. split; [apply NoDup_remove_1 in H; rewrite app_nil_r in H; exact H|]. apply NoDup_remove_2 in H. rewrite app_nil_r in H. exact H.
    - intros [H1 H2]. apply NoDup_rev in H1. rewrite <- (rev_involutive (l ++ [x])). apply NoDup_rev. rewrite rev_app_distr. constructor; [|exact H1].
      rewrite <- in_rev. exact H2.
  Qed.
  Lemma content_snoc : forall obj items t, items <> [] -> content obj (items ++ [t]) = content obj items ++ 44%N :: t.
  Proof.
    intros obj [|i r] t Hn; [congruence|]. cbn [content app]. rewrite flat_map_app. cbn [flat_map]. rewrite app_nil_r, <- app_assoc. reflexivity.
  Qed.
  Lemma write_step : forall obj b w e, holds obj b w ->
    match json_write_entry F fmt_float w e with
    | (None, w') => holds obj (b ++ [e]) w'
    | (Some _, _) => ~ writable obj (b ++ [e])
    end.
  Proof.
    intros obj b [o ind rows keys [out plan]] e [H1 [H2 [H3 [H4 [H5 [H6 [items [H7 H8]]]]]]]]. cbn [jw_obj jw_indent jw_rows jw_keys jw_sink k_out k_plan] in *. subst o ind rows keys plan out.
    assert (GO : forall u, marshal [] [] [] (e_val e) = Some u -> (obj = true -> e_key e <> [] /\ ~ In (e_key e) (map e_key b)) ->
      let t := if obj then quote (e_key e) ++ 58%N :: u else u in
      forall w', w' = mkJw obj [] (S (length b)) (if obj then e_key e :: rev (map e_key b) else [])
        (mkSink (content obj items ++ (if (length b =? 0)%nat then [if obj then 123%N else 91%N] else []) ++ (if (length b =? 0)%nat then [] else [44%N]) ++ t) []) ->
      holds obj (b ++ [e]) w').
    { intros u Hu Hk t w' ->. repeat split; cbn [jw_obj jw_indent jw_rows jw_keys jw_sink k_out k_plan].
      - rewrite app_length. cbn [length]. lia.
      - destruct obj; [|reflexivity]. rewrite map_app, rev_app_distr. reflexivity.
      - apply Forall_app. split; [apply H6; assumption|]. constructor; [apply Hk; assumption|constructor].
      - rewrite map_app. apply nodup_snoc. split; [apply H6; assumption|apply Hk; assumption].
      - exists (items ++ [t]). split; [apply Forall2_app; [assumption|]; constructor; [exists u; auto|constructor]|].
        destruct b as [|x b].
        + inversion H7; subst. cbn [length Nat.eqb content app flat_map]. rewrite app_nil_r. reflexivity.
        + assert (Hn : items <> []) by (intros ->; inversion H7). rewrite content_snoc by exact Hn. reflexivity. }
    unfold json_write_entry, val_bytes, encode, pretty. cbn [jw_obj jw_indent jw_rows jw_keys jw_sink].
    assert (NR : marshal [] [] [] (e_val e) = None -> ~ writable obj (b ++ [e])).
    { intros X [Y _]. apply Forall_app in Y. destruct Y as [_ Y]. inversion Y; subst. apply H1. apply (marshal_refused F fmt_float _ [] [] []). exact X. }
    destruct obj; cbn [negb].
    - destruct (e_key e) as [|c k] eqn:Ek.
      { assert (X : ~ writable true (b ++ [e])).
        { intros [_ Y]. destruct (Y eq_refl) as [Z _]. apply Forall_app in Z. destruct Z as [_ Z]. inversion Z; subst. congruence. }
        destruct (length b =? 0)%nat; cbn; exact X. }
      destruct (existsb (beqb (c :: k)) (rev (map e_key b))) eqn:Ex.
      { apply existsb_keys in Ex. rewrite <- in_rev in Ex.
        assert (X : ~ writable true (b ++ [e])).
        { intros [_ Y]. destruct (Y eq_refl) as [_ Z]. rewrite map_app in Z. cbn [map] in Z. apply nodup_snoc in Z. rewrite Ek in Z. tauto. }
        destruct (length b =? 0)%nat; cbn; exact X. }
      assert (NI : ~ In (c :: k) (map e_key b)).
      { intros X. rewrite in_rev in X. apply existsb_keys in X. congruence. }
      destruct (marshal [] [] [] (e_val e)) as [u|] eqn:Eu.
      2: { specialize (NR eq_refl). destruct (length b =? 0)%nat; cbn; exact NR. }
      specialize (GO u eq_refl ltac:(intros _; split; [discriminate|exact NI])). cbv zeta in GO.
      destruct (length b =? 0)%nat eqn:E0; cbn [sink_write k_plan k_out]; apply GO; cbn [app]; rewrite <- ?app_assoc; reflexivity.
    - destruct (marshal [] [] [] (e_val e)) as [u|] eqn:Eu.
      2: { specialize (NR eq_refl). destruct (length b =? 0)%nat; cbn; exact NR. }
      specialize (GO u eq_refl ltac:(discriminate)). cbv zeta in GO.
      destruct (length b =? 0)%nat eqn:E0; cbn [sink_write k_plan k_out]; apply GO; cbn [app]; rewrite <- ?app_assoc; reflexivity.
  Qed.

  (** Flushing. *)
  Lemma flush_empty : forall obj w errs, holds obj [] w -> flush_batch w errs = Ok errs.
  Proof.
    intros obj w errs [_ [_ [_ [_ [_ [_ [items [Hi Ho]]]]]]]]. inversion Hi; subst. unfold M_Validate.flush_batch. rewrite Ho. reflexivity.
  Qed.
  Lemma flush_text : forall obj b w errs, holds obj b w -> b <> [] -> exists items, Forall2 (item obj) b items /\
    flush_batch w errs = match unmarshal F parse_float depth (content obj items ++ [if obj then 125%N else 93%N]) with
                         | Ok doc => Ok (errs ++ check doc)
                         | Err e => Err (EWrap "error parsing JSON bytes" 0 e)
                         | Panic => Panic
                         | OutOfFuel => OutOfFuel
                         end.
  Proof.
    intros obj b [o ind rows keys [out plan]] errs [H1 [H2 [H3 [H4 [H5 [H6 [items [H7 H8]]]]]]]] Hn.
    cbn [jw_obj jw_indent jw_rows jw_keys jw_sink k_out k_plan] in *. subst o ind rows plan out.
    exists items. split; [assumption|]. unfold M_Validate.flush_batch. cbn [jw_sink k_out].
    assert (X : exists c r, content obj items = c :: r) by (destruct items; [inversion H7; subst; congruence|cbn; eauto]).
    destruct X as [c [r X]]. rewrite X. unfold json_close. cbn [jw_rows jw_sink jw_obj pretty jw_indent].
    destruct b as [|x b]; [congruence|]. cbn [length Nat.eqb sink_write k_plan k_out jw_sink]. rewrite <- X. reflexivity.
  Qed.
  Hypothesis floats : strict_format F fmt_float parse_float.
  Lemma items_doc : forall obj b items doc, Forall2 (item obj) b items -> b <> [] -> batch_doc F parse_float obj b doc ->
    (exists d, depth = S d /\ Forall (fun e => deep F d (e_val e)) b) ->
    unmarshal F parse_float depth (content obj items ++ [if obj then 125%N else 93%N]) = Ok doc.
  Proof.
    intros obj b items doc Hi Hn Hd [d [Ed Hdeep]].
    assert (B0 : blank []) by constructor.
    assert (ST : stext F parse_float depth doc (content obj items ++ [if obj then 125%N else 93%N])).
    { rewrite Ed. destruct Hd as [b vs Hv|b kvs Hkv].
      - destruct Hi as [|e t b items He Hi]; [congruence|]. inversion Hv as [|? v ? vs' Hv1 Hv2]; subst. inversion Hdeep as [|? ? D1 D2]; subst.
        destruct He as [u [Hu ->]]. cbn [content app]. rewrite <- app_assoc.
        change (u ++ flat_map (cons 44%N) items ++ [93%N]) with ([] ++ u ++ flat_map (cons 44%N) items ++ [93%N]).
        apply st_arr; [exact B0|eapply marshal_strict; eassumption|]. clear Hv Hv1 Hu Hdeep D1 Hn u e v.
        revert vs' Hv2 D2. induction Hi as [|e t b items He Hi IH]; intros vs' Hv D; inversion Hv as [|? v ? vs2 X1 X2]; subst; [apply sl_nil; exact B0|].
        inversion D; subst. destruct He as [u [Hu ->]]. cbn [flat_map app].
        change (44%N :: u ++ flat_map (cons 44%N) items) with ([] ++ 44%N :: [] ++ u ++ flat_map (cons 44%N) items).
        apply sl_cons; [exact B0|exact B0|eapply marshal_strict; eassumption|apply IH; assumption].
      - destruct Hi as [|e t b items He Hi]; [congruence|]. inversion Hkv as [|? [k v] ? kvs' [Hk1 Hv1] Hv2]; subst. inversion Hdeep as [|? ? D1 D2]; subst. cbn [fst snd] in *.
        assert (HP : forall e k v u, cleaned (e_key e) k -> line_back F parse_float (e_val e) v -> deep F d (e_val e) -> marshal [] [] [] (e_val e) = Some u ->
          spair F parse_float d (k, v) (quote (e_key e) ++ 58%N :: u)).
        { intros e0 k0 v0 u0 Hc0 Hb0 Hd0 Hm0. destruct (quote_schars _ _ Hc0) as [kt [-> Hkt]].
          cbn [app]. rewrite <- app_assoc. cbn [app]. apply (spr_intro _ _ d k0 kt v0 u0 [] []); [exact Hkt|exact B0|exact B0|eapply marshal_strict; eassumption]. }
        destruct He as [u [Hu ->]]. cbn [content app]. rewrite <- (app_assoc (_ ++ _)).
        change ((quote (e_key e) ++ 58%N :: u) ++ flat_map (cons 44%N) items ++ [125%N]) with ([] ++ (quote (e_key e) ++ 58%N :: u) ++ flat_map (cons 44%N) items ++ [125%N]).
        apply st_obj; [exact B0|apply HP; assumption|]. clear Hkv Hk1 Hv1 Hu Hdeep D1 Hn u e k v.
        revert kvs' Hv2 D2. induction Hi as [|e t b items He Hi IH]; intros kvs' Hv D; inversion Hv as [|? [k v] ? kvs2 [X0 X1] X2]; subst; [apply spl_nil; exact B0|].
        inversion D; subst. cbn [fst snd] in *. destruct He as [u [Hu ->]]. cbn [flat_map app].
        change (44%N :: (quote (e_key e) ++ 58%N :: u) ++ flat_map (cons 44%N) items) with ([] ++ 44%N :: [] ++ (quote (e_key e) ++ 58%N :: u) ++ flat_map (cons 44%N) items).
        apply spl_cons; [exact B0|exact B0|apply HP; assumption|apply IH; assumption]. }
    apply unmarshal_exact. exists [], (content obj items ++ [if obj then 125%N else 93%N]), []. rewrite app_nil_r. auto.
  Qed.
  Lemma flush_doc : forall obj b w errs doc, holds obj b w -> b <> [] -> batch_doc F parse_float obj b doc ->
    (exists d, depth = S d /\ Forall (fun e => deep F d (e_val e)) b) -> flush_batch w errs = Ok (errs ++ check doc).
  Proof.
    intros obj b w errs doc Hw Hn Hd Hdeep. destruct (flush_text obj b w errs Hw Hn) as [items [Hi ->]].
    rewrite (items_doc obj b items doc Hi Hn Hd Hdeep). reflexivity.
  Qed.

  Definition shallow (es : list entry) : Prop := exists d, depth = S d /\ Forall (fun e => deep F d (e_val e)) es.
  Lemma shallow_app : forall a b, shallow (a ++ b) -> shallow a /\ shallow b.
  Proof. intros a b [d [E1 H]]. apply Forall_app in H. split; exists d; tauto. Qed.

  (** The batch size, as a number that does not unfold. *)
  Variable size : nat.
  Hypothesis size_is : Z.of_nat size = 5000%Z.
  (** The callback over one batch, and over all. *)
  Variable schema : option (list (bytes * gval F)).
  Variable obj : bool.
  Hypothesis top : get_top_level_type schema = Ok (if obj then bs "object" else bs "array").
  Notation on_entry := (on_entry F E fmt_float parse_float depth check schema).
  Lemma new_buffer_ok : new_buffer F schema = Ok (new_jwriter obj [] (mkSink [] [])).
  Proof. unfold new_buffer. rewrite top. destruct obj; reflexivity. Qed.
  Lemma writable_front : forall b x, writable obj (b ++ x) -> writable obj b.
  Proof.
    intros b x [H1 H2]. apply Forall_app in H1. split; [tauto|]. intros Ho. destruct (H2 Ho) as [H3 H4]. apply Forall_app in H3. split; [tauto|].
    rewrite map_app in H4. clear -H4. induction (map e_key b) as [|k l IH]; [constructor|]. cbn [app] in H4. inversion H4; subst.
    constructor; [rewrite in_app_iff in *; tauto|auto].
  Qed.
  Lemma visit_rest : forall es b w errs i, holds obj b w -> b <> [] -> (length b + length es <= size)%nat ->
    (i mod 5000 = Z.of_nat (length b) mod 5000)%Z -> writable obj (b ++ es) ->
    exists w', visits on_entry (w, errs) i es (w', errs) /\ holds obj (b ++ es) w'.
  Proof.
    induction es as [|e es IH]; intros b w errs i Hw Hn Hl Hi Hwr.
    - exists w. rewrite app_nil_r. split; [constructor|assumption].
    - cbn [length] in Hl. assert (Hm : (i mod batch_size =? 0)%Z = false).
      { apply Z.eqb_neq. unfold batch_size. rewrite Hi, Z.mod_small by lia. destruct b; [congruence|cbn [length]; lia]. }
      pose proof (write_step obj b w e Hw) as Hs. destruct (json_write_entry F fmt_float w e) as [[er|] w1] eqn:Ew.
      { exfalso. apply Hs. apply (writable_front (b ++ [e]) es). rewrite <- app_assoc. exact Hwr. }
      destruct (IH (b ++ [e]) w1 errs (i + 1)%Z Hs) as [w' [V H]].
      + destruct b; discriminate.
      + rewrite app_length. cbn [length]. lia.
      + rewrite app_length. cbn [length]. rewrite Nat2Z.inj_add, Z.add_mod, Hi, <- Z.add_mod by lia. reflexivity.
      + rewrite <- app_assoc. exact Hwr.
      + exists w'. rewrite <- app_assoc in H. split; [|exact H]. apply (v_cons _ _ _ _ (w1, errs)); [|exact V].
        unfold M_Validate.on_entry. rewrite Hm, Ew. reflexivity.
  Qed.
  Lemma visit_first : forall e w errs errs0 i, flush_batch w errs = Ok errs0 -> (i mod 5000 = 0)%Z -> writable obj [e] ->
    exists w', on_entry (w, errs) i e = (None, (w', errs0)) /\ holds obj [e] w'.
  Proof.
    intros e w errs errs0 i Hf Hi Hwr. unfold M_Validate.on_entry. unfold batch_size. rewrite Hi. change (0 =? 0)%Z with true. cbv iota.
    rewrite Hf, new_buffer_ok. pose proof (write_step obj [] _ e (holds_new obj)) as Hs.
    destruct (json_write_entry F fmt_float _ e) as [[er|] w1] eqn:Ew; [contradiction|]. exists w1. auto.
  Qed.
  Lemma visit_all : forall es bs, batches size es bs -> forall docs, Forall (writable obj) bs -> Forall2 (batch_doc F parse_float obj) bs docs ->
    shallow es -> es <> [] ->
    forall w errs errs0 i, flush_batch w errs = Ok errs0 -> (i mod 5000 = 0)%Z ->
    exists w' errs', visits on_entry (w, errs) i es (w', errs') /\ flush_batch w' errs' = Ok (errs0 ++ flat_map check docs).
  Proof.
    assert (ONE : forall b w errs errs0 i, b <> [] -> (length b <= size)%nat -> writable obj b -> flush_batch w errs = Ok errs0 -> (i mod 5000 = 0)%Z ->
      exists w', visits on_entry (w, errs) i b (w', errs0) /\ holds obj b w').
    { intros [|e b] w errs errs0 i Hn Hl Hwr Hf Hi; [congruence|].
      destruct (visit_first e w errs errs0 i Hf Hi (writable_front [e] b Hwr)) as [w1 [V1 H1]].
      destruct (visit_rest b [e] w1 errs0 (i + 1) H1) as [w2 [V2 H2]]; [discriminate|exact Hl| |exact Hwr|].
      - cbn [length]. rewrite Z.add_mod, Hi by lia. reflexivity.
      - exists w2. split; [|exact H2]. eapply v_cons; eassumption. }
    induction 1 as [|b Hn Hl|b l bs Hl Hne Hb IH]; intros docs Hwr Hdoc Hdeep Hes w errs errs0 i Hf Hi; [congruence|..].
    - inversion Hwr; subst. inversion Hdoc as [|? doc ? docs' D1 D2]; subst. inversion D2; subst.
      destruct (ONE b w errs errs0 i Hn Hl H1 Hf Hi) as [w' [V H]]. exists w', errs0. split; [exact V|].
      cbn [flat_map]. rewrite app_nil_r. eapply flush_doc; eauto.
    - pose proof (Forall_inv Hwr) as H1. pose proof (Forall_inv_tail Hwr) as H2.
      assert (D : exists doc docs', docs = doc :: docs' /\ batch_doc F parse_float obj b doc /\ Forall2 (batch_doc F parse_float obj) bs docs') by (clear Hl; inversion Hdoc; subst; eauto).
      destruct D as [doc [docs' [-> [D1 D2]]]]. apply shallow_app in Hdeep. destruct Hdeep as [E1 E2].
      assert (Hbn : b <> []) by (intros ->; cbn [length] in Hl; lia). clear Hes.
      destruct (ONE b w errs errs0 i Hbn ltac:(lia) H1 Hf Hi) as [w1 [V1 K1]].
      assert (F1 : flush_batch w1 errs0 = Ok (errs0 ++ check doc)) by (eapply flush_doc; eauto).
      destruct (IH docs' H2 D2 E2 Hne w1 errs0 (errs0 ++ check doc) (i + Z.of_nat (length b))%Z F1) as [w2 [errs2 [V2 K2]]].
      { rewrite Hl, size_is. rewrite Z.add_mod, Hi by lia. reflexivity. }
      exists w2, errs2. split; [|rewrite K2; cbn [flat_map]; rewrite app_assoc; reflexivity].
      clear -V1 V2. revert i w errs V1 V2. induction b as [|x b IHb]; intros i w errs V1 V2.
      + cbn [length] in V2. rewrite Z.add_0_r in V2. inversion V1; subst. exact V2.
      + inversion V1; subst. cbn [app]. destruct c1 as [w3 errs3]. eapply v_cons; [eassumption|]. apply IHb; [assumption|].
        replace (i + 1 + Z.of_nat (length b))%Z with (i + Z.of_nat (length (x :: b)))%Z by (cbn [length]; lia). exact V2.
  Qed.

  (** What was visited was written. *)
  Lemma visited_batches : forall es b w errs i c, holds obj b w -> b <> [] -> (length b <= size)%nat ->
    (i mod 5000 = Z.of_nat (length b) mod 5000)%Z -> visits on_entry (w, errs) i es c ->
    exists bs, batches size (b ++ es) bs /\ Forall (writable obj) bs.
  Proof.
    induction es as [|e es IH]; intros b w errs i c Hw Hn Hl Hi Hv.
    - exists [b]. rewrite app_nil_r. split; [apply ba_last; assumption|]. constructor; [eapply holds_writable; eassumption|constructor].
    - inversion Hv as [|? ? ? [w1 errs1] ? ? V1 V2]; subst. unfold M_Validate.on_entry in V1. unfold batch_size in V1.
      assert (Hi2 : ((i + 1) mod 5000 = (Z.of_nat (length b) + 1) mod 5000)%Z) by (rewrite Z.add_mod, Hi, <- Z.add_mod by lia; reflexivity).
      destruct (Nat.eq_dec (length b) size) as [Hf|Hf].
      + rewrite Hf in Hi. rewrite size_is in Hi. change (5000 mod 5000)%Z with 0%Z in Hi. rewrite Hi in V1. change (0 =? 0)%Z with true in V1. cbv iota in V1.
        destruct (flush_batch w errs) as [errs2|?| |]; try discriminate. rewrite new_buffer_ok in V1.
        pose proof (write_step obj [] _ e (holds_new obj)) as Hs. destruct (json_write_entry F fmt_float _ e) as [[er|] w2] eqn:Ew; [discriminate|].
        injection V1 as <- <-. destruct (IH [e] w2 errs2 (i + 1)%Z c Hs) as [bs [B1 B2]]; [discriminate|cbn [length]; lia| |exact V2|].
        * rewrite Hi2, Hf, size_is. reflexivity.
        * exists (b :: bs). split; [apply ba_more; [assumption|discriminate|exact B1]|]. constructor; [eapply holds_writable; eassumption|exact B2].
      + assert (Hm : (i mod 5000 =? 0)%Z = false).
        { apply Z.eqb_neq. rewrite Hi, Z.mod_small by lia. destruct b; [congruence|cbn [length]; lia]. }
        rewrite Hm in V1. pose proof (write_step obj b w e Hw) as Hs. destruct (json_write_entry F fmt_float w e) as [[er|] w2] eqn:Ew; [discriminate|].
        injection V1 as <- <-. destruct (IH (b ++ [e]) w2 errs (i + 1)%Z c Hs) as [bs [B1 B2]]; [destruct b; discriminate|rewrite app_length; cbn [length]; lia| |exact V2|].
        * rewrite Hi2, app_length, Nat2Z.inj_add. reflexivity.
        * exists bs. rewrite <- app_assoc in B1. auto.
  Qed.
  Lemma visited_all : forall es c, visits on_entry (new_jwriter obj [] (mkSink [] []), []) 0 es c ->
    exists bs, batches size es bs /\ Forall (writable obj) bs.
  Proof.
    intros [|e es] c V; [exists []; split; constructor|]. inversion V as [|? ? ? [w1 errs1] ? ? V1 V2]; subst. unfold M_Validate.on_entry in V1.
    change (0 mod batch_size =? 0)%Z with true in V1. cbv iota in V1. rewrite (flush_empty obj) in V1 by apply holds_new. rewrite new_buffer_ok in V1.
    pose proof (write_step obj [] _ e (holds_new obj)) as Hs. destruct (json_write_entry F fmt_float _ e) as [[er|] w2] eqn:Ew; [discriminate|].
    injection V1 as <- <-. destruct (visited_batches es [e] w2 [] 1 c Hs) as [bs [B1 B2]]; [discriminate|cbn [length]; lia|reflexivity|exact V2|]. eauto.
  Qed.
  Lemma on_entry_error : forall c i e er c', on_entry c i e = (Some er, c') -> is_eof_text er = false.
  Proof.
    intros [w errs] i e er c'. unfold M_Validate.on_entry.
    destruct (i mod batch_size =? 0)%Z.
    - unfold M_Validate.flush_batch. destruct (k_out (jw_sink w)) as [|x l].
      + destruct (new_buffer F schema) as [w'|?| |]; [destruct (json_write_entry F fmt_float w' e) as [[?|] ?]|..]; intros H; try discriminate; injection H as <- _; reflexivity.
      + destruct (json_close None w) as [[?|] w2]; [intros H; injection H as <- _; reflexivity|].
        destruct (unmarshal F parse_float depth (k_out (jw_sink w2))) as [doc|?| |];
          [destruct (new_buffer F schema) as [w'|?| |]; [destruct (json_write_entry F fmt_float w' e) as [[?|] ?]|..]|..]; intros H; try discriminate; injection H as <- _; reflexivity.
    - destruct (json_write_entry F fmt_float w e) as [[?|] ?]; intros H; [injection H as <- _; reflexivity|discriminate].
  Qed.
End Batches.

(** A successful EachEntry whose callback never fails with EOF has seen everything. *)
Lemma each_entry_ok_inv : forall F St C (rd : St -> res (entry F) * St) (fn : C -> Z -> entry F -> option err * C),
  (forall c i e er c', fn c i e = (Some er, c') -> is_eof_text er = false) ->
  forall fuel i s c s' c', each_entry fuel rd fn i s c = (Ok tt, s', c') ->
  exists es e, yields rd s es e s' /\ is_eof_text e = true /\ visits fn c i es c'.
Proof.
  intros F St C rd fn Hfn. induction fuel as [|f IH]; intros i s c s' c' H; [discriminate|]. cbn [each_entry] in H.
  destruct (rd s) as [[x|er| |] s1] eqn:Er.
  - destruct (fn c i x) as [[er|] c1] eqn:Ef.
    + rewrite (Hfn _ _ _ _ _ Ef) in H. discriminate.
    + destruct (IH _ _ _ _ _ H) as [es [e [Y [T V]]]]. exists (x :: es), e. split; [eapply y_cons; eassumption|]. split; [assumption|]. eapply v_cons; eassumption.
  - destruct (is_eof_text er) eqn:Ee; [|discriminate]. injection H as <- <-. exists [], er. split; [constructor; assumption|]. split; [assumption|constructor].
  - discriminate.
  - discriminate.
Qed.
Lemma batches_concat : forall A n (l : list A) bs, batches n l bs -> concat bs = l.
Proof. induction 1; cbn [concat]; [reflexivity|apply app_nil_r|rewrite IHbatches; reflexivity]. Qed.
Lemma batches_fun : forall A n (l : list A) bs, (0 < n)%nat -> batches n l bs -> forall bs', batches n l bs' -> bs = bs'.
Proof.
  intros A n l bs Hn. induction 1 as [|b Hb Hl|b l bs Hl Hne Hb IH]; intros bs' H'.
  - inversion H'; subst; [reflexivity|congruence|]. destruct b; [cbn in *; lia|discriminate].
  - inversion H' as [|? Hb2 Hl2|b2 l2 bs2 Hl2 Hne2 Hb2]; subst; [congruence|reflexivity|]. rewrite app_length in Hl. destruct l2; [congruence|cbn in Hl; lia].
  - inversion H' as [E|b2 Hb2 Hl2|b2 l2 bs2 Hl2 Hne2 Hb2 E]; subst.
    + destruct b; [cbn in *; lia|discriminate].
    + rewrite app_length in Hl2. destruct l; [congruence|cbn in Hl2; lia].
    + assert (X : b2 = b /\ l2 = l).
      { clear -Hl2 E. revert b2 Hl2 E. induction b as [|x b IH]; intros [|y b2] HL E; cbn in *; try lia; auto.
        injection E as -> E. destruct (IH b2 ltac:(lia) E) as [-> ->]. auto. }
      destruct X as [-> ->]. f_equal. apply IH. assumption.
Qed.
Lemma batches_some : forall A n (l : list A), (0 < n)%nat -> exists bs, batches n l bs.
Proof.
  intros A n l Hn. remember (length l) as m eqn:Em. assert (H : (length l <= m)%nat) by lia. clear Em. revert l H.
  induction m as [|m IH]; intros l H; [destruct l; [exists []; constructor|cbn in H; lia]|].
  destruct l as [|x l]; [exists []; constructor|]. destruct (Nat.le_gt_cases (length (x :: l)) n) as [L|L].
  - exists [x :: l]. apply ba_last; [discriminate|assumption].
  - destruct (IH (skipn n (x :: l))) as [bs Hb]; [rewrite skipn_length; lia|]. exists (firstn n (x :: l) :: bs).
    rewrite <- (firstn_skipn n (x :: l)) at 1. apply ba_more; [apply firstn_length_le; lia| |assumption].
    intros E. apply (f_equal (@List.length A)) in E. rewrite skipn_length in E. cbn [length] in *. lia.
Qed.
