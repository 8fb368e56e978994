(** C08-C16: the JSON reader and writer. *)
From Verif Require Import Base M_Decimal L_Decimal M_Bufio L_Bufio M_Utf8 S_Utf8 L_Utf8 M_Sink M_Json M_JsonWrite S_JsonPure S_JsonText S_JsonBack
  L_JsonBuf L_JsonTotal L_JsonRead L_JsonCut L_JsonDoc L_JsonSteady L_JsonMarshal L_JsonBad L_JsonWriter.

Section Json.
  Variable F : Type.
  Variable fmt_float : F -> option bytes.
  Variable parse_float : bytes -> option F.
  Variable surrogate : bytes.
  Notation read_json := (read_json F parse_float surrogate).
  Notation json_write := (json_write F fmt_float).
  Notation gval := (gval F).
  Notation entry := (entry F).
  Notation float_reads := (float_reads F parse_float).
  Notation float_format := (float_format F fmt_float parse_float).
  Notation comes_back := (comes_back F fmt_float).
  Notation refused := (refused F fmt_float).
  Notation spoiled := (spoiled F fmt_float).
  Notation history := (history F fmt_float).

  (** [reads obj doc x]: reading doc to the end gives x, whatever the buffer size, the error with which
      the source ends and the pieces in which the bytes arrive. *)
  Definition reads (obj : bool) (doc : bytes) (x : list entry * res unit) : Prop :=
    forall size s n fuel, s_rem s = doc -> (length doc < n)%nat -> (3 * length doc + 3 <= fuel)%nat ->
      read_json obj size s n fuel = Ok x.

  (** [stops obj doc es]: reading doc gives the entries es and then an error that is not io.EOF. *)
  Definition stops (obj : bool) (doc : bytes) (es : list entry) : Prop :=
    forall size s n fuel, s_rem s = doc -> (length doc < n)%nat -> (3 * length doc + 3 <= fuel)%nat ->
      exists x, is_eof_text x <> true /\ read_json obj size s n fuel = Ok (es, Err x).

  (** ** C16: termination *)
  Theorem json_read_terminates : forall obj size s n fuel, (length (s_rem s) < n)%nat -> (3 * length (s_rem s) + 3 <= fuel)%nat ->
    (exists es e, read_json obj size s n fuel = Ok (es, Err e) /\ (length es <= length (s_rem s))%nat) \/
    (read_json obj size s n fuel = Panic /\ ends_escaped (s_rem s)).
  Proof.
    intros obj size s n fuel Hn Hf. destruct (new_bufr_ok size s) as [Hb Hp].
    assert (Hl : len (mkJst (new_bufr size s) 0) = length (s_rem s)) by (unfold len; cbn [j_buf]; rewrite Hp; reflexivity).
    destruct (read_loop_fine F parse_float surrogate (Nat.max 16 size) (s_fin s) (s_rem s) n fuel (mkJs obj false 0) (mkJst (new_bufr size s) 0)) as [[E H]|[[es x] [st' [E [_ [H1 [e H2]]]]]]].
    - split; [split; [lia|exact Hb]|]. cbn [j_buf]. rewrite Hp. apply suffix_refl.
    - rewrite Hl. assumption.
    - rewrite Hl. assumption.
    - right. unfold M_Json.read_json. rewrite E. auto.
    - left. exists es, e. unfold M_Json.read_json. rewrite E. cbn [fst snd] in *. subst x. rewrite Hl in H1. split; [reflexivity|lia].
  Qed.

  (** ** C08: how the bytes arrive *)
  Theorem json_chunk_free : forall obj doc n fuel, ~ misspelled doc -> (length doc < n)%nat -> (3 * length doc + 3 <= fuel)%nat ->
    exists es e, forall size s, s_rem s = doc ->
      read_json obj size s n fuel = Ok (es, Err e) \/ (read_json obj size s n fuel = Panic /\ ends_escaped doc).
  Proof.
    intros obj doc n fuel Hm Hn Hf.
    destruct (steady_loop F parse_float surrogate doc Hm n fuel (mkJs obj false 0) (Live doc)) as [[es x] [ps [E _]]].
    { constructor. }
    { intros _. exists doc. split; [reflexivity|constructor]. }
    assert (Hx : forall size s, s_rem s = doc ->
      (read_json obj size s n fuel = Ok (es, x) /\ exists e, x = Err e) \/ (read_json obj size s n fuel = Panic /\ ends_escaped doc)).
    { intros size s Hs. rewrite <- Hs in E, Hn, Hf.
      destruct (json_read_terminates obj size s n fuel Hn Hf) as [[es' [e' [E1 _]]]|[E1 E2]]; [|right; rewrite <- Hs; auto].
      destruct (read_json_pure F parse_float surrogate obj size s n fuel (es, x) ps E) as [E3|[_ E3]]; [|congruence].
      left. split; [assumption|]. exists e'. congruence. }
    destruct x as [u|e| |].
    - exists es, EOF. intros size s Hs. destruct (Hx size s Hs) as [[_ [e H]]|H]; [discriminate|auto].
    - exists es, e. intros size s Hs. destruct (Hx size s Hs) as [[H _]|H]; auto.
    - exists es, EOF. intros size s Hs. destruct (Hx size s Hs) as [[_ [e H]]|H]; [discriminate|auto].
    - exists es, EOF. intros size s Hs. destruct (Hx size s Hs) as [[_ [e H]]|H]; [discriminate|auto].
  Qed.
  (** Two ways of delivering a document that does not end in an escape sequence. *)
  Theorem json_same_outcome : forall obj size1 size2 s1 s2 n fuel, s_rem s1 = s_rem s2 -> ~ misspelled (s_rem s1) -> ~ ends_escaped (s_rem s1) ->
    (length (s_rem s1) < n)%nat -> (3 * length (s_rem s1) + 3 <= fuel)%nat ->
    read_json obj size1 s1 n fuel = read_json obj size2 s2 n fuel.
  Proof.
    intros obj size1 size2 s1 s2 n fuel Hs Hm He Hn Hf.
    destruct (json_chunk_free obj (s_rem s1) n fuel Hm Hn Hf) as [es [e H]].
    destruct (H size1 s1 eq_refl) as [->|[_ X]]; [|contradiction].
    destruct (H size2 s2 (eq_sym Hs)) as [->|[_ X]]; [|contradiction]. reflexivity.
  Qed.

  (** From the plain reading of a document to [reads]. *)
  Lemma reads_intro : forall obj doc x r, (forall n fuel, (length doc < n)%nat -> (3 * length doc + 3 <= fuel)%nat ->
      run_pure (read_loop F parse_float surrogate n fuel (mkJs obj false 0)) (Live doc) = (Some x, Live r)) -> reads obj doc x.
  Proof.
    intros obj doc x r H size s n fuel Hs Hn Hf. specialize (H n fuel Hn Hf). rewrite <- Hs in H.
    destruct (read_json_pure F parse_float surrogate obj size s n fuel x (Live r) H) as [E|[X _]]; [assumption|discriminate].
  Qed.
  Lemma stops_intro : forall obj doc es, (forall n fuel, (length doc < n)%nat -> (3 * length doc + 3 <= fuel)%nat ->
      exists e r, run_pure (read_loop F parse_float surrogate n fuel (mkJs obj false 0)) (Live doc) = (Some (es, Err e), Live r) /\ is_eof_text e <> true) -> stops obj doc es.
  Proof.
    intros obj doc es H size s n fuel Hs Hn Hf. destruct (H n fuel Hn Hf) as [e [r [E He]]]. rewrite <- Hs in E. exists e. split; [assumption|].
    destruct (read_json_pure F parse_float surrogate obj size s n fuel _ (Live r) E) as [E2|[X _]]; [assumption|discriminate].
  Qed.
  Lemma gdoc_array_reads : forall vs doc, gdoc false gval (jtext F float_reads) vs doc -> reads false doc (number_from 0 vs, Err EOF).
  Proof.
    intros vs doc H. apply reads_intro with (r := []). intros n fuel Hn Hf.
    pose proof (gdoc_length _ _ _ _ _ H) as L. rewrite <- (app_nil_r doc) at 1.
    rewrite (doc_reads F parse_float surrogate false _ _ _ (array_mode F parse_float surrogate) vs doc H n fuel []) by lia.
    rewrite entries_from_number. reflexivity.
  Qed.
  Lemma gdoc_object_reads : forall kvs doc, gdoc true (bytes * gval) (jpair F float_reads) kvs doc -> reads true doc (keyed kvs, Err EOF).
  Proof.
    intros kvs doc H. apply reads_intro with (r := []). intros n fuel Hn Hf.
    pose proof (gdoc_length _ _ _ _ _ H) as L. rewrite <- (app_nil_r doc) at 1.
    rewrite (doc_reads F parse_float surrogate true _ _ _ (object_mode F parse_float surrogate) kvs doc H n fuel []) by lia.
    rewrite entries_from_keyed. reflexivity.
  Qed.

  (** ** Documents with any spacing are read as what they say. *)
  Theorem json_reads_array : forall vs doc, jdoc_array F float_reads vs doc -> reads false doc (number_from 0 vs, Err EOF).
  Proof. intros vs doc H. apply gdoc_array_reads. apply jdoc_array_gdoc. assumption. Qed.
  Theorem json_reads_object : forall kvs doc, jdoc_object F float_reads kvs doc -> reads true doc (keyed kvs, Err EOF).
  Proof. intros kvs doc H. apply gdoc_object_reads. apply jdoc_object_gdoc. assumption. Qed.

  (** ** C09: array round trips *)
  Lemma Forall2_in_left : forall A B (R : A -> B -> Prop) l l' a, Forall2 R l l' -> In a l -> exists b, R a b.
  Proof. intros A B R l l' a H. induction H as [|x y l l' Hxy H IH]; intros Hin; [contradiction|]. destruct Hin as [->|Hin]; eauto. Qed.
  Lemma comes_back_fine : forall v v', comes_back v v' -> ~ refused v.
  Proof.
    induction v as [ | | | | | |l IH|m IH] using gval_ind2; intros v' H R; inversion R as [f0 E|l0 x Hin Hr|m0 k x Hin Hr]; subst.
    - inversion H; congruence.
    - inversion H as [ | | | | | | |l1 l' HF|]; subst. destruct (Forall2_in_left _ _ _ _ _ _ HF Hin) as [b Hb].
      rewrite Forall_forall in IH. exact (IH x Hin b Hb Hr).
    - inversion H as [ | | | | | | | |m1 m' HF]; subst. destruct (Forall2_in_left _ _ _ _ _ _ HF Hin) as [b [_ Hb]].
      rewrite Forall_forall in IH. exact (IH (k, x) Hin (snd b) Hb Hr).
  Qed.

  (** Histories in which the first entries are accepted. *)
  Definition fresh (obj : bool) (seen : list bytes) (es : list entry) : Prop :=
    obj = true -> Forall (fun e => e_key e <> []) es /\ NoDup (map e_key es) /\ forall k, In k seen -> ~ In k (map e_key es).
  Lemma history_accepts : forall obj es post seen l, fresh obj seen es -> Forall (fun e => ~ refused (e_val e)) es ->
    history obj seen (es ++ post) l -> exists l', l = map (fun _ => true) es ++ l'.
  Proof.
    induction es as [|e es IH]; intros post seen l Hf Hr H; cbn [app map] in *; [exists l; reflexivity|].
    inversion H as [|seen0 seen' e0 es0 b l0 Hv H2]; subst. inversion Hr as [|e1 es1 Hr1 Hr2]; subst.
    destruct obj.
    - destruct (Hf eq_refl) as [Hk [Hd Hs]]. inversion Hk as [|e1 es1 Hk1 Hk2]; subst. inversion Hd as [|e1 es1 Hd1 Hd2]; subst.
      assert (Hns : ~ In (e_key e) seen) by (intros X; apply (Hs _ X); left; reflexivity).
      inversion Hv; subst; try discriminate; try contradiction.
      destruct (IH post (e_key e :: seen) l0) as [l' ->]; try assumption; [|exists l'; reflexivity].
      intros _. split; [assumption|]. split; [assumption|]. intros k [<-|Hin]; [assumption|]. intros X. apply (Hs k Hin). right. assumption.
    - inversion Hv; subst; try discriminate; try contradiction.
      destruct (IH post seen' l0) as [l' ->]; try assumption; [|exists l'; reflexivity]. intros X. discriminate.
  Qed.
  Lemma kept_all : forall (es : list entry), kept F es (map (fun _ => true) es) = es.
  Proof. induction es as [|e es IH]; cbn; congruence. Qed.
  Lemma history_all : forall obj es l, fresh obj [] es -> Forall (fun e => ~ refused (e_val e)) es -> history obj [] es l ->
    l = map (fun _ => true) es.
  Proof.
    intros obj es l Hf Hr H. rewrite <- (app_nil_r es) in H. destruct (history_accepts obj es [] [] l Hf Hr H) as [l' ->].
    assert (L : forall seen es l, history obj seen es l -> length l = length es) by (induction 1; cbn; congruence).
    apply L in H. rewrite !app_length, map_length in H. cbn in H. destruct l'; [rewrite app_nil_r; reflexivity|cbn in H; lia].
  Qed.
  Lemma fresh_array : forall seen es, fresh false seen es.
  Proof. intros seen es X. discriminate. Qed.
  Lemma fresh_object : forall es, Forall (fun e => e_key e <> []) es -> NoDup (map e_key es) -> fresh true [] es.
  Proof. intros es H1 H2 _. split; [assumption|]. split; [assumption|]. intros k []. Qed.
  (** What the calls of a history on a good sink return. *)
  Lemma write_results : forall obj ind closer es, exists l os out, json_write obj ind good_sink closer es = (os, closer, out) /\
    history obj [] es l /\ Forall2 (fun o b => o = None <-> b = true) os l.
  Proof.
    intros obj ind closer es. unfold M_JsonWrite.json_write.
    destruct (write_all_history F fmt_float es (new_jwriter obj ind good_sink) eq_refl) as [l [os [w [E [H [HF [Q _]]]]]]].
    rewrite E. destruct (close_quiet closer w Q) as [w' [E2 _]]. rewrite E2. exists l, os, (k_out (jw_sink w')). auto.
  Qed.
  Lemma results_none : forall (es : list entry) os, Forall2 (fun (o : option err) b => o = None <-> b = true) os (map (fun _ => true) es) -> Forall (fun o => o = None) os /\ length os = length es.
  Proof.
    induction es as [|e es IH]; intros os H; cbn in H; inversion H; subst; [auto|]. destruct (IH _ H4) as [H5 H6]. split; [constructor; [tauto|assumption]|cbn; congruence].
  Qed.
  Lemma results_prefix : forall (es : list entry) os l, Forall2 (fun (o : option err) b => o = None <-> b = true) os (map (fun _ => true) es ++ l) ->
    Forall (fun o => o = None) (firstn (length es) os) /\ (length es <= length os)%nat.
  Proof.
    induction es as [|e es IH]; intros os l H; cbn in H; [cbn; split; [constructor|lia]|]. inversion H; subst. destruct (IH _ _ H4) as [H5 H6]. cbn. split; [constructor; [tauto|assumption]|lia].
  Qed.
  Lemma back_refused : forall (es : list entry) vs, Forall2 (fun e v => comes_back (e_val e) v) es vs -> Forall (fun e => ~ refused (e_val e)) es.
  Proof. intros es vs H. induction H as [|e v es vs Hev H IH]; constructor; [eapply comes_back_fine; eassumption|assumption]. Qed.

  (** Everything written is read back, in order, numbered from zero. *)
  Theorem json_array_round_trip : forall ind closer es vs, float_format -> blank ind ->
    Forall2 (fun e v => comes_back (e_val e) v) es vs ->
    exists os out, json_write false ind good_sink closer es = (os, closer, out) /\ Forall (fun o => o = None) os /\ length os = length es /\
      jdoc_array F float_reads vs out /\ reads false out (number_from 0 vs, Err EOF).
  Proof.
    intros ind closer es vs Hfmt Hind Hb. destruct (write_results false ind closer es) as [l [os [out [E [Hh HF]]]]].
    pose proof (history_all false es l (fresh_array _ _) (back_refused _ _ Hb) Hh) as ->.
    destruct (results_none _ _ HF) as [Ho Hl]. exists os, out. split; [assumption|]. split; [assumption|]. split; [assumption|].
    destruct (doc_layout F fmt_float false ind gval (jtext F float_reads) (back_value F fmt_float) Hind (array_item F fmt_float parse_float Hfmt ind Hind)
      es closer _ os closer out vs E Hh) as [D _]; [rewrite kept_all; exact Hb|].
    assert (G : gdoc false gval (jtext F float_reads) vs out) by (apply D; destruct es; reflexivity).
    split; [|apply gdoc_array_reads; assumption].
    apply gdoc_jdoc_array. assumption.
  Qed.
  (** The same for the two kinds of documents. *)
  Lemma broken_stops : forall obj X (J : X -> bytes -> Prop) ent (BAD : bytes -> Prop) vs out,
    mode_ok F parse_float surrogate obj X J ent -> (forall t, BAD t -> bad_item F parse_float surrogate obj t) -> (forall x t, J x t -> (1 <= length t)%nat) ->
    (vs = [] -> exists w2 t r, out = [] ++ opening obj :: w2 ++ t ++ r /\ blank w2 /\ BAD t /\ delim r) ->
    (vs <> [] -> exists p w2 t r, opened obj X J vs p /\ out = p ++ 44%N :: w2 ++ t ++ r /\ blank w2 /\ BAD t /\ delim r) ->
    stops obj out (entries_from F X ent 0 vs).
  Proof.
    intros obj X J ent BAD vs out M HB HJ D1 D2. apply stops_intro. intros n fuel Hn Hf. destruct vs as [|v vs].
    - destruct (D1 eq_refl) as [w2 [t [r [-> [Hw2 [Ht Hr]]]]]]. cbn [app length] in Hn, Hf. rewrite !app_length in Hn, Hf.
      apply (doc_bad_first F parse_float surrogate obj [] w2 t r n fuel); auto; try lia. constructor.
    - destruct D2 as [p [w2 [t [r [Hp [-> [Hw2 [Ht Hr]]]]]]]]; [discriminate|]. rewrite !app_length in Hn, Hf. cbn [length] in Hn, Hf. rewrite !app_length in Hn, Hf.
      assert (L : (length (v :: vs) <= length p)%nat).
      { destruct Hp as [w1 [w3 [x [xs [t2 [gt [Ev [_ [_ [Hx [Hgt ->]]]]]]]]]]]. inversion Ev; subst. apply gtail_length in Hgt. specialize (HJ _ _ Hx).
        rewrite app_length. cbn [length]. rewrite !app_length. lia. }
      apply (doc_bad_later F parse_float surrogate obj X J ent M (v :: vs) p w2 t r n fuel); auto; lia.
  Qed.
  Lemma jtext_length : forall v t, jtext F float_reads v t -> (1 <= length t)%nat.
  Proof. intros v t H. destruct (jtext_head _ _ v t H) as [c [t' [-> _]]]. cbn. lia. Qed.
  Lemma jpair_length : forall v t, jpair F float_reads v t -> (1 <= length t)%nat.
  Proof. intros v t H. destruct (jpair_head _ _ v t H) as [t' ->]. cbn. lia. Qed.

  (** A float that is written as an integer beyond int64 stops the reader there. *)
  Theorem json_array_beyond_int64 : forall ind closer pre vs e post, float_format -> blank ind ->
    Forall2 (fun e v => comes_back (e_val e) v) pre vs -> spoiled (e_val e) -> ~ refused (e_val e) ->
    exists os out, json_write false ind good_sink closer (pre ++ e :: post) = (os, closer, out) /\
      Forall (fun o => o = None) (firstn (S (length pre)) os) /\ stops false out (number_from 0 vs).
  Proof.
    intros ind closer pre vs e post Hfmt Hind Hb Hs Hn. destruct (write_results false ind closer (pre ++ e :: post)) as [l [os [out [E [Hh HF]]]]].
    assert (Hr : Forall (fun e => ~ refused (e_val e)) (pre ++ [e])).
    { apply Forall_app. split; [eapply back_refused; eassumption|repeat constructor; assumption]. }
    pose proof Hh as Hh2. change (e :: post) with ([e] ++ post) in Hh2. rewrite app_assoc in Hh2.
    destruct (history_accepts false (pre ++ [e]) post [] l (fresh_array _ _) Hr Hh2) as [l' ->]. clear Hh2.
    destruct (results_prefix _ _ _ HF) as [Ho Hl]. rewrite map_app, <- app_assoc in Hh. cbn [map app] in Hh.
    rewrite app_length in Ho, Hl. cbn [length] in Ho, Hl. rewrite Nat.add_1_r in Ho.
    exists os, out. split; [assumption|]. split; [assumption|]. rewrite <- entries_from_number.
    destruct (doc_broken F fmt_float false ind gval (jtext F float_reads) (back_value F fmt_float) Hind (array_item F fmt_float parse_float Hfmt ind Hind)
      (jbad F float_reads) (fun e => spoiled (e_val e)) (array_broken F fmt_float parse_float Hfmt ind Hind)
      pre e post closer l' os closer out vs E Hh Hb Hs) as [D1 D2].
    eapply broken_stops; [apply array_mode|apply bad_array_item|apply jtext_length|exact D1|exact D2].
  Qed.

  (** ** C10: object round trips *)
  Lemma pair_values : forall (es : list entry) kvs, Forall2 (back_pair F fmt_float) es kvs -> Forall2 (fun e v => comes_back (e_val e) v) es (map snd kvs).
  Proof. intros es kvs H. induction H as [|e kv es kvs [_ H1] H IH]; cbn; constructor; assumption. Qed.
  Theorem json_object_round_trip : forall ind closer es kvs, float_format -> blank ind ->
    Forall (fun e => e_key e <> []) es -> NoDup (map e_key es) ->
    Forall2 (fun e kv => cleaned (e_key e) (fst kv) /\ comes_back (e_val e) (snd kv)) es kvs ->
    exists os out, json_write true ind good_sink closer es = (os, closer, out) /\ Forall (fun o => o = None) os /\ length os = length es /\
      jdoc_object F float_reads kvs out /\ reads true out (keyed kvs, Err EOF).
  Proof.
    intros ind closer es kvs Hfmt Hind Hk Hd Hb. destruct (write_results true ind closer es) as [l [os [out [E [Hh HF]]]]].
    pose proof (history_all true es l (fresh_object _ Hk Hd) (back_refused _ _ (pair_values _ _ Hb)) Hh) as ->.
    destruct (results_none _ _ HF) as [Ho Hl]. exists os, out. split; [assumption|]. split; [assumption|]. split; [assumption|].
    destruct (doc_layout F fmt_float true ind (bytes * gval) (jpair F float_reads) (back_pair F fmt_float) Hind (object_item F fmt_float parse_float Hfmt ind Hind)
      es closer _ os closer out kvs E Hh) as [D _]; [rewrite kept_all; exact Hb|].
    assert (G : gdoc true (bytes * gval) (jpair F float_reads) kvs out) by (apply D; destruct es; reflexivity).
    split; [|apply gdoc_object_reads; assumption].
    apply gdoc_jdoc_object. assumption.
  Qed.
  (** Valid UTF-8 keys come back unchanged. *)
  Theorem json_object_keys_kept : forall (es : list entry) (kvs : list (bytes * gval)), Forall (fun e => well_formed (e_key e)) es ->
    Forall2 (fun e kv => cleaned (e_key e) (fst kv) /\ comes_back (e_val e) (snd kv)) es kvs -> map fst kvs = map e_key es.
  Proof.
    intros es kvs Hw H. induction H as [|e kv es kvs [H1 _] H IH]; [reflexivity|]. inversion Hw; subst. cbn. f_equal; [|auto].
    eapply cleaned_fun; [eassumption|]. apply cleaned_well_formed. assumption.
  Qed.
  Theorem json_object_beyond_int64 : forall ind closer pre kvs e post, float_format -> blank ind ->
    Forall (fun e => e_key e <> []) (pre ++ [e]) -> NoDup (map e_key (pre ++ [e])) ->
    Forall2 (fun e kv => cleaned (e_key e) (fst kv) /\ comes_back (e_val e) (snd kv)) pre kvs -> spoiled (e_val e) -> ~ refused (e_val e) ->
    exists os out, json_write true ind good_sink closer (pre ++ e :: post) = (os, closer, out) /\
      Forall (fun o => o = None) (firstn (S (length pre)) os) /\ stops true out (keyed kvs).
  Proof.
    intros ind closer pre kvs e post Hfmt Hind Hk Hd Hb Hs Hn. destruct (write_results true ind closer (pre ++ e :: post)) as [l [os [out [E [Hh HF]]]]].
    assert (Hr : Forall (fun e => ~ refused (e_val e)) (pre ++ [e])).
    { apply Forall_app. split; [eapply back_refused; apply pair_values; eassumption|repeat constructor; assumption]. }
    pose proof Hh as Hh2. change (e :: post) with ([e] ++ post) in Hh2. rewrite app_assoc in Hh2.
    destruct (history_accepts true (pre ++ [e]) post [] l (fresh_object _ Hk Hd) Hr Hh2) as [l' ->]. clear Hh2.
    destruct (results_prefix _ _ _ HF) as [Ho Hl]. rewrite map_app, <- app_assoc in Hh. cbn [map app] in Hh.
    rewrite app_length in Ho, Hl. cbn [length] in Ho, Hl. rewrite Nat.add_1_r in Ho.
    exists os, out. split; [assumption|]. split; [assumption|]. rewrite <- (entries_from_keyed _ kvs 0).
    destruct (doc_broken F fmt_float true ind (bytes * gval) (jpair F float_reads) (back_pair F fmt_float) Hind (object_item F fmt_float parse_float Hfmt ind Hind)
      (jbad_pair F float_reads) (fun e => spoiled (e_val e)) (object_broken F fmt_float parse_float Hfmt ind Hind)
      pre e post closer l' os closer out kvs E Hh Hb Hs) as [D1 D2].
    eapply broken_stops; [apply object_mode|apply bad_object_item|apply jpair_length|exact D1|exact D2].
  Qed.

  (** ** C11: histories with rejected entries *)
  Theorem json_history_unique : forall obj es l1 l2, history obj [] es l1 -> history obj [] es l2 -> l1 = l2.
  Proof. intros. eapply history_fun; eassumption. Qed.
  (** Every history: which calls succeed, and what the closed document is, in object mode. *)
  Theorem json_object_history : forall ind closer es, float_format -> blank ind ->
    exists l os out, json_write true ind good_sink closer es = (os, closer, out) /\ history true [] es l /\
      Forall2 (fun o b => o = None <-> b = true) os l /\
      forall kvs, Forall2 (fun e kv => cleaned (e_key e) (fst kv) /\ comes_back (e_val e) (snd kv)) (kept F es l) kvs ->
        (hd true l = true \/ kept F es l = [] -> jdoc_object F float_reads kvs out /\ reads true out (keyed kvs, Err EOF)) /\
        (hd true l = false -> kept F es l <> [] -> (exists w r, blank w /\ out = 123%N :: w ++ 44%N :: r) /\ stops true out []).
  Proof.
    intros ind closer es Hfmt Hind. destruct (write_results true ind closer es) as [l [os [out [E [Hh HF]]]]].
    exists l, os, out. split; [assumption|]. split; [assumption|]. split; [assumption|]. intros kvs Hb.
    destruct (doc_layout F fmt_float true ind (bytes * gval) (jpair F float_reads) (back_pair F fmt_float) Hind (object_item F fmt_float parse_float Hfmt ind Hind)
      es closer _ os closer out kvs E Hh Hb) as [D1 D2]. split.
    - intros H. assert (G : gdoc true (bytes * gval) (jpair F float_reads) kvs out).
      { destruct (hd true l) eqn:El; [apply D1; reflexivity|]. destruct H as [H|H]; [discriminate|].
        destruct (D2 eq_refl) as [gt [Hgt ->]]. rewrite H in Hb. inversion Hb; subst. inversion Hgt; subst.
        change (opening true :: gt ++ [closing true]) with ([] ++ opening true :: gt ++ [closing true]). constructor; [constructor|assumption]. }
      split; [apply gdoc_jdoc_object|apply gdoc_object_reads]; assumption.
    - intros Hl Hne. destruct (D2 Hl) as [gt [Hgt ->]]. destruct Hgt as [w Hw|kv kvs w1 w2 t r Hw1 Hw2 Ht Hr].
      { inversion Hb as [Hb0|]; congruence. }
      split. { exists w1. eexists. split; [assumption|]. change (opening true) with 123%N. rewrite <- app_assoc. reflexivity. }
      apply stops_intro. intros n fuel Hn Hf. destruct n; [lia|].
      change (opening true :: (w1 ++ 44%N :: w2 ++ t ++ r) ++ [closing true]) with ([] ++ opening true :: (w1 ++ 44%N :: w2 ++ t ++ r) ++ [closing true]).
      rewrite (read_first F parse_float surrogate true n fuel [] _ ltac:(constructor)). rewrite run_pure_bind. rewrite <- app_assoc. cbn [app].
      rewrite (tok_no _ (closing true) 44%N _ w1 _ Hw1 eq_refl eq_refl).
      destruct fuel; [lia|]. eexists; eexists. split; [reflexivity|discriminate].
  Qed.
  (** In array mode a rejected first entry becomes a null. *)
  Theorem json_array_history : forall ind closer es, float_format -> blank ind ->
    exists l os out, json_write false ind good_sink closer es = (os, closer, out) /\ history false [] es l /\
      Forall2 (fun o b => o = None <-> b = true) os l /\
      forall vs, Forall2 (fun e v => comes_back (e_val e) v) (kept F es l) vs ->
        (hd true l = true \/ kept F es l = [] -> jdoc_array F float_reads vs out /\ reads false out (number_from 0 vs, Err EOF)) /\
        (hd true l = false -> kept F es l <> [] -> reads false out (number_from 0 (VNil :: vs), Err EOF)).
  Proof.
    intros ind closer es Hfmt Hind. destruct (write_results false ind closer es) as [l [os [out [E [Hh HF]]]]].
    exists l, os, out. split; [assumption|]. split; [assumption|]. split; [assumption|]. intros vs Hb.
    destruct (doc_layout F fmt_float false ind gval (jtext F float_reads) (back_value F fmt_float) Hind (array_item F fmt_float parse_float Hfmt ind Hind)
      es closer _ os closer out vs E Hh Hb) as [D1 D2]. split.
    - intros H. assert (G : gdoc false gval (jtext F float_reads) vs out).
      { destruct (hd true l) eqn:El; [apply D1; reflexivity|]. destruct H as [H|H]; [discriminate|].
        destruct (D2 eq_refl) as [gt [Hgt ->]]. rewrite H in Hb. inversion Hb; subst. inversion Hgt; subst.
        change (opening false :: gt ++ [closing false]) with ([] ++ opening false :: gt ++ [closing false]). constructor; [constructor|assumption]. }
      split; [apply gdoc_jdoc_array|apply gdoc_array_reads]; assumption.
    - intros Hl Hne. destruct (D2 Hl) as [gt [Hgt ->]]. destruct vs as [|v vs]; [inversion Hb; congruence|].
      apply reads_intro with (r := []). intros n fuel Hn Hf. cbn [length] in Hn, Hf. rewrite app_length in Hn, Hf. cbn [length] in Hn, Hf. destruct n; [lia|].
      change (opening false :: gt ++ [closing false]) with ([] ++ opening false :: gt ++ [closing false]).
      rewrite (read_first F parse_float surrogate false n fuel [] _ ltac:(constructor)). rewrite run_pure_bind.
      pose proof (gtail_length _ _ _ _ Hgt) as L.
      inversion Hgt as [|v0 vs0 w1 w2 t r Hw1 Hw2 Ht Hr]; subst. rewrite <- app_assoc. cbn [app].
      rewrite (tok_no _ (closing false) 44%N _ w1 _ Hw1 eq_refl eq_refl).
      destruct fuel; [lia|]. unfold read_body. cbn [js_obj js_count]. rewrite run_pure_bind, read_value_S. cbn [run_pure skip_ws].
      change (is_ws 44) with false. cbn [hd]. cbn [N.eqb Pos.eqb orb]. change (is_digit 44) with false. cbn [run_pure].
      rewrite run_pure_bind.
      assert (Hgt2 : gtail (jtext F float_reads) (v :: vs) ([] ++ 44%N :: w2 ++ t ++ r)) by (constructor; auto; constructor).
      pose proof (loop_tail F parse_float surrogate false _ _ _ (array_mode F parse_float surrogate) (v :: vs) _ Hgt2 n (Datatypes.S fuel) 1%Z []) as T.
      rewrite !app_length in L, Hf, Hn. cbn [app length] in L, Hf, Hn, T. rewrite <- ?app_assoc in T. rewrite <- app_assoc.
      rewrite !app_length in L, Hf, Hn. rewrite !app_length in T. change (0 + 1)%Z with 1%Z.
      replace ((t ++ r) ++ [closing false]) with (t ++ r ++ [closing false]) by apply app_assoc.
      rewrite T by (cbn [length]; lia). cbn [run_pure]. rewrite entries_from_number. reflexivity.
  Qed.

  (** ** C12: destinations that fail *)
  (** If no call reported an error, a compact writer delivered exactly what it delivers to a sink that takes everything. *)
  Theorem json_compact_failures_reported : forall obj k closer es os out, k_out k = [] ->
    json_write obj [] k closer es = (os, None, out) -> Forall (fun o => o = None) os ->
    json_write obj [] good_sink closer es = (os, None, out).
  Proof.
    intros obj k closer es os out Hk E Ho. unfold M_JsonWrite.json_write in *.
    destruct (json_write_all F fmt_float (new_jwriter obj [] k) es) as [os1 w] eqn:E1.
    destruct (json_close closer w) as [c w'] eqn:E2. inversion E; subst.
    apply write_all_calm in E1; [|assumption]. unfold calm in E1 at 1. cbn [new_jwriter jw_obj jw_indent jw_rows jw_keys jw_sink] in E1. rewrite Hk in E1.
    change (mkJw obj [] 0 [] (mkSink [] [])) with (new_jwriter obj [] good_sink) in E1. rewrite E1.
    assert (Hi : jw_indent w = []).
    { destruct (write_all_history F fmt_float es (new_jwriter obj [] good_sink) eq_refl) as [l [os2 [w2 [E3 [_ [_ [_ [_ [I _]]]]]]]]].
      rewrite E1 in E3. inversion E3; subst. exact I. }
    rewrite (close_calm _ _ _ Hi E2). reflexivity.
  Qed.
  (** With pretty printing the line break before the closing bracket may be missing, and nothing else. *)
  Theorem json_pretty_failures_reported : forall obj ind k closer es os out, k_out k = [] ->
    json_write obj ind k closer es = (os, None, out) -> Forall (fun o => o = None) os ->
    exists full, json_write obj ind good_sink closer es = (os, None, full) /\
      (out = full \/ ind <> [] /\ exists body, full = body ++ [10%N; closing obj] /\ out = body ++ [closing obj]).
  Proof.
    intros obj ind k closer es os out Hk E Ho. unfold M_JsonWrite.json_write in *.
    destruct (json_write_all F fmt_float (new_jwriter obj ind k) es) as [os1 w] eqn:E1.
    destruct (json_close closer w) as [c w'] eqn:E2. inversion E; subst.
    apply write_all_calm in E1; [|assumption]. unfold calm in E1 at 1. cbn [new_jwriter jw_obj jw_indent jw_rows jw_keys jw_sink] in E1. rewrite Hk in E1.
    change (mkJw obj ind 0 [] (mkSink [] [])) with (new_jwriter obj ind good_sink) in E1. rewrite E1.
    destruct (write_all_history F fmt_float es (new_jwriter obj ind good_sink) eq_refl) as [l [os2 [w2 [E3 [_ [_ [Q [O [I _]]]]]]]]].
    rewrite E1 in E3. inversion E3; subst. cbn [new_jwriter jw_obj jw_indent calm] in O, I.
    destruct (close_quiet closer (calm w) Q) as [w3 [E4 Hfull]]. rewrite E4.
    cbn [calm jw_obj jw_rows jw_sink k_out] in Hfull. change (pretty (calm w)) with (pretty w) in Hfull.
    assert (Hs : forall data k k', sink_write data k = (None, k') -> k_out k' = k_out k ++ data).
    { intros data [o p] k' H. unfold sink_write in H. cbn [k_plan k_out] in *. destruct p as [|[[m x]|] p]; inversion H; reflexivity. }
    assert (Hc : closer = None /\ (k_out (jw_sink w') = k_out (jw_sink w3) \/
       jw_indent w <> [] /\ exists body, k_out (jw_sink w3) = body ++ [10%N; closing (jw_obj w)] /\ k_out (jw_sink w') = body ++ [closing (jw_obj w)])).
    { unfold json_close in E2. rewrite Hfull. destruct (Nat.eqb (jw_rows w) 0).
      - destruct (sink_write (if jw_obj w then [123%N; 125%N] else [91%N; 93%N]) (jw_sink w)) as [[x|] k2] eqn:Es; inversion E2; subst.
        split; [reflexivity|]. left. cbn [jw_sink]. rewrite (Hs _ _ _ Es). destruct (jw_obj w); reflexivity.
      - unfold pretty in *. destruct (jw_indent w) as [|c0 ind0].
        + destruct (sink_write [if jw_obj w then 125%N else 93%N] (jw_sink w)) as [[x|] k2] eqn:Es; inversion E2; subst.
          split; [reflexivity|]. left. cbn [jw_sink]. rewrite (Hs _ _ _ Es). destruct (jw_obj w); reflexivity.
        + destruct (sink_write [10%N] (jw_sink w)) as [x0 k1] eqn:En. cbn [snd] in E2.
          destruct (sink_write [if jw_obj w then 125%N else 93%N] k1) as [[x|] k2] eqn:Es; inversion E2; subst.
          split; [reflexivity|]. cbn [jw_sink]. rewrite (Hs _ _ _ Es).
          assert (Hn : k_out k1 = k_out (jw_sink w) ++ [10%N] \/ k_out k1 = k_out (jw_sink w)).
          { destruct (jw_sink w) as [o p]. unfold sink_write in En. cbn [k_plan k_out] in *. destruct p as [|[[m x]|] p]; inversion En; subst; cbn [k_out]; auto.
            destruct m as [|m]; [right; cbn; rewrite app_nil_r; reflexivity|left; cbn; destruct m; reflexivity]. }
          destruct Hn as [->| ->]; [left; rewrite <- app_assoc; destruct (jw_obj w); reflexivity|].
          right. split; [discriminate|]. exists (k_out (jw_sink w)). split; [reflexivity|destruct (jw_obj w); reflexivity]. }
    destruct Hc as [-> Hc]. exists (k_out (jw_sink w3)). split; [reflexivity|]. cbn [calm jw_indent jw_obj] in O, I. rewrite <- O, <- I. exact Hc.
  Qed.

  (** ** C13: truncated documents *)
  (** [truncated obj all q c q']: reading q, which the document continues with c and q', never ends
      cleanly: the first entries of the document, at most one more, and then an error that is not
      io.EOF; or a panic if q ends in an escape. *)
  Definition truncated (obj : bool) (all : list entry) (q : bytes) (c : N) (q' : bytes) : Prop :=
    let doc := q ++ c :: q' in
    forall size s n fuel, s_rem s = q -> (length doc < n)%nat -> (3 * length doc + 3 <= fuel)%nat ->
      (exists m x e, (length x <= 1)%nat /\ is_eof_text e <> true /\ read_json obj size s n fuel = Ok (firstn m all ++ x, Err e)) \/
      (read_json obj size s n fuel = Panic /\ ends_escaped q).
  Lemma truncated_intro : forall obj X (J : X -> bytes -> Prop) ent vs q c q', mode_ok F parse_float surrogate obj X J ent ->
    gdoc obj X J vs (q ++ c :: q') -> truncated obj (entries_from F X ent 0 vs) q c q'.
  Proof.
    intros obj X J ent vs q c q' M H. unfold truncated. set (doc := q ++ c :: q') in *. intros size s n fuel Hs Hn Hf. pose proof (gdoc_length _ _ _ _ _ H) as L.
    destruct (doc_cut F parse_float surrogate obj X J ent M vs _ H q c q' n fuel eq_refl) as [es [e [ps [m [x [E [_ [He [Ees Hx]]]]]]]]]; [lia|lia|].
    assert (Lq : (length q < length doc)%nat) by (unfold doc; rewrite app_length; cbn; lia).
    destruct (json_read_terminates obj size s n fuel) as [[es' [e' [E1 _]]]|[E1 E2]]; [rewrite Hs; lia|rewrite Hs; lia| |right; rewrite <- Hs; auto].
    rewrite <- Hs in E. destruct (read_json_pure F parse_float surrogate obj size s n fuel _ ps E) as [E3|[_ E3]]; [|congruence].
    left. exists m, x, e. rewrite E3, Ees. auto.
  Qed.
  Theorem json_truncated_array : forall vs q c q', jdoc_array F float_reads vs (q ++ c :: q') -> truncated false (number_from 0 vs) q c q'.
  Proof.
    intros vs q c q' H. rewrite <- entries_from_number. eapply truncated_intro; [apply array_mode|]. apply jdoc_array_gdoc. assumption.
  Qed.
  Theorem json_truncated_object : forall kvs q c q', jdoc_object F float_reads kvs (q ++ c :: q') -> truncated true (keyed kvs) q c q'.
  Proof.
    intros kvs q c q' H. rewrite <- (entries_from_keyed _ kvs 0). eapply truncated_intro; [apply object_mode|]. apply jdoc_object_gdoc. assumption.
  Qed.
  (** In particular every proper prefix of what the writer wrote. *)
  Theorem json_written_truncated : forall ind closer es vs os out q c q', float_format -> blank ind ->
    Forall2 (fun e v => comes_back (e_val e) v) es vs -> json_write false ind good_sink closer es = (os, closer, out) -> out = q ++ c :: q' ->
    truncated false (number_from 0 vs) q c q'.
  Proof.
    intros ind closer es vs os out q c q' Hfmt Hi Hb E ->. destruct (json_array_round_trip ind closer es vs Hfmt Hi Hb) as [os2 [out2 [E2 [_ [_ [H _]]]]]].
    rewrite E in E2. inversion E2; subst. apply json_truncated_array. assumption.
  Qed.
  Theorem json_written_object_truncated : forall ind closer es kvs os out q c q', float_format -> blank ind ->
    Forall (fun e => e_key e <> []) es -> NoDup (map e_key es) ->
    Forall2 (fun e kv => cleaned (e_key e) (fst kv) /\ comes_back (e_val e) (snd kv)) es kvs ->
    json_write true ind good_sink closer es = (os, closer, out) -> out = q ++ c :: q' -> truncated true (keyed kvs) q c q'.
  Proof.
    intros ind closer es kvs os out q c q' Hfmt Hi Hk Hd Hb E ->. destruct (json_object_round_trip ind closer es kvs Hfmt Hi Hk Hd Hb) as [os2 [out2 [E2 [_ [_ [H _]]]]]].
    rewrite E in E2. inversion E2; subst. apply json_truncated_object. assumption.
  Qed.

  (** ** C14: strings *)
  Theorem json_string_inverted : forall s s', cleaned s s' -> exists t, quote s = 34%N :: t ++ [34%N] /\ unquote surrogate t = s'.
  Proof.
    intros s s' H. destruct (quote_chars s s' H) as [t [E Ht]]. exists t. split; [assumption|]. eapply unquote_chars. eassumption.
  Qed.
  Theorem json_valid_string_inverted : forall s, well_formed s -> exists t, quote s = 34%N :: t ++ [34%N] /\ unquote surrogate t = s.
  Proof.
    intros s H. destruct (quote_chars s s (cleaned_well_formed s H)) as [t [E Ht]]. exists t. split; [assumption|]. eapply unquote_chars. eassumption.
  Qed.
  (** An escaped surrogate half is decoded on its own, also when the other half follows. *)
  Theorem json_surrogates_not_combined : forall a b c d va vb vc vd t, hexval a va -> hexval b vb -> hexval c vc -> hexval d vd ->
    (55296 <= va * 4096 + vb * 256 + vc * 16 + vd <= 57343)%N ->
    unquote surrogate (92%N :: 117%N :: a :: b :: c :: d :: t) = surrogate ++ unquote surrogate t.
  Proof.
    intros a b c d va vb vc vd t Ha Hb Hc Hd Hr. cbn [unquote]. cbn [N.eqb Pos.eqb]. f_equal.
    unfold unquote_u. rewrite (hex_digit_val _ _ Ha), (hex_digit_val _ _ Hb), (hex_digit_val _ _ Hc), (hex_digit_val _ _ Hd).
    replace (is_surrogate (((va * 16 + vb) * 16 + vc) * 16 + vd)) with true; [reflexivity|].
    symmetry. unfold is_surrogate, in_range. apply andb_true_iff. rewrite !N.leb_le. lia.
  Qed.

  (** ** C15: an element that cannot be decoded, first in a nested array *)
  Theorem json_swallowed_first : forall z w1 w2 w3 t vs rt rest, int_text z t -> ~ fits_int64 z ->
    blank w1 -> blank w2 -> blank w3 -> jtail F float_reads vs rt ->
    reads false (w1 ++ 91%N :: w2 ++ 91%N :: w3 ++ t ++ rt ++ 93%N :: rest) (number_from 0 (VArr [] :: vs), Err EOF).
  Proof.
    intros z w1 w2 w3 t vs rt rest Ht Hz H1 H2 H3 Hrt. apply reads_intro with (r := rest). intros n fuel Hn Hf.
    pose proof (gtail_length _ _ _ _ (jtail_gtail _ _ vs rt Hrt)) as L.
    rewrite !app_length in Hn, Hf. cbn [length] in Hn, Hf. rewrite !app_length in Hn, Hf. cbn [length] in Hn, Hf. rewrite !app_length in Hn, Hf. cbn [length] in Hn, Hf.
    eapply swallow_first; try eassumption; lia.
  Qed.
  Theorem json_swallowed_later : forall z us v0 w0 w1 t0 rt0 w2 w3 t vs rt rest, blank w0 -> blank w1 -> jtext F float_reads v0 t0 -> jtail F float_reads us rt0 ->
    int_text z t -> ~ fits_int64 z -> blank w2 -> blank w3 -> jtail F float_reads vs rt ->
    reads false ((w0 ++ 91%N :: w1 ++ t0 ++ rt0) ++ 44%N :: w2 ++ 91%N :: w3 ++ t ++ rt ++ 93%N :: rest) (number_from 0 ((v0 :: us) ++ VArr [] :: vs), Err EOF).
  Proof.
    intros z us v0 w0 w1 t0 rt0 w2 w3 t vs rt rest H0 H1 Ht0 Hus Ht Hz H2 H3 Hrt. apply reads_intro with (r := rest). intros n fuel Hn Hf.
    pose proof (gtail_length _ _ _ _ (jtail_gtail _ _ vs rt Hrt)) as L. pose proof (gtail_length _ _ _ _ (jtail_gtail _ _ us rt0 Hus)) as L2.
    pose proof (jtext_length v0 t0 Ht0) as L3.
    eapply swallow_later with (z := z); try eassumption.
    - exists w0, w1, v0, us, t0, rt0. repeat split; auto. apply jtail_gtail. assumption.
    - cbn [length]. repeat (rewrite !app_length in *; cbn [length] in * ). lia.
    - repeat (rewrite !app_length in *; cbn [length] in * ). lia.
  Qed.
End Json.
Print Assumptions json_read_terminates.
Print Assumptions json_chunk_free.
Print Assumptions json_same_outcome.
Print Assumptions json_reads_array.
Print Assumptions json_reads_object.
Print Assumptions json_array_round_trip.
Print Assumptions json_array_beyond_int64.
Print Assumptions json_object_round_trip.
Print Assumptions json_object_keys_kept.
Print Assumptions json_object_beyond_int64.
Print Assumptions json_history_unique.
Print Assumptions json_object_history.
Print Assumptions json_array_history.
Print Assumptions json_compact_failures_reported.
Print Assumptions json_pretty_failures_reported.
Print Assumptions json_truncated_array.
Print Assumptions json_truncated_object.
Print Assumptions json_written_truncated.
Print Assumptions json_written_object_truncated.
Print Assumptions json_string_inverted.
Print Assumptions json_valid_string_inverted.
Print Assumptions json_surrogates_not_combined.
Print Assumptions json_swallowed_first.
Print Assumptions json_swallowed_later.

(** ** Concrete cases.  The floats of these are halves, whole numbers and NaN. *)
Inductive demo : Type := Half (z : Z) | Whole (z : Z) | Nan.
Definition demo_fmt (f : demo) : option bytes :=
  match f with Half z => Some (itoa z ++ [46; 53]%N) | Whole z => Some (itoa z) | Nan => None end.
Definition demo_parse (t : bytes) : option demo :=
  match parse_signed (firstn (length t - 2) t) with Some z => Some (Half z) | None => None end.
Lemma demo_format : float_format demo demo_fmt demo_parse.
Proof.
  intros [z|z|] t E; cbn in E; inversion E; subst; clear E.
  - left. split; [|split].
    + exists 46%N. split; [apply in_app_iff; right; left; reflexivity|left; reflexivity].
    + split.
      * destruct (itoa z) as [|c t] eqn:Ez; [destruct (itoa_nonempty z Ez)|]. exists c, (t ++ [46; 53]%N). split; [reflexivity|].
        apply (itoa_in z). rewrite Ez. left. reflexivity.
      * apply Forall_app. split.
        -- apply Forall_forall. intros c Hc. apply itoa_in in Hc. destruct Hc as [->|Hc]; [right; cbn; auto 10|left; assumption].
        -- constructor; [right; cbn; auto|]. constructor; [left; lia|constructor].
    + unfold demo_parse. rewrite app_length. cbn [length]. replace (length (itoa z) + 2 - 2)%nat with (length (itoa z)) by lia.
      rewrite firstn_app, firstn_all, Nat.sub_diag. cbn [firstn]. rewrite app_nil_r, parse_signed_itoa. reflexivity.
  - right. exists z. apply itoa_int_text.
Qed.
Local Notation rd obj size d := (read_json demo demo_parse [63%N] obj size (mkSrc d EOF [(2%nat, false); (0%nat, true)]) 200 700).
Local Notation wr obj ind es := (json_write demo demo_fmt obj ind good_sink None es).
Local Notation ent k v := (mkEntry 0 k v).

(** A misspelled word is the exception: a document that is not JSON is reported with a large buffer and
    read without complaint with a small one. *)
Theorem json_chunk_free_refuted : exists doc size1 size2 s1 s2 es1 es2 e,
  s_rem s1 = doc /\ s_rem s2 = doc /\
  (forall n fuel, (length doc < n)%nat -> (3 * length doc + 3 <= fuel)%nat ->
     read_json demo demo_parse [63%N] false size1 s1 n fuel = Ok (es1, Err EOF) /\
     read_json demo demo_parse [63%N] false size2 s2 n fuel = Ok (es2, Err e)) /\ is_eof_text e <> true /\ es1 <> es2.
Proof.
  exists (repeat 32%N 11 ++ bs "[[nul,1]]"), 16%nat, 4096%nat, (mkSrc (repeat 32%N 11 ++ bs "[[nul,1]]") EOF []), (mkSrc (repeat 32%N 11 ++ bs "[[nul,1]]") EOF []).
  exists [mkEntry 0 [] (VArr []); mkEntry 1 [] (VInt 1)], [mkEntry 0 [] (VArr [])], err_sep.
  split; [reflexivity|]. split; [reflexivity|]. split; [|split; discriminate].
  intros n fuel Hn Hf. cbn [app length repeat bs list_ascii_of_string map] in Hn, Hf.
  do 4 (destruct n as [|n]; [exfalso; revert Hn; vm_compute; lia|]).
  do 8 (destruct fuel as [|fuel]; [exfalso; revert Hf; vm_compute; lia|]).
  split; vm_compute; reflexivity.
Qed.
Print Assumptions json_chunk_free_refuted.

(** The conditions of the theorems on chunks hold for documents without misspelled words, for instance
    for those that do not contain the letters n, t and f. *)
Lemma outside_in : forall doc s, outside doc s -> forall c t, s = c :: t -> In c doc.
Proof.
  induction 1 as [s|c0 t s Hc H IH|a t s Hq H IH]; intros c t' E.
  - subst. left. reflexivity.
  - right. eapply IH. eassumption.
  - right. apply in_app_iff. right. right. eapply IH. eassumption.
Qed.
Lemma not_misspelled : forall doc, (forall c, In c doc -> In c [110; 116; 102]%N -> False) -> ~ misspelled doc.
Proof.
  intros doc H [s [lit [Ho [Hl [[c [t [u [Es El]]]] _]]]]]. apply (H c); [eapply outside_in; eassumption|].
  destruct Hl as [<-|[<-|[<-|[]]]]; cbn in El; inversion El; subst; cbn; auto.
Qed.
Example json_chunk_free_ex :
  let doc := bs "[1, {""a"" : [2, 3.5]},""x\""y"" ] " in ~ misspelled doc /\ ~ ends_escaped doc /\
  rd false 16 doc = rd false 4096 doc /\
  rd false 16 doc = Ok (number_from 0 [VInt 1; VMap [(bs "a", VArr [VInt 2; VFloat (Half 3)])]; VStr (bs "x""y")], Err EOF).
Proof.
  split; [|split; [|split; vm_compute; reflexivity]].
  - apply not_misspelled. intros c H1 H2. vm_compute in H1. cbn in H2.
    repeat (destruct H1 as [<-|H1]; [repeat (destruct H2 as [H2|H2]; [discriminate|]); contradiction|]). contradiction.
  - intros [pre [c E]]. apply (f_equal (fun l => nth 1 (rev l) 0%N)) in E. rewrite rev_app_distr in E. vm_compute in E. discriminate.
Qed.
(** A document that ends in an escape: the reader panics or reports an error depending on the chunks. *)
Example json_panic_ex : let doc := bs "[""abcdefghijklm\n" in ends_escaped doc /\ rd false 16 doc = Panic.
Proof. split; [exists (bs "[""abcdefghijklm"), 110%N; reflexivity|vm_compute; reflexivity]. Qed.

(** Strings with ill-formed bytes, byte slices, nested values, floats that come back as integers. *)
Definition demo_rows : list (entry demo) :=
  [ent [] (VArr [VInt (-5); VFloat (Half 2); VFloat (Whole 7)]); ent [] (VStr [97; 255; 34; 10]%N); ent [] (VBytes [1; 2; 3; 4]%N); ent [] (VMap [(bs "k", VBool true); (bs "l", VNil)])].
Definition demo_back : list (gval demo) :=
  [VArr [VInt (-5); VFloat (Half 2); VInt 7]; VStr [97; 239; 191; 189; 34; 10]%N; VStr (bs "AQIDBA=="); VMap [(bs "k", VBool true); (bs "l", VNil)]].
Lemma cleaned_ascii : forall s, forallb (fun c => (c <? 128)%N) s = true -> cleaned s s.
Proof.
  induction s as [|c s IH]; intros H; [constructor|]. cbn [forallb] in H. apply andb_true_iff in H. destruct H as [H1 H2].
  assert (E : encode_rune c = [c]) by (unfold encode_rune; rewrite H1; reflexivity). apply N.ltb_lt in H1.
  change (c :: s) with ([c] ++ s). rewrite <- E. constructor; [unfold scalar; lia|auto].
Qed.
Lemma demo_comes_back : Forall2 (fun e v => comes_back demo demo_fmt (e_val e) v) demo_rows demo_back.
Proof.
  repeat constructor; try (apply cleaned_ascii; reflexivity).
  - unfold fits_int64. lia.
  - unfold fits_int64. lia.
  - apply (cb_float _ _ _ (bs "2.5")); [reflexivity|]. exists 46%N. cbn; auto.
  - apply (cb_float_int _ _ _ (bs "7")); [reflexivity| |unfold fits_int64; lia]. exists (bs "7"). split; [discriminate|]. split; [repeat constructor; cbn; lia|]. left. split; reflexivity.
  - apply (cl_rune 97); [unfold scalar; lia|]. apply (cl_bad 255 [34; 10]%N [34; 10]%N); [|apply cleaned_ascii; reflexivity].
    intros r t Hr. apply decode_none; [reflexivity|assumption].
  - apply (b6_three 1 2 3 0 16 8 3 65 81 73 68 [4%N] [66; 65; 61; 61]%N); try reflexivity; [lia|].
    apply (b6_one 4 1 0 66 65); try reflexivity; lia.
  - apply (cb_map _ _ _ [(bs "k", VBool true); (bs "l", VNil)]). repeat constructor; apply cleaned_ascii; reflexivity.
Qed.
Example json_array_round_trip_ex : let '(os, c, out) := wr false [] demo_rows in
  out = bs "[[-5,2.5,7],""a\ufffd\""\n"",""AQIDBA=="",{""k"":true,""l"":null}]" /\ rd false 16 out = Ok (number_from 0 demo_back, Err EOF).
Proof. split; vm_compute; reflexivity. Qed.
Example json_pretty_round_trip_ex : let '(os, c, out) := wr false [32; 32]%N demo_rows in rd false 16 out = Ok (number_from 0 demo_back, Err EOF).
Proof. vm_compute. reflexivity. Qed.

(** 10^20 as a float: written as an integer, which the reader refuses. *)
Lemma big_spoiled : spoiled demo demo_fmt (VFloat (Whole 100000000000000000000)).
Proof.
  apply (sp_float _ _ _ (itoa 100000000000000000000) 100000000000000000000); [reflexivity|apply itoa_int_text|]. unfold fits_int64. lia.
Qed.
Example json_array_beyond_int64_ex : let '(os, c, out) := wr false [] [ent [] (VInt 1); ent [] (VFloat (Whole 100000000000000000000)); ent [] (VInt 2)] in
  os = [None; None; None] /\ spoiled demo demo_fmt (VFloat (Whole 100000000000000000000)) /\ ~ refused demo demo_fmt (VFloat (Whole 100000000000000000000)) /\
  rd false 16 out = Ok ([mkEntry 0 [] (VInt 1)], Err (EMsg "strconv.Atoi")).
Proof.
  cbv beta. split; [reflexivity|]. split; [apply big_spoiled|]. split; [intros X; inversion X; discriminate|vm_compute; reflexivity].
Qed.
Definition demo_pairs : list (entry demo) := [ent (bs "b") (VInt 1); ent (bs "a") (VArr [VNil]); ent (bs "c d") (VFloat (Half 0))].
Example json_object_round_trip_ex : Forall (fun e => e_key e <> []) demo_pairs /\ NoDup (map e_key demo_pairs) /\
  let '(os, c, out) := wr true [] demo_pairs in os = [None; None; None] /\ out = bs "{""b"":1,""a"":[null],""c d"":0.5}" /\
  rd true 16 out = Ok (keyed [(bs "b", VInt 1); (bs "a", VArr [VNil]); (bs "c d", VFloat (Half 0))], Err EOF).
Proof.
  split; [repeat constructor; discriminate|]. split; [|vm_compute; auto].
  repeat constructor; cbn; intros H; repeat (destruct H as [H|H]; [discriminate|]); contradiction.
Qed.

(** A history with a refused value, a repeated key, the key of the refused value and the empty key. *)
Definition demo_history : list (entry demo) :=
  [ent (bs "a") (VInt 1); ent (bs "b") (VFloat Nan); ent (bs "a") (VInt 2); ent (bs "b") (VInt 3); ent [] (VInt 4); ent (bs "c") (VInt 5)].
Lemma one_fine : forall z, ~ refused demo demo_fmt (VInt z).
Proof. intros z H. inversion H. Qed.
Example json_object_history_ex : history demo demo_fmt true [] demo_history [true; false; false; false; false; true] /\
  (let '(os, c, out) := wr true [] demo_history in map (fun o => match o with None => true | _ => false end) os = [true; false; false; false; false; true] /\
     rd true 16 out = Ok (keyed [(bs "a", VInt 1); (bs "c", VInt 5)], Err EOF)) /\
  (let '(os, c, out) := wr true [] (tl demo_history) in out = bs "{,""a"":2,""c"":5}" /\ rd true 16 out = Ok ([], Err err_string)).
Proof.
  split; [|vm_compute; auto].
  eapply hi_cons. { apply vd_object; [reflexivity|discriminate|intros []|apply one_fine]. }
  eapply hi_cons. { apply vd_object_no; [reflexivity|discriminate|cbn; intros [H|[]]; discriminate|apply rf_float; reflexivity]. }
  eapply hi_cons. { apply vd_seen; [reflexivity|discriminate|cbn; auto]. }
  eapply hi_cons. { apply vd_seen; [reflexivity|discriminate|cbn; auto]. }
  eapply hi_cons. { apply vd_empty; reflexivity. }
  eapply hi_cons. { apply vd_object; [reflexivity|discriminate|cbn; intros [H|[H|[]]]; discriminate|apply one_fine]. }
  constructor.
Qed.
Example json_array_history_ex : let '(os, c, out) := wr false [] [ent [] (VFloat Nan); ent [] (VInt 1); ent [] (VInt 2)] in
  out = bs "[,1,2]" /\ rd false 16 out = Ok (number_from 0 [VNil; VInt 1; VInt 2], Err EOF).
Proof. vm_compute. auto. Qed.

(** A sink that fails at the fourth call, after one byte. *)
Example json_failures_ex : json_write demo demo_fmt false [] (mkSink [] [None; None; None; Some (1%nat, EMsg "disk full")]) None [ent [] (VInt 1); ent [] (VInt 22); ent [] (VInt 33)] =
  ([None; None; Some (EMsg "disk full")], None, bs "[1,22,]").
Proof. vm_compute. reflexivity. Qed.
(** The unchecked write: a pretty writer whose every call succeeds although a byte is missing. *)
Theorem json_pretty_failure_refuted : exists k es os out, k_out k = [] /\ json_write demo demo_fmt false [32%N] k None es = (os, None, out) /\
  Forall (fun o => o = None) os /\ snd (json_write demo demo_fmt false [32%N] good_sink None es) <> out.
Proof.
  exists (mkSink [] [None; None; Some (0%nat, EMsg "disk full")]), [ent [] (VInt 1)], [None], (bs "[" ++ [10; 32]%N ++ bs "1]").
  split; [reflexivity|]. split; [reflexivity|]. split; [repeat constructor|]. vm_compute. discriminate.
Qed.
Print Assumptions json_pretty_failure_refuted.

(** Cut inside the second element: one whole entry, one damaged one, an error. *)
Example json_truncated_ex : rd false 16 (bs "[""abc"",[1,2") = Ok ([mkEntry 0 [] (VStr (bs "abc"))], Err err_separate) /\ rd false 16 (bs "[""abc"",12") = Ok (number_from 0 [VStr (bs "abc"); VInt 12], Err err_sep) /\
  rd false 16 (bs "[") = Ok ([mkEntry 0 [] VNil], Err err_sep).
Proof. vm_compute. auto. Qed.
(** The document it was cut from is a document in the sense of the theorem. *)
Example json_truncated_doc : exists vs, jdoc_array demo (float_reads demo demo_parse) vs (bs "[""abc"",12" ++ 51%N :: bs "]").
Proof.
  exists [VStr (bs "abc"); VInt 123].
  apply (jda_cons _ _ (VStr (bs "abc")) [VInt 123] [] [] (34%N :: bs "abc" ++ [34%N]) ([] ++ 44%N :: [] ++ bs "123" ++ [])).
  - constructor.
  - constructor.
  - apply jt_str. repeat (apply jc_plain; [discriminate|discriminate|]). apply jc_nil.
  - apply jl_cons; [constructor|constructor| |apply jl_nil; constructor].
    apply jt_int; [unfold fits_int64; lia|]. exists (bs "123"). split; [discriminate|]. split; [repeat constructor; cbn; lia|]. left. split; reflexivity.
Qed.

(** Strings: a quote, a control character, two ill-formed bytes, and a surrogate pair in the input. *)
Example json_string_ex : quote [34; 7; 192; 128; 226; 130; 172]%N = bs """\""\u0007\ufffd\ufffd" ++ [226; 130; 172; 34]%N /\
  unquote [63%N] (bs "\""\u0007\ufffd\ufffd" ++ [226; 130; 172]%N) = [34; 7; 239; 191; 189; 239; 191; 189; 226; 130; 172]%N /\
  unquote [63%N] (bs "\ud83d\ude00") = bs "??".
Proof. vm_compute. auto. Qed.

(** The nested array whose first element is too large: [] and then the rest of the row as top-level entries. *)
Example json_swallowed_ex : rd false 16 (bs "[[99999999999999999999,2],[3,4]]") = Ok (number_from 0 [VArr []; VInt 2], Err EOF) /\
  rd false 16 (bs "[1,[99999999999999999999,2],[3,4]]") = Ok (number_from 0 [VInt 1; VArr []; VInt 2], Err EOF).
Proof. vm_compute. auto. Qed.
