(** Properties C22, C23 and C65: newline-delimited JSON. *)
From Coq Require Import ZArith Lia.
From Verif Require Import Base M_Decimal L_Decimal M_Bufio L_Bufio M_Utf8 S_Utf8 L_Utf8 M_Sink M_JsonWrite S_JsonText S_JsonBack
  M_Unmarshal S_NDJson M_NDJson L_JsonMarshal L_Unmarshal L_UnmarshalInv L_NDJson.

Section NDJson.
  Variable F : Type.
  Variable fmt_float : F -> option bytes.
  Variable parse_float : bytes -> option F.
  Variable depth : nat.
  Notation gval := (gval F).
  Notation sline := (sline F parse_float depth).
  Notation nd_read := (nd_read F parse_float depth).
  Notation nd_write := (nd_write F fmt_float).
  Notation refused := (refused F fmt_float).
  Notation line_back := (line_back F parse_float).
  Notation deep := (deep F).

  (** What the calls reading these lines return: the values of the lines that are JSON, numbered from n,
      and an error other than end of file for the others. *)
  Inductive outcomes : nat -> list bytes -> list (res (entry F)) -> Prop :=
  | oc_nil : forall n, outcomes n [] []
  | oc_json : forall n l ls v os, sline v (l ++ [10%N]) -> outcomes (S n) ls os ->
      outcomes n (l :: ls) (Ok (mkEntry (Z.of_nat n) [] v) :: os)
  | oc_other : forall n l ls e os, (forall v, ~ sline v (l ++ [10%N])) -> is_eof_text e <> true -> outcomes n ls os ->
      outcomes n (l :: ls) (Err e :: os).

  Lemma unmarshal_not_eof : forall l e, unmarshal F parse_float depth l = Err e -> is_eof_text e <> true.
  Proof.
    assert (X : forall f, (forall d s e, std_value F parse_float f d s = Err e -> e = err_json) /\
      (forall d acc s e, std_rest F parse_float f d acc s = Err e -> e = err_json) /\
      (forall d s e, std_pair F parse_float f d s = Err e -> e = err_json) /\
      (forall d acc s e, std_prest F parse_float f d acc s = Err e -> e = err_json)).
    { induction f as [|f [IHv [IHr [IHp IHq]]]]; [repeat split; intros; discriminate|]. repeat split; intros.
      - rewrite std_value_S in H.
        repeat match type of H with
        | Err _ = Err _ => injection H as <-; reflexivity
        | Ok _ = Err _ => discriminate
        | Panic = Err _ => discriminate
        | OutOfFuel = Err _ => discriminate
        | std_rest _ _ _ _ _ _ = Err _ => eapply IHr; eassumption
        | std_prest _ _ _ _ _ _ = Err _ => eapply IHq; eassumption
        | (match std_value ?a ?b ?f ?d ?s with _ => _ end) = Err _ => destruct (std_value a b f d s) as [[? ?]|?| |] eqn:?; [|injection H as <-; eapply IHv; eassumption| |]
        | (match std_pair ?a ?b ?f ?d ?s with _ => _ end) = Err _ => destruct (std_pair a b f d s) as [[[? ?] ?]|?| |] eqn:?; [|injection H as <-; eapply IHp; eassumption| |]
        | (match ?x with _ => _ end) = Err _ => destruct x
        end.
      - rewrite std_rest_S in H.
        repeat match type of H with
        | Err _ = Err _ => injection H as <-; reflexivity
        | Ok _ = Err _ => discriminate
        | Panic = Err _ => discriminate
        | OutOfFuel = Err _ => discriminate
        | std_rest _ _ _ _ _ _ = Err _ => eapply IHr; eassumption
        | (match std_value ?a ?b ?f ?d ?s with _ => _ end) = Err _ => destruct (std_value a b f d s) as [[? ?]|?| |] eqn:?; [|injection H as <-; eapply IHv; eassumption| |]
        | (match ?x with _ => _ end) = Err _ => destruct x
        end.
      - rewrite std_pair_S in H.
        repeat match type of H with
        | Err _ = Err _ => injection H as <-; reflexivity
        | Ok _ = Err _ => discriminate
        | Panic = Err _ => discriminate
        | OutOfFuel = Err _ => discriminate
        | (match std_value ?a ?b ?f ?d ?s with _ => _ end) = Err _ => destruct (std_value a b f d s) as [[? ?]|?| |] eqn:?; [|injection H as <-; eapply IHv; eassumption| |]
        | (match ?x with _ => _ end) = Err _ => destruct x
        end.
      - rewrite std_prest_S in H.
        repeat match type of H with
        | Err _ = Err _ => injection H as <-; reflexivity
        | Ok _ = Err _ => discriminate
        | Panic = Err _ => discriminate
        | OutOfFuel = Err _ => discriminate
        | std_prest _ _ _ _ _ _ = Err _ => eapply IHq; eassumption
        | (match std_pair ?a ?b ?f ?d ?s with _ => _ end) = Err _ => destruct (std_pair a b f d s) as [[[? ?] ?]|?| |] eqn:?; [|injection H as <-; eapply IHp; eassumption| |]
        | (match ?x with _ => _ end) = Err _ => destruct x
        end. }
    intros l e H. unfold unmarshal in H. destruct (std_value _ _ _ _ _) as [[v r]|e1| |] eqn:E; try discriminate.
    - destruct (drop_blank r); [discriminate|]. injection H as <-. discriminate.
    - injection H as <-. destruct (X (S (length l))) as [XV _]. rewrite (XV _ _ _ E). discriminate.
  Qed.
  Lemma line_results_outcomes : forall ls n, outcomes n ls (line_results F parse_float depth n ls).
  Proof.
    induction ls as [|l ls IH]; intros n; cbn [line_results]; [constructor|].
    destruct (unmarshal F parse_float depth (l ++ [10%N])) as [v|e| |] eqn:E.
    - constructor; [apply unmarshal_exact; assumption|auto].
    - constructor; auto; [|eapply unmarshal_not_eof; eassumption]. intros v Hv. apply unmarshal_exact in Hv. congruence.
    - exfalso. eapply (proj2 (unmarshal_total F parse_float depth _)); eassumption.
    - exfalso. eapply (proj1 (unmarshal_total F parse_float depth _)); eassumption.
  Qed.

  (** C23: for every chunking of the stream and every buffer size there is one result for each line; the
      rest of the stream after the last line break is dropped, and the end of the stream (or the error of
      the source) is reported from then on. *)
  Theorem ndjson_lines : forall size s lines rest n, Forall line lines -> line rest -> s_rem s = stream lines rest ->
    exists os, outcomes 0 lines os /\ nd_read size (length lines + n) s = os ++ repeat (Err (s_fin s)) n.
  Proof.
    intros size s lines rest n Hl Hr E. exists (line_results F parse_float depth 0 lines). split; [apply line_results_outcomes|].
    destruct (new_bufr_ok size s) as [Hok Hp]. unfold M_NDJson.nd_read.
    apply (nd_lines F parse_float depth lines rest n _ _ (mkNd 0 (new_bufr size s)) Hok Hl Hr). cbn [nd_buf]. congruence.
  Qed.
  (** Every stream has this form, in one way. *)
  Theorem ndjson_every_stream : forall s, exists lines rest, Forall line lines /\ line rest /\ s = stream lines rest /\
    forall lines2 rest2, Forall line lines2 -> line rest2 -> s = stream lines2 rest2 -> lines2 = lines /\ rest2 = rest.
  Proof.
    assert (U : forall l1 r1 l2 r2, Forall line l1 -> line r1 -> Forall line l2 -> line r2 -> stream l1 r1 = stream l2 r2 -> l2 = l1 /\ r2 = r1).
    { unfold stream. induction l1 as [|a l1 IH]; intros r1 [|b l2] r2 H1 Hr1 H2 Hr2 E; cbn [flat_map app] in E.
      - auto.
      - exfalso. apply Hr1. rewrite E, <- !app_assoc. apply in_or_app. right. left. reflexivity.
      - exfalso. apply Hr2. rewrite <- E, <- !app_assoc. apply in_or_app. right. left. reflexivity.
      - rewrite <- !app_assoc in E. cbn [app] in E. inversion H1; subst. inversion H2; subst.
        apply first_line in E; auto. destruct E as [-> E]. destruct (IH r1 l2 r2) as [-> ->]; auto. }
    assert (X : forall s, exists lines rest, Forall line lines /\ line rest /\ s = stream lines rest).
    { induction s as [|c s [lines [rest [H1 [H2 ->]]]]].
      - exists [], []. split; [constructor|]. split; [intros []|reflexivity].
      - destruct (N.eq_dec c 10) as [->|Hc].
        + exists ([] :: lines), rest. split; [constructor; [intros []|assumption]|]. auto.
        + destruct lines as [|l lines].
          * exists [], (c :: rest). split; [constructor|]. split; [intros [E|E]; [congruence|contradiction]|reflexivity].
          * inversion H1; subst. exists ((c :: l) :: lines), rest. split; [|auto].
            constructor; [intros [E|E]; [congruence|contradiction]|assumption]. }
    intros s. destruct (X s) as [lines [rest [H1 [H2 ->]]]]. exists lines, rest. repeat split; auto.
    - apply (U lines rest lines2 rest2); auto.
    - apply (U lines rest lines2 rest2); auto.
  Qed.
  (** So the results do not depend on the chunking or on the buffer. *)
  Theorem ndjson_chunk_free : forall size1 size2 s1 s2 n, s_rem s1 = s_rem s2 -> s_fin s1 = s_fin s2 ->
    nd_read size1 n s1 = nd_read size2 n s2.
  Proof.
    intros size1 size2 s1 s2 n E1 E2. destruct (ndjson_every_stream (s_rem s1)) as [lines [rest [H1 [H2 [E3 _]]]]].
    assert (P : forall m r, nd_calls F parse_float depth n r = firstn n (nd_calls F parse_float depth (m + n) r)).
    { induction n as [|k IH]; intros m r; [reflexivity|]. rewrite Nat.add_comm. cbn [Nat.add M_NDJson.nd_calls].
      destruct (nd_read_entry F parse_float depth r) as [x r']. cbn [firstn]. rewrite Nat.add_comm, <- IH. reflexivity. }
    unfold M_NDJson.nd_read. rewrite (P (length lines)). symmetry. rewrite (P (length lines)). symmetry. f_equal.
    destruct (new_bufr_ok size1 s1) as [Hok1 Hp1]. destruct (new_bufr_ok size2 s2) as [Hok2 Hp2].
    rewrite (nd_lines F parse_float depth lines rest n _ _ (mkNd 0 (new_bufr size1 s1)) Hok1 H1 H2) by (cbn [nd_buf]; congruence).
    rewrite (nd_lines F parse_float depth lines rest n _ _ (mkNd 0 (new_bufr size2 s2)) Hok2 H1 H2) by (cbn [nd_buf]; congruence).
    rewrite E2. reflexivity.
  Qed.

  (** C65: the results nil of WriteEntry tell which entries arrived; each is one line. *)
  Definition is_nil (o : option err) : bool := match o with None => true | Some _ => false end.
  Definition text_line (v : gval) (l : bytes) : Prop :=
    line l /\ forall v' d, line_back v v' -> deep d v -> S_NDJson.sline F parse_float d v' l.
  Theorem ndjson_nil_means_written : strict_format F fmt_float parse_float -> forall k es os out, nd_write k es = (os, out) ->
    exists ls part, out = k_out k ++ stream ls part /\
      Forall2 (fun e l => text_line (e_val e) l) (kept F es (map is_nil os)) ls /\
      length os = length es /\
      (Forall2 (fun e o => o = None \/ refused (e_val e)) es os -> part = []) /\
      (k_plan k = [] -> Forall2 (fun e o => o = None <-> ~ refused (e_val e)) es os).
  Proof.
    intros Hfmt k es os out H. unfold M_NDJson.nd_write in H.
    destruct (nd_write_all F fmt_float (mkNw None k) es) as [os0 w] eqn:E. injection H as <- <-.
    assert (STUCK : forall es x k0 os w, nd_write_all F fmt_float (mkNw (Some x) k0) es = (os, w) -> os = repeat (Some x) (length es) /\ w = mkNw (Some x) k0).
    { induction es0 as [|e es0 IH]; intros x k0 os w0 E0; cbn in E0; [injection E0 as <- <-; auto|].
      destruct (nd_write_all F fmt_float (mkNw (Some x) k0) es0) as [os1 w1] eqn:E1. injection E0 as <- <-.
      destruct (IH _ _ _ _ E1) as [-> ->]. auto. }
    assert (NOPLAN : forall x k0 d, k_plan k0 = [] -> sink_write d k0 = (Some x, k0) -> False).
    { intros x k0 d Hp Hs. unfold sink_write in Hs. rewrite Hp in Hs. discriminate. }
    revert k os0 w E. induction es as [|e es IH]; intros k os0 w E.
    - cbn in E. injection E as <- <-. exists [], []. cbn. rewrite app_nil_r. repeat split; auto; constructor.
    - cbn [M_NDJson.nd_write_all] in E. unfold nd_write_entry in E. cbn [w_err w_sink] in E.
      pose proof (marshal_refused F fmt_float (e_val e) [] [] []) as HR.
      destruct (marshal F fmt_float [] [] [] (e_val e)) as [t|] eqn:Em.
      + assert (Hnr : ~ refused (e_val e)) by (intro X; apply HR in X; discriminate).
        assert (TL : text_line (e_val e) t).
        { split.
          - refine (marshal_line F fmt_float parse_float _ _ _ Em). intros f t0 Hf. apply strict_number_line. apply (Hfmt _ _ Hf).
          - intros v' d Hb Hd. exists [], t, []. rewrite app_nil_r. split; [constructor|]. split; [constructor|]. split; [|reflexivity].
            eapply marshal_strict; eassumption. }
        destruct (sink_write (t ++ [10%N]) k) as [x k1] eqn:Es.
        destruct (nd_write_all F fmt_float (mkNw x k1) es) as [os1 w1] eqn:E1. injection E as <- <-.
        destruct x as [x|].
        * destruct (STUCK _ _ _ _ _ E1) as [-> ->]. cbn [w_sink map is_nil kept].
          assert (EK : kept F es (map is_nil (repeat (Some x) (length es))) = []).
          { clear. induction es as [|e es IH]; [reflexivity|]. cbn. exact IH. }
          rewrite EK.
          assert (Ek : exists part, k_out k1 = k_out k ++ part).
          { unfold sink_write in Es. destruct (k_plan k) as [|[[n e0]|] p]; inversion Es; subst; cbn; eauto. }
          destruct Ek as [part Ek]. exists [], part. unfold stream. cbn [flat_map app]. split; [assumption|]. split; [constructor|].
          split; [cbn; rewrite repeat_length; reflexivity|]. split.
          -- intros HF. inversion HF as [|? ? ? ? [X|X] _]; subst; [discriminate|contradiction].
          -- intros Hp. unfold sink_write in Es. rewrite Hp in Es. discriminate.
        * destruct (IH _ _ _ E1) as [ls [part [Eo [HF [Hlen [Hpart Hplan]]]]]]. exists (t :: ls), part.
          assert (Ek : k_out k1 = k_out k ++ t ++ [10%N] /\ (k_plan k = [] -> k_plan k1 = [])).
          { unfold sink_write in Es. destruct (k_plan k) as [|[[n e0]|] p]; inversion Es; subst; cbn; split; try reflexivity; discriminate. }
          destruct Ek as [Ek Ep]. cbn [map is_nil kept length]. split; [|split; [|split; [|split]]].
          -- rewrite Eo, Ek. unfold stream. cbn [flat_map]. rewrite <- !app_assoc. reflexivity.
          -- constructor; assumption.
          -- congruence.
          -- intros HH. inversion HH; subst. auto.
          -- intros Hp. constructor; [tauto|auto].
      + assert (Hr : refused (e_val e)) by (apply HR; reflexivity).
        destruct (nd_write_all F fmt_float (mkNw None k) es) as [os1 w1] eqn:E1. injection E as <- <-.
        destruct (IH _ _ _ E1) as [ls [part [Eo [HF [Hlen [Hpart Hplan]]]]]]. exists ls, part. cbn [map is_nil kept length].
        split; [assumption|]. split; [assumption|]. split; [congruence|]. split.
        * intros HH. inversion HH; subst. auto.
        * intros Hp. constructor; [|auto]. split; [discriminate|contradiction].
  Qed.
  (** After a failed write every later call returns the same error and writes nothing. *)
  Theorem ndjson_failure_sticks : forall w e x w' es, w_err w = None -> ~ refused (e_val e) ->
    nd_write_entry F fmt_float w e = (Some x, w') -> nd_write_all F fmt_float w' es = (repeat (Some x) (length es), w').
  Proof.
    intros w e x w' es Hw Hnr H. unfold nd_write_entry in H. rewrite Hw in H.
    pose proof (marshal_refused F fmt_float (e_val e) [] [] []) as HR.
    destruct (marshal F fmt_float [] [] [] (e_val e)) as [t|]; [|exfalso; apply Hnr, HR; reflexivity].
    destruct (sink_write (t ++ [10%N]) (w_sink w)) as [y k]. injection H as -> <-.
    induction es as [|e0 es IH]; [reflexivity|]. cbn [M_NDJson.nd_write_all]. unfold nd_write_entry. cbn [w_err]. rewrite IH. reflexivity.
  Qed.

  Fixpoint numbered (n : nat) (vs : list gval) : list (res (entry F)) :=
    match vs with [] => [] | v :: vs => Ok (mkEntry (Z.of_nat n) [] v) :: numbered (S n) vs end.
  Lemma outcomes_json : forall ls vs, Forall2 (fun v l => sline v (l ++ [10%N])) vs ls -> forall n os, outcomes n ls os -> os = numbered n vs.
  Proof.
    induction 1 as [|v l vs ls H HF IH]; intros n os Ho; inversion Ho; subst; [reflexivity| |].
    - cbn [numbered]. rewrite (sline_fun F parse_float _ _ _ _ H H3). f_equal. auto.
    - exfalso. eapply H2; eassumption.
  Qed.

  (** C22: entries that can be encoded are written, the others refused; reading gives the values back in
      order, numbered from zero, and then the end of the stream. *)
  Theorem ndjson_round_trip : strict_format F fmt_float parse_float -> forall es, exists os out l,
    nd_write good_sink es = (os, out) /\
    Forall2 (fun e b => b = true <-> ~ refused (e_val e)) es l /\ map is_nil os = l /\
    forall vs, Forall2 (fun e v => line_back (e_val e) v /\ deep depth (e_val e)) (kept F es l) vs ->
    forall size s n, s_rem s = out -> nd_read size (length vs + n) s = numbered 0 vs ++ repeat (Err (s_fin s)) n.
  Proof.
    intros Hfmt es. destruct (nd_write good_sink es) as [os out] eqn:E. exists os, out, (map is_nil os).
    destruct (ndjson_nil_means_written Hfmt _ _ _ _ E) as [ls [part [Eo [HF [Hlen [Hpart Hplan]]]]]].
    specialize (Hplan eq_refl).
    assert (Hp : part = []).
    { apply Hpart. clear -Hplan. induction Hplan as [|e o es os H HF IH]; constructor; auto.
      pose proof (marshal_refused F fmt_float (e_val e) [] [] []) as HR.
      destruct (marshal F fmt_float [] [] [] (e_val e)); [left; apply H; intro X; apply HR in X; discriminate|right; apply HR; reflexivity]. }
    subst part. split; [reflexivity|]. split; [|split; [reflexivity|]].
    { clear -Hplan. induction Hplan as [|e o es os H HF IH]; constructor; auto. rewrite <- H. destruct o; cbn; split; congruence. }
    intros vs Hvs size s n Es.
    assert (HL : Forall line ls) by (revert HF; generalize (kept F es (map is_nil os)); clear; intros es HF; induction HF as [|e l es ls [H _] HF IH]; constructor; auto).
    assert (HV : Forall2 (fun v l => sline v (l ++ [10%N])) vs ls).
    { revert Hvs HF. generalize (kept F es (map is_nil os)). clear. intros es Hvs HF. revert vs Hvs. induction HF as [|e l es ls [_ H] HF IH]; intros vs Hvs; inversion Hvs as [|? v ? vs' [Hb Hd] Hvs']; subst; constructor; auto.
      destruct (H v depth Hb Hd) as [w1 [t [w2 [H1 [H2 [H3 ->]]]]]]. exists w1, t, (w2 ++ [10%N]). repeat split; auto.
      - apply Forall_app. split; [assumption|]. constructor; [auto|constructor].
      - rewrite <- !app_assoc. reflexivity. }
    destruct (ndjson_lines size s ls [] n HL ltac:(intros []) ltac:(rewrite Es; exact Eo)) as [res [Ho Er]].
    rewrite (outcomes_json _ _ HV _ _ Ho) in Er.
    assert (Hl2 : length vs = length ls) by (clear -HV; induction HV; cbn; congruence). rewrite Hl2. exact Er.
  Qed.

  Lemma fold_set_sorted : forall m acc, sorted (acc ++ m) -> fold_left (fun (m : list (bytes * gval)) kv => map_set (fst kv) (snd kv) m) m acc = acc ++ m.
  Proof.
    assert (A : forall acc k (v : gval) m, sorted (acc ++ (k, v) :: m) -> map_set k v acc = acc ++ [(k, v)]).
    { induction acc as [|[k1 v1] acc IH]; intros k v m H; [reflexivity|]. cbn [app sorted] in H. destruct H as [H1 H2]. cbn [map_set app].
      assert (L : bcmp k1 k = Lt).
      { clear -H1. induction acc as [|[a b] acc IH]; cbn in H1; [tauto|]. apply IH. tauto. }
      rewrite bcmp_antisym, L. cbn [CompOpp]. rewrite (IH _ _ _ H2). reflexivity. }
    induction m as [|[k v] m IH]; intros acc H; cbn [fold_left]; [rewrite app_nil_r; reflexivity|]. cbn [fst snd].
    rewrite (A _ _ _ _ H). rewrite IH by (rewrite <- app_assoc; exact H). rewrite <- app_assoc. reflexivity.
  Qed.
  (** Values that come back as they are: no integers, no byte slices, well-formed strings. *)
  Inductive settled_value : gval -> Prop :=
  | sv_nil : settled_value VNil
  | sv_bool : forall b, settled_value (VBool b)
  | sv_float : forall f, settled_value (VFloat f)
  | sv_str : forall s, well_formed s -> settled_value (VStr s)
  | sv_arr : forall l, Forall settled_value l -> settled_value (VArr l)
  | sv_map : forall m, sorted m -> Forall (fun kv => well_formed (fst kv) /\ settled_value (snd kv)) m -> settled_value (VMap m).
  Theorem ndjson_exact_values : forall v, settled_value v -> line_back v v.
  Proof.
    induction v as [|b|z|f|s|s|l IH|m IH] using gval_ind2; intros H; inversion H; subst.
    - constructor. - constructor. - constructor.
    - constructor. apply cleaned_well_formed. assumption.
    - constructor. clear H. induction IH as [|v l Hv IH IH2]; [constructor|]. inversion H1; subst. constructor; auto.
    - assert (E : object_of F m = VMap m) by (unfold object_of; rewrite (fold_set_sorted m []) by assumption; reflexivity).
      rewrite <- E at 2. constructor. clear H E H1. induction IH as [|[k v] m Hv IH IH2]; [constructor|]. inversion H2 as [|? ? [A B] C]; subst.
      constructor; [split; [apply cleaned_well_formed; assumption|auto]|auto].
  Qed.
  Inductive nest : nat -> gval -> Prop :=
  | ns_0 : nest 0 VNil
  | ns_S : forall n v, nest n v -> nest (S n) (VArr [v]).
  (** Nesting beyond the limit of encoding/json is written but cannot be read. *)
  Theorem ndjson_too_deep : forall (v : gval) (size : nat) (s : src) (n : nat), nest (S depth) v -> s_rem s = snd (nd_write good_sink [mkEntry 0 [] v]) ->
    fst (nd_write good_sink [mkEntry 0 [] v]) = [None] /\
    exists e, is_eof_text e <> true /\ nd_read size (1 + n) s = Err e :: repeat (Err (s_fin s)) n.
  Proof.
    intros v size s n Hn Es.
    assert (T : forall n v, nest n v -> marshal F fmt_float [] [] [] v = Some (repeat 91%N n ++ bs "null" ++ repeat 93%N n)).
    { clear. induction 1 as [|n v H IH]; [reflexivity|]. rewrite marshal_arr. cbn [app marshal_tail]. rewrite IH. cbn [repeat app].
      f_equal. f_equal. rewrite <- !app_assoc. do 2 f_equal. symmetry. apply (repeat_cons n 93%N). }
    unfold M_NDJson.nd_write, M_NDJson.nd_write_all, nd_write_entry in *. cbn [e_val w_err w_sink] in *. rewrite (T _ _ Hn) in *.
    cbn [sink_write good_sink k_plan k_out fst snd w_sink app] in *. split; [reflexivity|].
    set (l := repeat 91%N (S depth) ++ bs "null" ++ repeat 93%N (S depth)) in *.
    assert (Hl : line l).
    { unfold line, l. rewrite !in_app_iff. intros [H|[H|H]].
      - apply repeat_spec in H. discriminate.
      - cbn in H. intuition discriminate.
      - apply repeat_spec in H. discriminate. }
    destruct (ndjson_lines size s [l] [] n) as [os [Ho Er]]; [repeat constructor; assumption|intros []|rewrite Es; unfold stream; cbn [flat_map]; rewrite !app_nil_r; reflexivity|].
    assert (B : forall d f r x, std_value F parse_float f d (repeat 91%N (S d) ++ r) <> Ok x).
    { clear. induction d as [|d IH]; intros f r x; (destruct f; [discriminate|]); rewrite std_value_S; cbn [repeat app N.eqb Pos.eqb]; [discriminate|].
      rewrite drop_blank_stop by reflexivity. cbn [N.eqb Pos.eqb]. specialize (IH f r). cbn [repeat app] in IH.
      destruct (std_value F parse_float f d (91%N :: repeat 91%N d ++ r)) as [y|e| |]; try discriminate. exfalso. eapply IH. reflexivity. }
    inversion Ho as [|? ? ? v0 ? Hv Ho2|? ? ? e ? Hno He Ho2]; subst.
    - exfalso. apply unmarshal_exact in Hv. unfold unmarshal in Hv.
      assert (Ed : drop_blank (l ++ [10%N]) = repeat 91%N (S depth) ++ ((bs "null" ++ repeat 93%N (S depth)) ++ [10%N])).
      { unfold l. rewrite <- !app_assoc. cbn [repeat app]. apply drop_blank_stop. reflexivity. }
      rewrite Ed in Hv. destruct (std_value F parse_float _ depth _) as [x|e| |] eqn:Ex in Hv; try discriminate. exact (B _ _ _ _ Ex).
    - inversion Ho2; subst. exists e. split; [assumption|exact Er].
  Qed.
End NDJson.

Print Assumptions ndjson_lines.
Print Assumptions ndjson_every_stream.
Print Assumptions ndjson_chunk_free.
Print Assumptions ndjson_nil_means_written.
Print Assumptions ndjson_failure_sticks.
Print Assumptions ndjson_round_trip.
Print Assumptions ndjson_exact_values.
Print Assumptions ndjson_too_deep.

(** ** Concrete cases.  The floats of these are whole numbers and NaN. *)
Definition demo_fmt (f : option Z) : option bytes := match f with Some z => Some (itoa z) | None => None end.
Definition demo_parse (t : bytes) : option (option Z) := match parse_signed t with Some z => Some (Some z) | None => None end.
Lemma demo_format : strict_format (option Z) demo_fmt demo_parse.
Proof.
  intros [z|] t E; cbn in E; [|discriminate]. injection E as <-. split; [apply itoa_strict|]. unfold demo_parse. rewrite parse_signed_itoa. reflexivity.
Qed.
Local Notation rd size n d := (nd_read (option Z) demo_parse 3 size n (mkSrc d EOF [(2%nat, false); (0%nat, true)])).
Local Notation wr k es := (nd_write (option Z) demo_fmt k es).
Local Notation ent v := (mkEntry 0 [] v).
Local Notation got i v := (Ok (mkEntry i [] v)).
(** A line that is not JSON is an error of its own, an empty line too; the unterminated last line is dropped. *)
Example ndjson_lines_ex :
  rd 16 6 (stream [bs "{""a"":[1,2]}"; bs "nul"; []; bs " ""long enough for two buffers"" "] (bs "{""lost"":1}")) =
  [got 0 (VMap [(bs "a", VArr [VFloat (Some 1%Z); VFloat (Some 2%Z)])]); Err err_json; Err err_json;
   got 1 (VStr (bs "long enough for two buffers")); Err EOF; Err EOF].
Proof. vm_compute. reflexivity. Qed.
Definition demo_rows : list (entry (option Z)) :=
  [ent (VStr [97; 10; 255; 34]%N); ent (VFloat None); ent (VArr [VInt (-5); VBytes [1; 2; 3; 4]%N; VMap [(bs "k", VBool true)]]); ent VNil].
Definition demo_back : list (gval (option Z)) :=
  [VStr [97; 10; 239; 191; 189; 34]%N; VArr [VFloat (Some (-5)%Z); VStr (bs "AQIDBA=="); VMap [(bs "k", VBool true)]]; VNil].
Example ndjson_round_trip_ex : let '(os, out) := wr good_sink demo_rows in
  map is_nil os = [true; false; true; true] /\
  rd 16 5 out = map (fun p => got (fst p) (snd p)) (combine [0; 1; 2]%Z demo_back) ++ [Err EOF; Err EOF] /\
  Forall2 (fun e v => line_back (option Z) demo_parse (e_val e) v /\ deep (option Z) 3 (e_val e)) (kept (option Z) demo_rows (map is_nil os)) demo_back.
Proof.
  vm_compute wr. split; [reflexivity|]. split; [vm_compute; reflexivity|].
  unfold demo_rows, demo_back. cbn [kept map is_nil]. constructor; [|constructor; [|constructor; [|constructor]]]; (split; [|repeat constructor]); cbn [e_val].
  - constructor. apply (cl_rune 97); [unfold scalar; lia|]. apply (cl_rune 10); [unfold scalar; lia|].
    apply (cl_bad 255 [34%N] [34%N]); [|apply (cl_rune 34 [] []); [unfold scalar; lia|constructor]].
    intros r t Hr E. apply (decode_none (255 :: [34])%N r t eq_refl Hr E).
  - constructor. constructor; [constructor; reflexivity|]. constructor; [constructor; apply base64_total; repeat constructor|].
    constructor; [|constructor]. apply (lb_map _ _ [(bs "k", VBool true)] [(bs "k", VBool true)]). constructor; [|constructor]. split; [|constructor].
    apply cleaned_well_formed. exists (bs "k"). split; [repeat constructor; unfold scalar; cbn; lia|reflexivity].
  - constructor.
Qed.
Example ndjson_failure_ex : wr (mkSink [] [None; Some (2%nat, EMsg "disk full")]) [ent (VBool true); ent (VFloat None); ent (VBool false); ent VNil; ent (VFloat None)] =
  ([None; Some err_unsupported; Some (EMsg "disk full"); Some (EMsg "disk full"); Some (EMsg "disk full")], bs "true" ++ 10%N :: bs "fa").
Proof. vm_compute. reflexivity. Qed.
Example ndjson_too_deep_ex : nest (option Z) 4 (VArr [VArr [VArr [VArr [VNil]]]]) /\
  rd 16 2 (snd (wr good_sink [ent (VArr [VArr [VArr [VArr [VNil]]]])])) = [Err err_json; Err EOF] /\
  rd 16 2 (snd (wr good_sink [ent (VArr [VArr [VArr [VNil]]])])) = [got 0 (VArr [VArr [VArr [VNil]]]); Err EOF].
Proof. split; [repeat constructor|]. vm_compute. split; reflexivity. Qed.
Example ndjson_exact_values_ex : settled_value (option Z) (VMap [(bs "a", VFloat (Some 1%Z)); (bs "b", VArr [VStr (bs "x"); VNil])]).
Proof.
  constructor; [repeat constructor|]. repeat constructor.
  - exists (bs "a"). split; [repeat constructor; unfold scalar; cbn; lia|reflexivity].
  - exists (bs "b"). split; [repeat constructor; unfold scalar; cbn; lia|reflexivity].
  - exists (bs "x"). split; [repeat constructor; unfold scalar; cbn; lia|reflexivity].
Qed.
