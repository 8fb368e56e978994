(** A JSON array in an EntryBuffer is a queue. *)
From Coq Require Import ZArith Lia.
From Verif Require Import Base M_Bufio L_Bufio M_Sink M_Json M_JsonWrite M_Cbor M_Columns M_Tabular M_CsvText M_Csv M_NDJson M_Xlsx M_Formats M_Stream M_Convert
  S_JsonPure S_JsonText S_JsonBack L_JsonBuf L_JsonTotal L_JsonRead L_JsonCut L_JsonDoc L_JsonMarshal L_JsonWriter P_Json
  M_EntryBuffer S_EntryBuffer L_EntryBuffer.

(** The JSON reader leaves no error in a buffer that is large enough for its Peek(4096). *)
Definition roomy (b : bufr) : Prop := calm b /\ (Z.to_nat block_size <= b_cap b)%nat.
Lemma roomy_fill : forall b, roomy b -> s_sched (b_src (fill b)) = [] /\ (Z.to_nat block_size <= b_cap (fill b))%nat /\
  (b_err (fill b) = None \/ b_buf (fill b) = b_buf b).
Proof.
  intros b [H1 H2]. destruct (calm_fill b H1) as [F1 F2]. rewrite fill_cap. split; [assumption|]. split; [assumption|].
  destruct F2 as [F2|[_ F2]]; auto.
Qed.
Lemma roomy_peek_fill : forall f n b, s_sched (b_src b) = [] -> (Z.to_nat block_size <= b_cap b)%nat ->
  (b_err b = None \/ (buffered b < n)%nat) ->
  let b' := peek_fill f n b in s_sched (b_src b') = [] /\ (Z.to_nat block_size <= b_cap b')%nat /\
    (b_err b' = None \/ (buffered b' < n)%nat).
Proof.
  induction f as [|f IH]; intros n b H1 H2 H3; cbn [peek_fill]; [auto|].
  destruct (Nat.ltb_spec (buffered b) n); cbn [andb]; [|auto].
  destruct (buffered b <? b_cap b)%nat; cbn [andb]; [|auto].
  destruct (b_err b) eqn:Ee; [rewrite Ee; auto|].
  destruct (roomy_fill b (conj (conj Ee H1) H2)) as [F1 [F2 F3]]. apply IH; try assumption.
  destruct F3 as [F3|F3]; [left; assumption|right]. unfold buffered. rewrite F3. assumption.
Qed.
Lemma roomy_peek : forall n b, roomy b -> (Z.to_nat n <= b_cap b)%nat \/ (Z.to_nat n <= buffered b)%nat -> roomy (snd (peek n b)).
Proof.
  intros n b Hr Hn. unfold peek. destruct (n <? 0)%Z; [assumption|].
  destruct Hr as [[H1 H2] H3].
  pose proof (roomy_peek_fill (S (Nat.min (Z.to_nat n) (b_cap b))) (Z.to_nat n) b H2 H3 (or_introl H1)) as F.
  assert (G : (Z.to_nat n <= buffered b)%nat -> peek_fill (S (Nat.min (Z.to_nat n) (b_cap b))) (Z.to_nat n) b = b).
  { intros L. cbn [peek_fill]. destruct (Nat.ltb_spec (buffered b) (Z.to_nat n)); [lia|]. reflexivity. }
  destruct (Nat.ltb_spec (b_cap b) (Z.to_nat n)).
  - destruct Hn as [Hn|Hn]; [lia|]. rewrite G by assumption. cbn [snd]. split; [split|]; assumption.
  - cbv zeta in F. set (b' := peek_fill _ _ b) in *. clearbody b'. destruct F as [F1 [F2 F3]].
    destruct (Nat.ltb_spec (buffered b') (Z.to_nat n)); cbn [snd].
    + split; [split; [reflexivity|assumption]|assumption].
    + destruct F3 as [F3|F3]; [|lia]. split; [split|]; assumption.
Qed.
Lemma roomy_discard_loop : forall f n b, (0 < n)%nat -> roomy b -> roomy (discard_loop f n b).
Proof.
  induction f as [|f IH]; intros n b Hn H; cbn [discard_loop]; [assumption|].
  set (b1 := if (buffered b =? 0)%nat then fill b else b).
  assert (A : s_sched (b_src b1) = [] /\ (Z.to_nat block_size <= b_cap b1)%nat /\ (b_err b1 = None \/ b_buf b1 = [])).
  { unfold b1. destruct (Nat.eqb_spec (buffered b) 0) as [E|E].
    - destruct (roomy_fill b H) as [F1 [F2 F3]]. split; [assumption|]. split; [assumption|]. destruct F3 as [F3|F3]; [auto|right].
      rewrite F3. apply length_zero_iff_nil. exact E.
    - destruct H as [[H1 H2] H3]. auto. }
  clearbody b1. destruct A as [A1 [A2 A3]]. cbv zeta.
  destruct (Nat.eqb_spec (n - Nat.min (buffered b1) n) 0) as [E|E].
  - split; [split|]; cbn; try assumption. destruct A3 as [A3|A3]; [assumption|].
    unfold buffered in E. rewrite A3 in E. cbn in E. lia.
  - cbn [set_buf b_err]. destruct (b_err b1) eqn:Ee.
    + split; [split; [reflexivity|assumption]|assumption].
    + apply IH; [lia|]. split; [split|]; cbn; assumption.
Qed.
Lemma roomy_discard : forall n b, roomy b -> roomy (discard n b).
Proof. intros n b H. unfold discard. destruct (Z.leb_spec n 0); [assumption|]. apply roomy_discard_loop; [lia|assumption]. Qed.

Definition jroomy (st : jst) : Prop := roomy (j_buf st).
Lemma jroomy_extend : forall o st, jroomy st -> let '(_, _, st') := extend_buffer o st in jroomy st'.
Proof.
  intros o st H. unfold extend_buffer.
  assert (A := roomy_peek block_size _ (roomy_discard (Z.of_nat (buffered (j_buf st))) _ H)).
  assert (B : roomy (snd (peek block_size (discard (Z.of_nat (buffered (j_buf st))) (j_buf st))))).
  { apply A. left. apply (roomy_discard (Z.of_nat (buffered (j_buf st))) _ H). }
  clear A. set (b2 := snd (peek block_size _)) in *. clearbody b2. destruct (0 <? Z.of_nat (buffered b2))%Z; [|exact B].
  pose proof (roomy_peek (Z.of_nat (buffered b2)) b2 B ltac:(right; lia)) as C.
  destruct (peek (Z.of_nat (buffered b2)) b2) as [[x y] b3]. exact C.
Qed.
Lemma jroomy_look : forall i buff st, jroomy st ->
  let '(_, _, st') := (if (length buff <=? i)%nat then extend_buffer buff st else (buff, true, st)) in jroomy st'.
Proof. intros i buff st H. destruct (length buff <=? i)%nat; [apply jroomy_extend|]; assumption. Qed.
Lemma jroomy_ws : forall f i buff st i' buff' st', jroomy st -> ws_loop f i buff st = Ok (i', buff', st') -> jroomy st'.
Proof.
  induction f as [|f IH]; intros i buff st i' buff' st' H E; cbn [ws_loop] in E; [discriminate|].
  pose proof (jroomy_look i buff st H) as L. destruct (if (length buff <=? i)%nat then _ else _) as [[bf more] st1].
  destruct more; cbn [negb] in E; [|injection E as <- <- <-; assumption].
  destruct (nth_error bf i) as [c|]; [|discriminate]. destruct (is_ws c); [eapply IH; eassumption|injection E as <- <- <-; assumption].
Qed.
Lemma jroomy_current : forall st buff st', jroomy st -> current_buffer st = Ok (buff, st') -> jroomy st'.
Proof.
  intros st buff st' H E. unfold current_buffer in E.
  pose proof (roomy_peek (Z.of_nat (buffered (j_buf st))) (j_buf st) H ltac:(right; lia)) as P.
  destruct (peek _ _) as [[x y] b]. cbn [snd] in P.
  destruct (ws_loop _ 0 x (mkJst b 0)) as [[[skip bf] st1]|e| |] eqn:Ew; try discriminate.
  assert (A : jroomy st1) by (eapply jroomy_ws; [|exact Ew]; exact P).
  destruct (0 <? skip)%nat; injection E as <- <-; [|assumption]. unfold jroomy. cbn [j_buf]. apply roomy_discard. exact A.
Qed.
Lemma jroomy_with : forall A st (k : bytes -> jst -> jcall A) x st', jroomy st -> with_buffer st k = Ok (x, st') ->
  (forall buff st1, jroomy st1 -> k buff st1 = Ok (x, st') -> jroomy st') -> jroomy st'.
Proof.
  intros A st k x st' H E Hk. unfold with_buffer in E. destruct (current_buffer st) as [[buff st1]|e| |] eqn:Ec; try discriminate.
  eapply Hk; [|exact E]. eapply jroomy_current; eassumption.
Qed.
Lemma jroomy_discard : forall n p st, jroomy st -> jroomy (mkJst (discard n (j_buf st)) p).
Proof. intros n p st H. unfold jroomy. cbn [j_buf]. apply roomy_discard. exact H. Qed.
Lemma jroomy_str : forall f i buff st x st', jroomy st -> str_loop f i buff st = Ok (x, st') -> jroomy st'.
Proof.
  induction f as [|f IH]; intros i buff st x st' H E; cbn [str_loop] in E; [discriminate|].
  pose proof (jroomy_look i buff st H) as L. destruct (if (length buff <=? i)%nat then _ else _) as [[bf more] st1].
  destruct more; cbn [negb] in E; [|injection E as <- <-; assumption].
  destruct (nth_error bf i) as [c|]; [|discriminate]. destruct (N.eqb c 92); [eapply IH; eassumption|].
  destruct (N.eqb c 34); [|eapply IH; eassumption]. unfold extract in E. injection E as <- <-. apply jroomy_discard. assumption.
Qed.
Lemma jroomy_num : forall f i buff st i' buff' st', jroomy st -> num_loop f i buff st = Ok (i', buff', st') -> jroomy st'.
Proof.
  induction f as [|f IH]; intros i buff st i' buff' st' H E; cbn [num_loop] in E; [discriminate|].
  pose proof (jroomy_look i buff st H) as L. destruct (if (length buff <=? i)%nat then _ else _) as [[bf more] st1].
  destruct more; cbn [negb] in E; [|injection E as <- <- <-; assumption].
  destruct (nth_error bf i) as [c|]; [|discriminate]. destruct (is_num_char c); [eapply IH; eassumption|injection E as <- <- <-; assumption].
Qed.
Lemma jroomy_run : forall A (p : jprog A) st a st', jroomy st -> run_json p st = Ok (a, st') -> jroomy st'.
Proof.
  induction p as [a|k IH|ch k IH|tok k IH|k IH|k IH|k IH|k IH]; intros st a0 st' H E; cbn [run_json] in E.
  - injection E as <- <-. assumption.
  - eapply IH; [|exact E]. unfold jroomy, j_fill. cbn [j_buf]. apply roomy_peek; [exact H|]. left. apply H.
  - destruct (j_tok ch st) as [[x st1]|e| |] eqn:Ej; try discriminate. eapply IH; [|exact E].
    unfold j_tok in Ej. apply (jroomy_with _ _ _ _ _ H Ej). intros [|c t] s1 H1 E1; [injection E1 as <- <-; assumption|].
    destruct (N.eqb c ch); injection E1 as <- <-; [apply jroomy_discard|]; assumption.
  - destruct (j_lit tok st) as [[x st1]|e| |] eqn:Ej; try discriminate. eapply IH; [|exact E].
    unfold j_lit in Ej. apply (jroomy_with _ _ _ _ _ H Ej). intros buff s1 H1 E1.
    assert (L : let '(_, _, st') := (if (length buff <? length tok)%nat then extend_buffer buff s1 else (buff, true, s1)) in jroomy st').
    { destruct (length buff <? length tok)%nat; [apply jroomy_extend|]; assumption. }
    destruct (if (length buff <? length tok)%nat then _ else _) as [[bf more] st2]. destruct more; cbn [negb] in E1; [|injection E1 as <- <-; assumption].
    destruct (_ && _); injection E1 as <- <-; [apply jroomy_discard|]; assumption.
  - destruct (j_peek st) as [[x st1]|e| |] eqn:Ej; try discriminate. eapply IH; [|exact E].
    unfold j_peek in Ej. apply (jroomy_with _ _ _ _ _ H Ej). intros buff s1 H1 E1. injection E1 as <- <-; assumption.
  - destruct (j_skip st) as [[x st1]|e| |] eqn:Ej; try discriminate. eapply IH; [|exact E].
    unfold j_skip in Ej. apply (jroomy_with _ _ _ _ _ H Ej). intros buff s1 H1 E1. injection E1 as _ <-; assumption.
  - destruct (j_str st) as [[x st1]|e| |] eqn:Ej; try discriminate. eapply IH; [|exact E].
    unfold j_str in Ej. apply (jroomy_with _ _ _ _ _ H Ej). intros [|c t] s1 H1 E1; [injection E1 as <- <-; assumption|].
    destruct (N.eqb c 34); [eapply jroomy_str; eassumption|injection E1 as <- <-; assumption].
  - destruct (j_num st) as [[x st1]|e| |] eqn:Ej; try discriminate. eapply IH; [|exact E].
    unfold j_num in Ej. apply (jroomy_with _ _ _ _ _ H Ej). intros buff s1 H1 E1.
    destruct (num_loop _ 0 buff s1) as [[[i bf] st2]|e| |] eqn:En; try discriminate.
    assert (L : jroomy st2) by (eapply jroomy_num; eassumption).
    destruct (0 <? i)%nat; injection E1 as <- <-; [apply jroomy_discard|]; assumption.
Qed.

Section Json.
  Variable parse_float : bytes -> option N.
  Variable fmt_plain : N -> bytes.
  Variable fmt_json : N -> option bytes.
  Variable depth : nat.
  Variable surrogate : bytes.
  Variable save : book -> bytes.
  Variables sheet_key keep : bytes -> bytes.
  Variables osize wsize : nat.
  Variable pack : bytes -> bytes -> bytes.
  Variable fuel : nat.
  Hypothesis Hfmt : float_format N fmt_json parse_float.
  Notation run := (eb_run parse_float fmt_plain fmt_json depth surrogate save sheet_key keep osize wsize pack fuel).
  Notation J := (jtext N (float_reads N parse_float)).
  Notation back := (comes_back N fmt_json).
  Notation read_entry := (read_entry N parse_float surrogate fuel).

  (** A text that fits the fuel. *)
  Definition fits (v : gval N) (d : bytes) : Prop := exists w t, d = w ++ t /\ blank w /\ J v t /\ (2 * length t <= fuel)%nat.
  (** What the reader has before it: the separated texts of the values waiting, after a bracket if none was read. *)
  Definition after (ds : list bytes) : bytes := flat_map (fun d => 44%N :: d) ds.
  Definition ahead (init : bool) (ds : list bytes) : bytes :=
    if init then after ds else match ds with [] => [] | d :: ds => 91%N :: d ++ after ds end.
  Definition at_ease (cap : nat) (st : jst) (s : bytes) : Prop := jok cap EOF st /\ jroomy st /\ pending (j_buf st) = s.

  Lemma short_entry : forall js, short_lits (read_entry js).
  Proof.
    intros js. assert (HB : short_lits (read_body N parse_float surrogate fuel js)).
    { unfold M_Json.read_body. destruct (short_read N parse_float surrogate fuel) as [Hv [_ [_ [Hp _]]]].
      destruct (js_obj js); apply short_bind; try assumption; intros; exact I. }
    unfold M_Json.read_entry. cbn [short_lits]. destruct (js_init js); cbn [short_lits].
    + intros [|]; [exact I|]. intros [|]; [assumption|exact I].
    + intros [|]; [|exact I]. intros [|]; [exact I|assumption].
  Qed.
  Lemma read_at_ease : forall cap st js s a r, at_ease cap st s -> run_pure (read_entry js) (Live s) = (Some a, Live r) ->
    exists st', run_json (read_entry js) st = Ok (a, st') /\ at_ease cap st' r.
  Proof.
    intros cap st js s a r [H1 [H2 H3]] E.
    destruct (run_json_pure _ _ cap EOF st (Live s) a (Live r) (short_entry js) (conj H1 H3) E) as [[st' [E1 [E2 E3]]]|[X _]]; [|discriminate].
    exists st'. split; [assumption|]. split; [assumption|]. split; [eapply jroomy_run; eassumption|assumption].
  Qed.
  Lemma after_delim : forall ds r, delim r -> delim (after ds ++ r).
  Proof. intros [|d ds] r H; [exact H|]. cbn. reflexivity. Qed.
  Lemma ahead_snoc : forall init ds d, ahead init ds ++ (if init then [44%N] else match ds with [] => [91%N] | _ => [44%N] end) ++ d = ahead init (ds ++ [d]).
  Proof.
    intros [|] ds d; cbn [ahead].
    - unfold after. rewrite flat_map_app. cbn. rewrite app_nil_r. reflexivity.
    - destruct ds as [|d0 ds]; cbn [app]; [cbn; rewrite app_nil_r; reflexivity|].
      unfold after. rewrite flat_map_app. cbn. rewrite app_nil_r. rewrite <- app_assoc. reflexivity.
  Qed.

  (** Reading the next value. *)
  Lemma body_value : forall v d init k r, fits v d -> delim r ->
    run_pure (read_body N parse_float surrogate fuel (mkJs false init k)) (Live (d ++ r)) =
      (Some (Ok (mkEntry k [] v), mkJs false true (k + 1)), Live r).
  Proof.
    intros v d init k r [w [t [-> [Hw [Ht Hf]]]]] Hr. rewrite <- app_assoc.
    destruct (mo_full _ _ _ _ _ _ _ (array_mode N parse_float surrogate) v t fuel w r k Ht Hf Hw Hr) as [E1 E2].
    destruct init; assumption.
  Qed.
  Lemma fits_head : forall v d, fits v d -> forall A (k : bool -> jprog A) r,
    exists d', fits v d' /\ run_pure (JTok 93 k) (Live (d ++ r)) = run_pure (k false) (Live (d' ++ r)).
  Proof.
    intros v d [w [t [-> [Hw [Ht Hf]]]]] A k r.
    destruct (mo_head _ _ _ _ _ _ _ (array_mode N parse_float surrogate) v t Ht) as [c [t' [-> [C1 C2]]]].
    exists (c :: t'). split; [exists [], (c :: t'); repeat split; try assumption; constructor|].
    rewrite <- app_assoc. cbn [app]. apply tok_no; assumption.
  Qed.
  Lemma take_value : forall init k v d ds r, fits v d -> delim r ->
    run_pure (read_entry (mkJs false init k)) (Live (ahead init (d :: ds) ++ r)) =
      (Some (Ok (mkEntry k [] v), mkJs false true (k + 1)), Live (after ds ++ r)).
  Proof.
    intros [|] k v d ds r Hd Hr.
    - rewrite read_entry_init. change (run_pure (JFill ?p) ?s) with (run_pure p s). cbn [ahead after flat_map app].
      change (44%N :: (d ++ flat_map (fun d => 44%N :: d) ds) ++ r) with ([] ++ 44%N :: (d ++ after ds) ++ r).
      rewrite (tok_no _ (closing false) 44%N _ [] _ ltac:(constructor) eq_refl eq_refl).
      rewrite (tok_yes0 _ 44%N _ _ eq_refl). rewrite <- app_assoc. apply body_value; [assumption|apply after_delim; assumption].
    - rewrite read_entry_first. change (run_pure (JFill ?p) ?s) with (run_pure p s). cbn [ahead app].
      rewrite (tok_yes0 _ 91%N _ _ eq_refl). rewrite <- app_assoc.
      destruct (fits_head v d Hd _ (fun ok : bool => if ok then JRet (Err EOF, mkJs false false k) else read_body N parse_float surrogate fuel (mkJs false false k)) (after ds ++ r)) as [d' [Hd' E]].
      change (closing false) with 93%N. rewrite E. apply body_value; [assumption|apply after_delim; assumption].
  Qed.
  Lemma take_nothing : forall init k, exists x, x <> EOF /\
    run_pure (read_entry (mkJs false init k)) (Live []) = (Some (Err x, mkJs false init k), Live []).
  Proof. intros [|] k; eexists; (split; [|reflexivity]); discriminate. Qed.
  Lemma take_end : forall k, run_pure (read_entry (mkJs false true k)) (Live [93%N]) = (Some (Err EOF, mkJs false true k), Live []).
  Proof. intros k. reflexivity. Qed.
  Lemma take_end_empty : forall k, run_pure (read_entry (mkJs false false k)) (Live [91%N; 93%N]) = (Some (Err EOF, mkJs false false k), Live []).
  Proof. intros k. reflexivity. Qed.

  Lemma at_ease_more : forall cap st s d, at_ease cap st s ->
    at_ease cap (mkJst (more_buf d (j_buf st)) (j_prev st)) (s ++ d).
  Proof.
    intros cap st s d [[H1 H2] [[H3 H4] H5]]. destruct (more_ok cap EOF (j_buf st) d H2 H3) as [M1 [M2 M3]].
    split; [split; assumption|]. split; [split; assumption|]. cbn [j_buf]. rewrite M3, H5. reflexivity.
  Qed.
  Lemma run_reads : forall k init n cap st w, at_ease cap st [] -> spent k (run (mkEb (RJson (mkJs false init n) st) w) (repeat CRead k)).
  Proof.
    induction k as [|k IH]; intros init n cap st w H; cbn [repeat eb_run]; [constructor|].
    unfold eb_call, read_step. cbn [eb_r eb_w]. destruct (take_nothing init n) as [x [Hx E]].
    destruct (read_at_ease cap st _ _ _ _ H E) as [st' [E1 E2]]. rewrite E1. constructor; [assumption|]. eapply IH. eassumption.
  Qed.
  Definition rest (init : bool) (ds : list bytes) : bytes := if init then [93%N] else match ds with [] => [91%N; 93%N] | _ => [93%N] end.
  Lemma run_drain : forall k q ds init n cap st w, Forall2 fits q ds -> at_ease cap st (ahead init ds ++ rest init ds) ->
    drained n q k (run (mkEb (RJson (mkJs false init n) st) w) (repeat CRead k)).
  Proof.
    induction k as [|k IH]; intros q ds init n cap st w HF H; cbn [repeat eb_run]; [constructor|].
    unfold eb_call, read_step. cbn [eb_r eb_w]. destruct HF as [|v d q ds Hv HF].
    - assert (E : run_pure (read_entry (mkJs false init n)) (Live (ahead init [] ++ rest init [])) = (Some (Err EOF, mkJs false init n), Live [])).
      { destruct init; reflexivity. }
      destruct (read_at_ease cap st _ _ _ _ H E) as [st' [E1 E2]]. rewrite E1. constructor. eapply run_reads. eassumption.
    - assert (R : rest init (d :: ds) = [93%N]) by (destruct init; reflexivity). rewrite R in H.
      pose proof (take_value init n v d ds [93%N] Hv eq_refl) as E.
      destruct (read_at_ease cap st _ _ _ _ H E) as [st' [E1 E2]]. rewrite E1. constructor. eapply (IH q ds true); [assumption|]. exact E2.
  Qed.
  (** A value fits if the text the writer makes of it does. *)
  Definition kept_call (c : call) : Prop :=
    match c with
    | CWrite e => (exists v, back (e_val e) v) /\ forall t, marshal N fmt_json [] [] [] (e_val e) = Some t -> (2 * length t <= fuel)%nat
    | CRead => True
    | _ => False
    end.
  Lemma json_queue : forall cs tail cap st init n q ds w, Forall kept_call cs -> tail = [] \/ (exists k, tail = CClose :: repeat CRead k) ->
    at_ease cap st (ahead init ds) -> Forall2 fits q ds ->
    jw_obj w = false -> jw_indent w = [] -> k_plan (jw_sink w) = [] -> (jw_rows w = 0%nat <-> init = false /\ ds = []) ->
    tape back n q (cs ++ tail) (run (mkEb (RJson (mkJs false init n) st) (None, WJson w)) (cs ++ tail)).
  Proof.
    induction cs as [|c cs IH]; intros tail cap st init n q ds w HP HT He HF Ho Hi Hk Hr.
    - cbn [app]. destruct HT as [->|[k ->]]; [constructor|]. cbn [eb_run]. unfold eb_call, close_step. cbn [eb_w eb_r fst snd].
      unfold json_close, pretty. rewrite Ho, Hi.
      assert (R : (if Nat.eqb (jw_rows w) 0 then [91; 93]%N else [93%N]) = rest init ds).
      { unfold rest. destruct (Nat.eqb_spec (jw_rows w) 0) as [Z0|Z0].
        - destruct (proj1 Hr Z0) as [-> ->]. reflexivity.
        - destruct init; [reflexivity|]. destruct ds; [|reflexivity]. exfalso. apply Z0, Hr. auto. }
      assert (G : forall w', jw_sink w' = mkSink (k_out (jw_sink w) ++ rest init ds) [] ->
        tape back n q (CClose :: repeat CRead k) (Closed None :: run (mkEb (feed (skipn (length (sent pack (None, WJson w))) (sent pack (None, WJson w'))) (RJson (mkJs false init n) st)) (None, WJson w')) (repeat CRead k))).
      { intros w' Hw'. apply tp_close. unfold sent, dest_bytes. cbn [fst snd]. rewrite Hw'. cbn [k_out].
        rewrite skipn_app, skipn_all, Nat.sub_diag. cbn [app skipn feed]. eapply run_drain; [eassumption|]. apply at_ease_more. exact He. }
      destruct (Nat.eqb (jw_rows w) 0); unfold sink_write; rewrite Hk; cbn [fst snd]; apply G; cbn [jw_sink]; rewrite <- R; reflexivity.
    - inversion HP as [|? ? Hc HP']; subst. cbn [app eb_run]. destruct c as [e| | |]; [| |contradiction|contradiction].
      + destruct Hc as [[v Hv] Hf]. unfold eb_call, write_step. cbn [eb_w eb_r fst snd].
        pose proof (P_Json.comes_back_fine N fmt_json _ _ Hv) as Hnr.
        pose proof (encode_refused N fmt_json [] (e_val e)) as HR. cbn [encode] in HR.
        destruct (marshal N fmt_json [] [] [] (e_val e)) as [t|] eqn:Et; [|exfalso; apply Hnr, HR; reflexivity].
        assert (Hfit : fits v t).
        { destruct (encode_text N fmt_json parse_float Hfmt [] (e_val e) v t ltac:(constructor) Et Hv) as [w0 [t' [W1 [W2 W3]]]].
          exists w0, t'. repeat split; try assumption. specialize (Hf t eq_refl). rewrite W2, app_length in Hf. lia. }
        set (pre := if Nat.eqb (jw_rows w) 0 then [91%N] else [44%N]).
        assert (E : json_write_entry N fmt_json w e =
          (None, mkJw false [] (S (jw_rows w)) (jw_keys w) (mkSink (k_out (jw_sink w) ++ pre ++ t) []))).
        { unfold json_write_entry, val_bytes, pretty, encode. rewrite Ho, Hi. cbn [negb]. unfold encode. rewrite Et. unfold pre.
          destruct (Nat.eqb (jw_rows w) 0); unfold sink_write; rewrite Hk; cbn [k_plan k_out app]; [|reflexivity].
          rewrite <- app_assoc. reflexivity. }
        rewrite E. unfold sent, dest_bytes. cbn [fst snd jw_sink k_out].
        rewrite skipn_app, skipn_all, Nat.sub_diag. cbn [app skipn feed].
        apply tp_write with (v := v); [assumption|].
        apply (IH tail cap _ init n (q ++ [v]) (ds ++ [t])); try assumption; try reflexivity.
        * rewrite <- ahead_snoc. replace (if init then [44%N] else match ds with [] => [91%N] | _ :: _ => [44%N] end) with pre.
          -- apply at_ease_more. assumption.
          -- unfold pre. destruct (Nat.eqb_spec (jw_rows w) 0) as [Z0|Z0].
             ++ destruct (proj1 Hr Z0) as [-> ->]. reflexivity.
             ++ destruct init; [reflexivity|]. destruct ds; [|reflexivity]. exfalso. apply Z0, Hr. auto.
        * apply Forall2_app; [assumption|]. constructor; [assumption|constructor].
        * cbn [jw_rows]. split; [discriminate|]. intros [_ X]. destruct ds; discriminate.
      + unfold eb_call, read_step. cbn [eb_r eb_w]. destruct HF as [|v d q ds Hv HF].
        * destruct (take_nothing init n) as [x [Hx E]]. assert (A : ahead init [] = []) by (destruct init; reflexivity). rewrite A in He.
          destruct (read_at_ease cap st _ _ _ _ He E) as [st' [E1 E2]]. rewrite E1. apply tp_empty; [assumption|].
          apply (IH tail cap st' init n [] []); try assumption; [|constructor]. rewrite A. assumption.
        * pose proof (take_value init n v d ds [] Hv I) as E. rewrite !app_nil_r in E.
          destruct (read_at_ease cap st _ _ _ _ He E) as [st' [E1 E2]]. rewrite E1. apply tp_take.
          apply (IH tail cap st' true (n + 1)%Z q ds); try assumption.
          split; [intros X; destruct (proj1 Hr X) as [_ X2]; discriminate|intros [X _]; discriminate].
  Qed.
End Json.
