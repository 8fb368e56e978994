(** Readers and writers behind the interfaces, call by call. *)
From Verif Require Import Base M_Bufio L_Bufio M_Sink M_Json M_JsonWrite M_Cbor M_Columns M_Tabular M_CsvText M_Csv M_NDJson M_Xlsx M_Formats
  M_Stream S_Stream L_Stream M_Convert S_Convert.

Section Copying.
  Context {F W : Type}.
  (** Writing until the first refusal. *)
  Fixpoint write_until (wr : writer F W) (w : W) (es : list (entry F)) : W :=
    match es with
    | [] => w
    | e :: r => match wr w e with (None, w') => write_until wr w' r | (Some _, w') => w' end
    end.
  Lemma copy_until : forall S (rd : reader F S) (wr : writer F W) s es e s', yields rd s es e s' -> forall w fuel, (length es < fuel)%nat ->
    exists x s2, copy fuel rd wr s w = (x, s2, write_until wr w es) /\ x <> Panic /\ x <> OutOfFuel.
  Proof.
    induction 1 as [s e s' H|s x s1 es e s' H Hy IH]; intros w fuel Hf; (destruct fuel as [|fuel]; [cbn in Hf; lia|]); cbn [copy]; rewrite H.
    - destruct e; eexists _, _; (split; [reflexivity|split; discriminate]).
    - cbn [write_until]. destruct (wr w x) as [[er|] w'].
      + eexists _, _. split; [reflexivity|]. split; discriminate.
      + apply IH. cbn in Hf. lia.
  Qed.
  Lemma convert_until : forall S (rd : reader F S) (wr : writer F W) close bytes_of s es e s' w limit offset all fuel,
    yields rd s es e s' -> (length es < fuel)%nat ->
    convert_file fuel (Ok w) wr close bytes_of (Ok s) rd limit offset all =
      match close (write_until wr w (chosen all offset limit es)) with
      | (None, w') => Ok (bytes_of w')
      | (Some er, _) => Err (EWrap "error closing row buffer" 0 er)
      end.
  Proof.
    intros S rd wr close bytes_of s es e s' w limit offset all fuel Hy Hf. unfold convert_file, chosen. destruct all.
    - destruct (copy_until S rd wr s es e s' Hy w fuel Hf) as [x [s2 [-> [H1 H2]]]]. destruct x; congruence || reflexivity.
    - destruct (paged_window rd s es e s' limit offset Hy) as [p' [Hp _]].
      destruct (copy_until _ _ wr _ _ _ _ Hp w fuel) as [x [s2 [-> [H1 H2]]]].
      + unfold window. destruct (limit <? 0)%Z; rewrite ?firstn_length, skipn_length; lia.
      + destruct x; congruence || reflexivity.
  Qed.
  Lemma write_until_all : forall (wr : writer F W) w es w', accepts wr w es w' -> write_until wr w es = w'.
  Proof. induction 1 as [w|w x w1 es w' H Ha IH]; [reflexivity|]. cbn. rewrite H. exact IH. Qed.
End Copying.

Section Readers.
  Variable parse_float : bytes -> option N.
  Variable depth : nat.
  Variable surrogate : bytes.
  Variable osize : nat.
  Notation read_step := (read_step parse_float depth surrogate osize).

  Lemma run_json_bind : forall A B (p : jprog A) (f : A -> jprog B) st,
    run_json (jbind p f) st = match run_json p st with Ok (a, st') => run_json (f a) st' | Err e => Err e | Panic => Panic | OutOfFuel => OutOfFuel end.
  Proof.
    intros A B p f. induction p as [a|k IH|ch k IH|tok k IH|k IH|k IH|k IH|k IH]; intros st; cbn [jbind run_json].
    - reflexivity.
    - apply IH.
    - destruct (j_tok ch st) as [[x st']|e| |]; auto.
    - destruct (j_lit tok st) as [[x st']|e| |]; auto.
    - destruct (j_peek st) as [[x st']|e| |]; auto.
    - destruct (j_skip st) as [[x st']|e| |]; auto.
    - destruct (j_str st) as [[x st']|e| |]; auto.
    - destruct (j_num st) as [[x st']|e| |]; auto.
  Qed.
  Lemma json_yields : forall n fuel js st es e st', run_json (read_loop N parse_float surrogate n fuel js) st = Ok ((es, Err e), st') ->
    exists r, yields (read_step fuel) (RJson js st) es e r.
  Proof.
    induction n as [|n IH]; intros fuel js st es e st' H; cbn [read_loop] in H; [discriminate|].
    rewrite run_json_bind in H. destruct (run_json (read_entry N parse_float surrogate fuel js) st) as [[[x js1] st1]|e0| |] eqn:E; try discriminate.
    assert (S : read_step fuel (RJson js st) = (x, RJson js1 st1)) by (cbn [M_Convert.read_step]; rewrite E; reflexivity).
    destruct x as [en|e0| |]; cbn [run_json] in H; try discriminate.
    - rewrite run_json_bind in H. destruct (run_json (read_loop N parse_float surrogate n fuel js1) st1) as [[[es1 x1] st2]|e0| |] eqn:E2; try discriminate.
      cbn [run_json] in H. inversion H; subst. destruct (IH _ _ _ _ _ _ E2) as [r Hr]. exists r. econstructor; eassumption.
    - inversion H; subst. eexists. econstructor. eassumption.
  Qed.
  Lemma run_buf_bind : forall A B (p : sprog unit A) (f : A -> sprog unit B) b,
    run_buf (plain tt (sbind p f)) b = let '(a, b') := run_buf (plain tt p) b in run_buf (plain tt (f a)) b'.
  Proof.
    intros A B p f. induction p as [a|k IH|n k IH|n k IH]; intros b; cbn [sbind plain run_buf].
    - reflexivity.
    - destruct (read_byte b) as [r b']. apply IH.
    - destruct (peek n b) as [[d e] b']. apply IH.
    - apply IH.
  Qed.
  Lemma cbor_yields : forall n fuel obj st b es e b', run_buf (plain tt (cbor_read_loop n fuel obj st)) b = ((es, Err e), b') ->
    exists r, yields (read_step fuel) (RCbor obj st b) (map entry_read es) e r.
  Proof.
    induction n as [|n IH]; intros fuel obj st b es e b' H; cbn [cbor_read_loop] in H; [discriminate|].
    rewrite run_buf_bind in H. destruct (run_buf (plain tt (cbor_read_entry fuel obj st)) b) as [[x st1] b1] eqn:E.
    assert (S : read_step fuel (RCbor obj st b) = (rthen x (fun e => Ok (entry_read e)), RCbor obj st1 b1)) by (cbn [M_Convert.read_step]; rewrite E; reflexivity).
    destruct x as [en|e0| |]; cbn [plain run_buf rthen] in *; try discriminate.
    - rewrite run_buf_bind in H. destruct (run_buf (plain tt (cbor_read_loop n fuel obj st1)) b1) as [[es1 x1] b2] eqn:E2.
      cbn [plain run_buf] in H. inversion H; subst. destruct (IH _ _ _ _ _ _ _ E2) as [r Hr]. exists r. cbn [map]. econstructor; eassumption.
    - inversion H; subst. eexists. econstructor. eassumption.
  Qed.
  Lemma csv_yields : forall fuel c es e rest r, csv_calls N parse_float depth osize (length es + S (length rest)) c r = map (fun x => Ok x) es ++ Err e :: rest ->
    exists r', yields (read_step fuel) (RCsv c r) es e r'.
  Proof.
    intros fuel c es e rest. induction es as [|x es IH]; intros r H; cbn [length Nat.add csv_calls map app] in H;
      destruct (csv_read_entry N parse_float depth osize c r) as [y r1] eqn:E; inversion H as [[H1 H2]]; subst y.
    - eexists. constructor. cbn [M_Convert.read_step]. rewrite E. reflexivity.
    - destruct (IH r1 H2) as [r' Hr]. exists r'. econstructor; [cbn [M_Convert.read_step]; rewrite E; reflexivity|exact Hr].
  Qed.
  Lemma nd_yields : forall fuel es e rest r, nd_calls N parse_float depth (length es + S (length rest)) r = map (fun x => Ok x) es ++ Err e :: rest ->
    exists r', yields (read_step fuel) (RNd r) es e r'.
  Proof.
    intros fuel es e rest. induction es as [|x es IH]; intros r H; cbn [length Nat.add nd_calls map app] in H;
      destruct (nd_read_entry N parse_float depth r) as [y r1] eqn:E; inversion H as [[H1 H2]]; subst y.
    - eexists. constructor. cbn [M_Convert.read_step]. rewrite E. reflexivity.
    - destruct (IH r1 H2) as [r' Hr]. exists r'. econstructor; [cbn [M_Convert.read_step]; rewrite E; reflexivity|exact Hr].
  Qed.
End Readers.

Section Writers.
  Variable fmt_plain : N -> bytes.
  Variable fmt_json : N -> option bytes.
  Variable save : book -> bytes.
  Variables sheet_key keep : bytes -> bytes.
  Variable wsize : nat.
  Notation write_step := (write_step fmt_plain fmt_json sheet_key keep wsize).

  Lemma json_accepts : forall c es w os w', json_write_all N fmt_json w es = (os, w') -> Forall (fun o => o = None) os ->
    accepts write_step (c, WJson w) es (c, WJson w').
  Proof.
    intros c. induction es as [|e es IH]; intros w os w' H Ho; cbn [json_write_all] in H; [inversion H; constructor|].
    destruct (json_write_entry N fmt_json w e) as [o w1] eqn:E. destruct (json_write_all N fmt_json w1 es) as [os1 w2] eqn:E2. inversion H; subst.
    inversion Ho; subst. econstructor; [unfold M_Convert.write_step; cbn [fst snd]; rewrite E; reflexivity|]. eapply IH; eassumption.
  Qed.
  Lemma nd_accepts : forall c es w os w', nd_write_all N fmt_json w es = (os, w') -> Forall (fun o => o = None) os ->
    accepts write_step (c, WNd w) es (c, WNd w').
  Proof.
    intros c. induction es as [|e es IH]; intros w os w' H Ho; cbn [nd_write_all] in H; [inversion H; constructor|].
    destruct (nd_write_entry N fmt_json w e) as [o w1] eqn:E. destruct (nd_write_all N fmt_json w1 es) as [os1 w2] eqn:E2. inversion H; subst.
    inversion Ho; subst. econstructor; [unfold M_Convert.write_step; cbn [fst snd]; rewrite E; reflexivity|]. eapply IH; eassumption.
  Qed.
  Lemma csv_accepts : forall c es w os w', csv_write_entries N fmt_plain fmt_json wsize w es = (os, w') -> Forall (fun o => o = None) os ->
    accepts write_step (c, WCsv w) es (c, WCsv w').
  Proof.
    intros c. induction es as [|e es IH]; intros w os w' H Ho; cbn [csv_write_entries] in H; [inversion H; constructor|].
    destruct (csv_write_entry N fmt_plain fmt_json wsize w e) as [o w1] eqn:E. destruct (csv_write_entries N fmt_plain fmt_json wsize w1 es) as [os1 w2] eqn:E2. inversion H; subst.
    inversion Ho; subst. econstructor; [unfold M_Convert.write_step; cbn [fst snd]; rewrite E; reflexivity|]. eapply IH; eassumption.
  Qed.
  Lemma cbor_array_until : forall c out es arr, write_until write_step (c, WCbor (mkCw false arr []) out) es = (c, WCbor (mkCw false (arr ++ map e_val es) []) out).
  Proof.
    intros c out. induction es as [|e es IH]; intros arr; cbn [write_until map]; [rewrite app_nil_r; reflexivity|].
    replace (write_step (c, WCbor (mkCw false arr []) out) e) with (@None err, (c, WCbor (mkCw false (arr ++ [e_val e]) []) out)) by reflexivity. rewrite IH, <- app_assoc. reflexivity.
  Qed.
End Writers.
