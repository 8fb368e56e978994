(** Proofs about EntryBuffer: feeding a reader, and buffers in which nothing is stuck. *)
From Coq Require Import ZArith Lia.
From Verif Require Import Base M_Bufio L_Bufio M_Sink M_Json M_JsonWrite M_Cbor M_Columns M_Tabular M_CsvText M_Csv M_Unmarshal M_NDJson M_Xlsx M_Formats M_Stream M_Convert
  S_JsonText S_JsonBack S_NDJson L_NDJson L_Unmarshal L_UnmarshalInv L_JsonMarshal P_NDJson
  M_EntryBuffer S_EntryBuffer.

(** A buffered reader over a bytes.Buffer that holds no error back. *)
Definition calm (b : bufr) : Prop := b_err b = None /\ s_sched (b_src b) = [].
Lemma calm_new : forall size d e, calm (new_bufr size (mkSrc d e [])).
Proof. split; reflexivity. Qed.
Lemma calm_set : forall b l, calm b -> calm (set_buf b l).
Proof. intros b l H. exact H. Qed.
Lemma calm_clear : forall b, s_sched (b_src b) = [] -> calm (clear_err b).
Proof. intros b H. split; [reflexivity|exact H]. Qed.
Lemma calm_fill : forall b, calm b -> s_sched (b_src (fill b)) = [] /\
  (b_err (fill b) = None \/ b_err (fill b) = Some (s_fin (b_src b)) /\ b_buf (fill b) = b_buf b).
Proof.
  intros b [H1 H2]. unfold fill, src_read, sched_head. destruct (s_rem (b_src b)) eqn:E.
  - cbn. split; [assumption|]. right. rewrite app_nil_r. auto.
  - rewrite H2. cbn [fst snd b_src s_sched b_err b_buf]. split; [reflexivity|]. left. rewrite H1.
    destruct (skipn _ _); reflexivity.
Qed.
Lemma fill_cap : forall b, b_cap (fill b) = b_cap b.
Proof. intros b. unfold fill. destruct (src_read _ _) as [[d e] s]. reflexivity. Qed.
Lemma calm_slice : forall f c b, calm b ->
  let '(o, b') := read_slice f c b in o <> None -> calm b'.
Proof.
  intros f c b H. assert (G : forall f b, s_sched (b_src b) = [] -> 
    (b_err b = None \/ (exists x, b_err b = Some x) /\ index_byte c (b_buf b) = None) ->
    let '(o, b') := read_slice f c b in o <> None -> calm b').
  { clear. induction f as [|f IH]; intros b Hs Hb; cbn [read_slice]; [congruence|].
    destruct (index_byte c (b_buf b)) as [i|] eqn:Ei.
    - intros _. destruct Hb as [Hb|[_ Hb]]; [|discriminate]. split; assumption.
    - destruct (b_err b) as [e|] eqn:Ee.
      + intros _. split; [reflexivity|assumption].
      + destruct (b_cap b <=? buffered b)%nat; [intros _; split; assumption|].
        destruct (calm_fill b (conj Ee Hs)) as [F1 [F2|[F2 F3]]]; apply IH; try assumption; [left; assumption|].
        right. split; [eauto|]. rewrite F3. assumption. }
  destruct H as [H1 H2]. apply G; auto.
Qed.
Lemma calm_read_bytes : forall f c cap fin b, buf_ok cap fin b -> (length (pending b) < f)%nat -> calm b ->
  calm (snd (read_bytes f c b)).
Proof.
  induction f as [|f IH]; intros c cap fin b Hok Hf H; [lia|]. cbn [read_bytes].
  pose proof (read_slice_spec (S (S (b_cap b))) c cap fin b Hok) as Hs. pose proof (calm_slice (S (S (b_cap b))) c b H) as Hc.
  destruct Hok as [Hcap Hok'].
  destruct (read_slice (S (S (b_cap b))) c b) as [o b']. specialize (Hs ltac:(destruct (b_err b); lia)).
  destruct Hs as [H1 H2]. destruct o as [[d|d|d e]|]; [| | |contradiction].
  - cbn [snd]. apply Hc. discriminate.
  - destruct H2 as [Hd [Hne E]].
    assert (Hf2 : (length (pending b') < f)%nat).
    { rewrite E, app_length in Hf. destruct d; [contradiction|]. cbn in Hf. lia. }
    specialize (IH c cap fin b' H1 Hf2 (Hc ltac:(discriminate))). destruct (read_bytes f c b') as [[r|e| |] b2]; exact IH.
  - cbn [snd]. apply Hc. discriminate.
Qed.
Lemma more_ok : forall cap fin b d, buf_ok cap fin b -> calm b ->
  buf_ok cap fin (more_buf d b) /\ calm (more_buf d b) /\ pending (more_buf d b) = pending b ++ d.
Proof.
  intros cap fin b d [H1 [H2 [H3 [H4 H5]]]] [C1 C2]. split; [|split].
  - unfold buf_ok, more_buf, more. cbn. rewrite C1. repeat split; try assumption; discriminate.
  - split; assumption.
  - unfold pending, more_buf, more. cbn. rewrite app_assoc. reflexivity.
Qed.

(** ** NDJSON *)
Section Nd.
  Variable parse_float : bytes -> option N.
  Variable fmt_plain : N -> bytes.
  Variable fmt_json : N -> option bytes.
  Variable depth : nat.
  Variable surrogate : bytes.
  Variable save : book -> bytes.
  Variables sheet_key keep : bytes -> bytes.
  Variables osize wsize : nat.
  Variable pack : bytes -> bytes -> bytes.
  Variable fuel : nat.
  Hypothesis Hfmt : strict_format N fmt_json parse_float.
  Notation run := (eb_run parse_float fmt_plain fmt_json depth surrogate save sheet_key keep osize wsize pack fuel).
  Definition line_keeps (v v' : gval N) : Prop := line_back N parse_float v v' /\ deep N depth v /\ ~ refused N fmt_json v.
  (** Every value written is one that comes back, or one that is refused. *)
  Definition plain_call (c : call) : Prop :=
    match c with CWrite e => refused N fmt_json (e_val e) \/ exists v, line_keeps (e_val e) v | CBytes => False | _ => True end.

  Definition waits (v : gval N) (l : bytes) : Prop := line l /\ sline N parse_float depth v (l ++ [10%N]).

  Lemma nd_take : forall cap r v q l ls, buf_ok cap EOF (nd_buf r) -> calm (nd_buf r) ->
    Forall2 waits (v :: q) (l :: ls) -> pending (nd_buf r) = stream (l :: ls) [] ->
    exists b', nd_read_entry N parse_float depth r = (Ok (mkEntry (Z.of_nat (nd_count r)) [] v), mkNd (S (nd_count r)) b') /\
      buf_ok cap EOF b' /\ calm b' /\ pending b' = stream ls [].
  Proof.
    intros cap r v q l ls Hok Hc HF Hp. inversion HF as [|? ? ? ? [Hl Hv] HF']; subst. unfold nd_read_entry.
    pose proof (read_bytes_spec (S (length (b_buf (nd_buf r)) + length (s_rem (b_src (nd_buf r))))) 10 cap EOF (nd_buf r) Hok) as Hs.
    pose proof (calm_read_bytes (S (length (b_buf (nd_buf r)) + length (s_rem (b_src (nd_buf r))))) 10 cap EOF (nd_buf r) Hok) as Hb.
    destruct (read_bytes _ 10 (nd_buf r)) as [o b']. specialize (Hs ltac:(unfold pending; rewrite app_length; lia)).
    specialize (Hb ltac:(unfold pending; rewrite app_length; lia) Hc). cbn [snd] in Hb.
    assert (E0 : pending (nd_buf r) = l ++ 10%N :: stream ls []).
    { rewrite Hp. unfold stream. cbn [flat_map]. rewrite <- !app_assoc. reflexivity. }
    destruct Hs as [H1 [[a [Ha [E1 ->]]]|[Hn _]]].
    - rewrite E0 in E1. destruct (first_line 10%N l a _ _ Hl Ha E1) as [<- E2].
      rewrite (unmarshal_line N parse_float depth v (l ++ [10%N]) Hv). exists b'. auto.
    - exfalso. apply Hn. rewrite E0. apply in_or_app. right. left. reflexivity.
  Qed.
  Lemma nd_none : forall cap r, buf_ok cap EOF (nd_buf r) -> calm (nd_buf r) -> pending (nd_buf r) = [] ->
    exists b', nd_read_entry N parse_float depth r = (Err EOF, mkNd (nd_count r) b') /\
      buf_ok cap EOF b' /\ calm b' /\ pending b' = [].
  Proof.
    intros cap r Hok Hc Hp. unfold nd_read_entry.
    pose proof (read_bytes_spec (S (length (b_buf (nd_buf r)) + length (s_rem (b_src (nd_buf r))))) 10 cap EOF (nd_buf r) Hok) as Hs.
    pose proof (calm_read_bytes (S (length (b_buf (nd_buf r)) + length (s_rem (b_src (nd_buf r))))) 10 cap EOF (nd_buf r) Hok) as Hb.
    destruct (read_bytes _ 10 (nd_buf r)) as [o b']. specialize (Hs ltac:(unfold pending; rewrite app_length; lia)).
    specialize (Hb ltac:(unfold pending; rewrite app_length; lia) Hc). cbn [snd] in Hb.
    destruct Hs as [H1 [[a [_ [E _]]]|[_ [E ->]]]].
    - rewrite Hp in E. destruct a; discriminate.
    - exists b'. auto.
  Qed.
  Lemma stream_snoc : forall ls l, stream ls [] ++ l ++ [10%N] = stream (ls ++ [l]) [].
  Proof.
    intros ls l. unfold stream. rewrite flat_map_app. cbn [flat_map]. rewrite !app_nil_r. reflexivity.
  Qed.
  Lemma line_waits : forall v v' t, line_keeps v v' -> marshal N fmt_json [] [] [] v = Some t -> waits v' t.
  Proof.
    intros v v' t [Hb [Hd _]] Ht. split.
    - refine (L_NDJson.marshal_line N fmt_json parse_float _ v t Ht). intros f x E. apply strict_number_line. destruct (Hfmt f x E). assumption.
    - exists [], t, [10%N]. split; [constructor|]. split; [constructor; [right; left; reflexivity|constructor]|].
      split; [eapply (marshal_strict N fmt_json); eassumption|reflexivity].
  Qed.

  Lemma nd_queue : forall cs cap r k q ls, Forall plain_call cs -> buf_ok cap EOF (nd_buf r) -> calm (nd_buf r) ->
    Forall2 waits q ls -> pending (nd_buf r) = stream ls [] -> k_plan k = [] ->
    fifo line_keeps (refused N fmt_json) (Z.of_nat (nd_count r)) q cs (run (mkEb (RNd r) (None, WNd (mkNw None k))) cs).
  Proof.
    induction cs as [|c cs IH]; intros cap r k q ls HP Hok Hc HF Hp Hk; [constructor|].
    inversion HP as [|? ? Hpc HP']; subst. cbn [eb_run]. destruct c as [e| | |]; [| | |contradiction].
    - unfold eb_call, write_step. cbn [eb_w eb_r snd fst]. unfold nd_write_entry. cbn [w_err w_sink].
      pose proof (marshal_refused N fmt_json (e_val e) [] [] []) as HR.
      destruct (marshal N fmt_json [] [] [] (e_val e)) as [t|] eqn:Et.
      + unfold sink_write. rewrite Hk. cbn [fst snd sent dest_bytes w_sink k_out].
        rewrite skipn_app, skipn_all, Nat.sub_diag. cbn [app skipn feed].
        destruct Hpc as [Hpc|[v Hv]]; [apply HR in Hpc; discriminate|].
        apply ff_write with (v := v); [assumption|].
        destruct (more_ok cap EOF (nd_buf r) (t ++ [10%N]) Hok Hc) as [M1 [M2 M3]].
        change (nd_count r) with (nd_count (mkNd (nd_count r) (more_buf (t ++ [10%N]) (nd_buf r)))).
        apply (IH cap _ (mkSink (k_out k ++ t ++ [10%N]) []) (q ++ [v]) (ls ++ [t])); try assumption; try reflexivity.
        * apply Forall2_app; [assumption|]. constructor; [|constructor]. eapply line_waits; eassumption.
        * cbn [nd_buf]. rewrite M3, Hp. apply stream_snoc.
      + cbn [fst snd sent dest_bytes w_sink k_out]. rewrite skipn_all. cbn [feed].
        apply ff_refuse; [apply HR; reflexivity|discriminate|].
        destruct (more_ok cap EOF (nd_buf r) [] Hok Hc) as [M1 [M2 M3]].
        change (nd_count r) with (nd_count (mkNd (nd_count r) (more_buf [] (nd_buf r)))).
        apply (IH cap _ _ _ ls); try assumption. cbn [nd_buf]. rewrite M3, app_nil_r. assumption.
    - unfold eb_call, read_step. cbn [eb_w eb_r].
      destruct HF as [|v l q ls Hv HF].
      + destruct (nd_none cap r Hok Hc Hp) as [b' [E [H1 [H2 H3]]]]. rewrite E. apply ff_empty.
        change (nd_count r) with (nd_count (mkNd (nd_count r) b')). apply (IH cap _ _ _ []); try assumption. constructor.
      + destruct (nd_take cap r v q l ls Hok Hc (Forall2_cons _ _ Hv HF) Hp) as [b' [E [H1 [H2 H3]]]]. rewrite E. apply ff_take.
        replace (Z.of_nat (nd_count r) + 1)%Z with (Z.of_nat (nd_count (mkNd (S (nd_count r)) b'))) by (cbn [nd_count]; lia).
        apply (IH cap _ _ _ ls); assumption.
    - unfold eb_call, close_step. cbn [eb_w eb_r snd fst sent dest_bytes w_sink]. rewrite skipn_all. cbn [feed].
      apply ff_close. destruct (more_ok cap EOF (nd_buf r) [] Hok Hc) as [M1 [M2 M3]].
      change (nd_count r) with (nd_count (mkNd (nd_count r) (more_buf [] (nd_buf r)))).
      apply (IH cap _ _ _ ls); try assumption. cbn [nd_buf]. rewrite M3, app_nil_r. assumption.
  Qed.
End Nd.
