(** C57: previews. *)
From Coq Require Import ZArith Lia.
From Verif Require Import Base M_Decimal M_Utf8 M_Sink M_Json M_JsonWrite M_Unmarshal M_Bufio M_Stream S_Stream L_Stream S_Utf8 S_JsonText S_JsonBack S_NDJson
  L_JsonMarshal L_NDJson L_UnmarshalInv M_Validate S_Validate L_ValidateBatch M_Tee S_Tee L_Tee S_Preview L_Preview.
From Verif Require Import M_Components M_Preview.
From Verif Require M_Doc.
Notation length := List.length.

Lemma clip_spec : forall n d, clipped n d (if Nat.leb n (length (firstn n d)) then firstn n d ++ bs "..." else firstn n d).
Proof.
  intros n d. destruct (Nat.leb_spec n (length (firstn n d))) as [H|H]; rewrite firstn_length in H.
  - right. exists (firstn n d), (skipn n d). rewrite firstn_skipn, firstn_length. split; [reflexivity|]. split; [lia|reflexivity].
  - left. split; [lia|apply firstn_all2; lia].
Qed.
Lemma set_text_rest : forall t d, dataset_rest (set_readme_text t d) = dataset_rest d.
Proof. intros t [? ? ? ? ? ? ? ? ? ? ? ? r ? ? ? ? ? ?]. destruct r as [[]|]; reflexivity. Qed.
Lemma limited_content : forall n fuel sizes f d e content o r buf m, delivers file_read f d e -> (n < fuel)%nat ->
  read_all (limit_read (tee_read file_read)) fuel sizes ((f, []), n) = Some (content, o, ((r, buf), m)) ->
  content = firstn n d /\ exists d', d = buf ++ d' /\ delivers file_read r d' e.
Proof.
  intros n fuel sizes f d e content o r buf m Hd Hf E. destruct (read_limited _ file_read sizes fuel n _ [] d e Hd Hf) as [o' [r' [d' [E2 [F [G _]]]]]].
  rewrite E2 in E. inversion E; subst. split; [reflexivity|]. exists d'. auto.
Qed.

(** A readme that can be read far enough. *)
Definition readme_readable (v : viewed) : Prop :=
  match ds_readme (v_ds v), v_readme v with
  | Some _, Some f => exists d e, delivers file_read (pf_content f) d e /\ (e = EOF \/ (readme_shown < length d)%nat)
  | _, _ => True
  end.
Lemma readme_keeps : forall fuel sizes v v', preview_readme fuel sizes v = (Ok tt, v') -> (max_readme < fuel)%nat ->
  v_raw v' = v_raw v /\ v_body v' = v_body v /\ dataset_rest (v_ds v') = dataset_rest (v_ds v) /\
  match ds_readme (v_ds v), v_readme v with
  | Some _, Some f => forall d e, delivers file_read (pf_content f) d e ->
      exists f' c', v_readme v' = Some f' /\ pf_path f' = pf_path f /\ delivers file_read (pf_content f') d e /\
        ds_readme (v_ds v') = Some c' /\ clipped max_readme d (sc_text c')
  | _, _ => v' = v
  end.
Proof.
  intros fuel sizes v v' H Hf. unfold preview_readme in H. destruct (ds_readme (v_ds v)) as [c|] eqn:Ec; [|inversion H; subst; auto].
  destruct (v_readme v) as [f|] eqn:Ef; [|inversion H; subst; auto].
  destruct (read_all _ _ _ _) as [[[content o] [[r buf] n]]|] eqn:E; [|discriminate]. destruct o as [e|]; [discriminate|]. inversion H; subst; clear H.
  cbn [v_raw v_body v_ds v_readme]. split; [reflexivity|]. split; [reflexivity|]. split; [apply set_text_rest|].
  intros d e Hd. destruct (limited_content _ _ _ _ _ _ _ _ _ _ _ Hd Hf E) as [-> [d' [F G]]]. eexists. eexists. split; [reflexivity|]. cbn [pf_path pf_content].
  split; [reflexivity|]. split; [rewrite F; apply delivers_multi; exact G|].
  unfold set_readme_text. cbn [ds_readme]. rewrite Ec. split; [reflexivity|]. cbn [sc_text]. apply clip_spec.
Qed.
Lemma readme_succeeds : forall fuel sizes v, readme_readable v -> (max_readme < fuel)%nat -> exists v', preview_readme fuel sizes v = (Ok tt, v').
Proof.
  intros fuel sizes v H Hf. unfold readme_readable in H. change readme_shown with max_readme in H. unfold preview_readme. destruct (ds_readme (v_ds v)) as [c|]; [|eauto]. destruct (v_readme v) as [f|]; [|eauto].
  destruct H as [d [e [Hd He]]]. destruct (read_limited _ file_read sizes fuel max_readme _ [] d e Hd Hf) as [o [r' [d' [-> [_ [_ [X _]]]]]]].
  destruct X as [->|[_ [X1 X2]]]; [eauto|]. destruct He; [congruence|lia].
Qed.

Lemma reads_then : forall F S (rd : S -> res (entry F) * S) s es s1 e s2, reads rd s es s1 -> rd s1 = (Err e, s2) -> yields rd s es e s2.
Proof. induction 1; intros E; [constructor; exact E|]. econstructor; [eassumption|auto]. Qed.

Section Preview.
  Variables F St : Type.
  Variable fmt_float : F -> option bytes.
  Variable parse_float : bytes -> option F.
  Variable depth : nat.
  Variable schema_of : structure -> option (list (bytes * gval F)).
  Variable open : structure -> prog (res St).
  Variable step : St -> prog (res (entry F) * St).
  Notation create := (create F St fmt_float schema_of open step).
  Notation read_entry := (read_entry F St step).
  Notation convert_body := (convert_body F St fmt_float schema_of open step).

  Lemma convert_keeps : forall fuel st f d e, delivers file_read f d e -> keeps d e (snd (convert_body fuel st f)).
  Proof.
    intros fuel st f d e Hd. assert (K0 : keeps d e (f, [])) by (exists d; auto). unfold M_Preview.convert_body.
    destruct (new_json_buffer F (schema_of st)) as [w|er| |]; [|exact K0|exact K0|exact K0].
    destruct (run_tee _ file_read _ (open st) f []) as [x [E H]]. destruct (H d e Hd) as [d' [-> Hd']]. rewrite E.
    assert (K : keeps (x ++ d') e (snd (run file_read (open st) f), x)) by (exists d'; auto).
    destruct (fst (run file_read (open st) f)) as [s|er| |]; cbn [snd app]; try exact K.
    apply keeps_copy. exact K.
  Qed.
  Lemma body_keeps : forall fuel v v', preview_body F St fmt_float schema_of open step fuel v = (Ok tt, v') ->
    v_ds v' = v_ds v /\ v_readme v' = v_readme v /\
    match v_body v with
    | Some f => (exists raw, v_raw v' = Some raw) /\ exists f', v_body v' = Some f' /\ pf_path f' = pf_path f /\
        pf_size f' = Some (match pf_size f with Some n => n | None => (-1)%Z end) /\
        forall d e, delivers file_read (pf_content f) d e -> delivers file_read (pf_content f') d e
    | None => v' = v
    end.
  Proof.
    intros fuel v v' H. unfold preview_body in H. destruct (v_body v) as [f|] eqn:Ef; [|inversion H; subst; auto].
    destruct (ds_structure (v_ds v)) as [st|] eqn:Es; [|discriminate].
    pose proof (convert_keeps fuel st (pf_content f)) as K. destruct (convert_body fuel st (pf_content f)) as [x [r buf]].
    destruct x as [data|er| |]; inversion H; subst; clear H. cbn [v_ds v_readme v_raw v_body].
    split; [reflexivity|]. split; [reflexivity|]. split; [eauto|]. eexists. split; [reflexivity|]. cbn [pf_path pf_size pf_content].
    split; [reflexivity|]. split; [reflexivity|]. intros d e Hd. destruct (K d e Hd) as [d' [-> H]]. cbn [fst snd] in *. apply delivers_multi. exact H.
  Qed.

  (** A preview that succeeds changes the text of the readme, to the beginning of the readme file, and sets the
      body; nothing else of the dataset.  Both files still deliver all their bytes, and keep their paths. *)
  Theorem preview_keeps : forall fuel sizes v v', create fuel sizes (Some v) = (Ok tt, Some v') -> (readme_shown < fuel)%nat ->
    dataset_rest (v_ds v') = dataset_rest (v_ds v) /\
    match ds_readme (v_ds v), v_readme v with
    | Some _, Some f => forall d e, delivers file_read (pf_content f) d e ->
        exists f' c', v_readme v' = Some f' /\ pf_path f' = pf_path f /\ delivers file_read (pf_content f') d e /\
          ds_readme (v_ds v') = Some c' /\ clipped readme_shown d (sc_text c')
    | _, _ => v_readme v' = v_readme v /\ v_ds v' = v_ds v
    end /\
    match v_body v with
    | Some f => (exists raw, v_raw v' = Some raw) /\ exists f', v_body v' = Some f' /\ pf_path f' = pf_path f /\
        pf_size f' = Some (match pf_size f with Some n => n | None => (-1)%Z end) /\
        forall d e, delivers file_read (pf_content f) d e -> delivers file_read (pf_content f') d e
    | None => v_body v' = None /\ v_raw v' = v_raw v
    end.
  Proof.
    change readme_shown with max_readme. intros fuel sizes v v' H Hf. unfold M_Preview.create in H. destruct (dataset_is_empty (v_ds v)); [discriminate|].
    destruct (preview_readme fuel sizes v) as [[[]|er| |] v1] eqn:E1; try discriminate.
    destruct (preview_body F St fmt_float schema_of open step fuel v1) as [x v2] eqn:E2. inversion H; subst; clear H.
    destruct (readme_keeps _ _ _ _ E1 Hf) as [A1 [A2 [A3 A4]]]. destruct (body_keeps _ _ _ E2) as [B1 [B2 B3]].
    split; [rewrite B1; exact A3|]. split.
    - destruct (ds_readme (v_ds v)) as [c|]; [|subst v1; auto]. destruct (v_readme v) as [f|] eqn:Ef; [|subst v1; rewrite B2; auto].
      rewrite B1, B2. exact A4.
    - rewrite A2 in B3. destruct (v_body v) as [f|] eqn:Eb; [exact B3|]. subst v'. auto.
  Qed.

  (** The body of the preview is a JSON text of the leading entries, as many as 100, that the reader gives and
      that can be written; neither a reading error nor a value without JSON is reported. *)
  Hypothesis floats : strict_format F fmt_float parse_float.
  Lemma leading_copy : forall obj s b es w0, leading (writable F fmt_float obj) 100 (read_entry file_read) s es -> holds F fmt_float obj [] w0 ->
    forall fuel, (length es < fuel)%nat ->
    exists r p w, copy fuel (paged_read (read_entry (tee_read file_read))) (json_write_entry F fmt_float) (mkPaged (fst s, (snd s, b)) max_rows 0) w0 = (r, p, w) /\
      r <> Panic /\ r <> OutOfFuel /\ opened F fmt_float obj es w.
  Proof.
    intros obj s b es w0 [Hw [s' [Hr Hend]]] H0 fuel Hf. destruct (accepts_all F fmt_float parse_float obj es [] w0 H0 Hw) as [w [Ha Hh]]. cbn [app] in Hh.
    destruct (tee_reads F St step s es s' Hr b) as [b' Ht].
    destruct Hend as [Hl|[Hl [[e [s2 He]]|[x [s2 [Hx Hn]]]]]].
    - destruct (paged_limit0 _ _ _ _ Ht max_rows 0%Z ltac:(lia) ltac:(rewrite Hl; reflexivity)) as [p [Hp _]].
      rewrite (copy_all _ _ _ _ _ _ Hp _ _ Ha fuel Hf). eexists. eexists. eexists. split; [reflexivity|]. split; [discriminate|]. split; [discriminate|]. apply holds_opened. exact Hh.
    - assert (Hy : exists s3, yields (read_entry (tee_read file_read)) (fst s, (snd s, b)) es e s3).
      { destruct s' as [s' f']. cbn [fst snd] in Ht. destruct (tee_step F St step s' f' b') as [y [E _]]. rewrite He in E. cbn [fst snd] in E.
        eexists. eapply reads_then; eassumption. }
      destruct Hy as [s3 Hy]. destruct (paged_yields0 _ _ _ _ _ Hy max_rows 0%Z ltac:(lia)) as [p [Hp _]].
      { change (max_rows <? 0)%Z with false. cbv iota. change max_rows with (Z.of_nat 100). lia. }
      rewrite (copy_all _ _ _ _ _ _ Hp _ _ Ha fuel Hf). eexists. eexists. eexists. split; [reflexivity|].
      split; [destruct e; discriminate|]. split; [destruct e; discriminate|]. apply holds_opened. exact Hh.
    - (* the next entry is refused *)
      destruct s' as [s' f']. cbn [fst snd] in Ht. destruct (tee_step F St step s' f' b') as [y [E _]]. rewrite Hx in E. cbn [fst snd] in E.
      pose proof (write_step F fmt_float parse_float obj es w x Hh) as X. destruct (json_write_entry F fmt_float w x) as [[er|] w2] eqn:Ew;
        [|destruct (Hn (holds_writable F fmt_float obj _ _ X))].
      assert (HP : forall a es' a1, reads (read_entry (tee_read file_read)) a es' a1 -> forall lim, (Z.of_nat (length es') < lim)%Z ->
        exists p, reads (paged_read (read_entry (tee_read file_read))) (mkPaged a lim 0) es' p /\ pg_r p = a1 /\ pg_offset p = 0%Z /\ (0 < pg_limit p)%Z).
      { intros a es' a1 H. induction H as [a|a z a2 es' a3 H H1 IH]; intros lim Hlim.
        - eexists. split; [constructor|]. cbn. cbn in Hlim. repeat split. lia.
        - cbn [length] in Hlim. destruct (IH (lim - 1)%Z ltac:(lia)) as [p [P1 P2]]. exists p. split; [|exact P2]. econstructor; [|exact P1].
          unfold paged_read. cbn [pg_offset pg_r pg_limit Z.to_nat paged_skip]. destruct (Z.eqb_spec lim 0); [lia|]. rewrite H. reflexivity. }
      destruct (HP _ _ _ Ht max_rows ltac:(change max_rows with (Z.of_nat 100); lia)) as [[a lim off] [P1 [P2 [P3 P4]]]]. cbn [pg_r pg_offset pg_limit] in *. subst a off.
      rewrite (copy_reject _ _ _ _ _ P1 _ _ Ha x (mkPaged (fst s2, (snd s2, b' ++ y)) (lim - 1) 0) er w2).
      + eexists. eexists. eexists. split; [reflexivity|]. split; [discriminate|]. split; [discriminate|]. eapply refuse_step; eassumption.
      + unfold paged_read. cbn [pg_offset pg_r pg_limit Z.to_nat paged_skip]. destruct (Z.eqb_spec lim 0); [lia|]. rewrite E. reflexivity.
      + exact Ew.
      + exact Hf.
  Qed.

  Theorem preview_shows : forall fuel sizes v st bf obj s f0 es doc,
    dataset_is_empty (v_ds v) = false -> readme_readable v -> ds_structure (v_ds v) = Some st -> v_body v = Some bf ->
    get_top_level_type (schema_of st) = Ok (if obj : bool then bs "object" else bs "array") ->
    run file_read (open st) (pf_content bf) = (Ok s, f0) ->
    leading (writable F fmt_float obj) 100 (read_entry file_read) (s, f0) es ->
    batch_doc F parse_float obj es doc -> shallow F depth es ->
    (readme_shown < fuel)%nat ->
    exists v' text, create fuel sizes (Some v) = (Ok tt, Some v') /\ v_raw v' = Some text /\ unmarshal F parse_float depth text = Ok doc.
  Proof.
    change readme_shown with max_readme. intros fuel sizes v st bf obj s f0 es doc He Hrd Hst Hb Htop Hopen Hlead Hdoc Hsh Hf. unfold M_Preview.create. rewrite He.
    destruct (readme_succeeds fuel sizes v Hrd Hf) as [v1 E1]. rewrite E1. destruct (readme_keeps _ _ _ _ E1 Hf) as [_ [A2 [A3 _]]].
    assert (Hst1 : ds_structure (v_ds v1) = Some st) by (rewrite <- Hst; clear -A3; unfold dataset_rest in A3; congruence).
    unfold preview_body. rewrite A2, Hb, Hst1. unfold M_Preview.convert_body.
    assert (EB : new_json_buffer F (schema_of st) = Ok (new_jwriter obj [] (mkSink [] []))) by (unfold new_json_buffer; rewrite Htop; destruct obj; reflexivity).
    rewrite EB. destruct (run_tee _ file_read _ (open st) (pf_content bf) []) as [x [E _]]. rewrite Hopen in E. cbn [fst snd app] in E. rewrite E.
    assert (Lf : (length es < fuel)%nat).
    { destruct Hlead as [_ [s' [_ HL]]]. assert (length es <= 100)%nat by (destruct HL as [->|[HL _]]; lia). change max_readme with 997%nat in Hf. lia. }
    destruct (leading_copy obj (s, f0) x es _ Hlead (holds_new F fmt_float obj) fuel Lf) as [r [p [w [EC [R1 [R2 Hop]]]]]].
    cbn [fst snd] in EC. destruct (close_doc F fmt_float parse_float depth floats obj es w doc Hop Hdoc Hsh) as [w' [Ec Hu]].
    assert (EV : convert_file fuel (Ok (new_jwriter obj [] (mkSink [] []))) (json_write_entry F fmt_float) (json_close None) (fun w => k_out (jw_sink w))
      (Ok (s, (f0, x))) (read_entry (tee_read file_read)) max_rows 0 false = Ok (k_out (jw_sink w'))).
    { unfold convert_file. rewrite EC, Ec. destruct r; congruence || reflexivity. }
    rewrite EV. destruct (snd (pg_r (snd (fst _)))) as [r' buf]. eexists. eexists. split; [reflexivity|]. split; [reflexivity|exact Hu].
  Qed.

  (** When there is no preview: no dataset, an empty one, a readme that breaks off too early.  A body without a
      structure is a panic. *)
  Theorem preview_refuses : forall fuel sizes, (readme_shown < fuel)%nat ->
    (exists e, create fuel sizes None = (Err e, None)) /\
    (forall v, dataset_is_empty (v_ds v) = true -> exists e, create fuel sizes (Some v) = (Err e, Some v)) /\
    (forall v c f d e, dataset_is_empty (v_ds v) = false -> ds_readme (v_ds v) = Some c -> v_readme v = Some f ->
       delivers file_read (pf_content f) d e -> e <> EOF -> (length d < readme_shown)%nat -> exists v', create fuel sizes (Some v) = (Err e, Some v')) /\
    (forall v f, dataset_is_empty (v_ds v) = false -> readme_readable v -> v_body v = Some f -> ds_structure (v_ds v) = None ->
       exists v', create fuel sizes (Some v) = (Panic, Some v')).
  Proof.
    change readme_shown with max_readme. intros fuel sizes Hf. split; [eexists; reflexivity|]. split; [intros v H; unfold M_Preview.create; rewrite H; eauto|]. split.
    - intros v c f d e He Hc Hr Hd Hn Hl. unfold M_Preview.create, preview_readme. rewrite He, Hc, Hr.
      destruct (read_limited _ file_read sizes fuel max_readme _ [] d e Hd Hf) as [o [r' [d' [-> [_ [_ [_ X]]]]]]]. rewrite (X Hl Hn). eauto.
    - intros v f He Hr Hb Hs. unfold M_Preview.create. rewrite He. destruct (readme_succeeds fuel sizes v Hr Hf) as [v1 E1]. rewrite E1.
      destruct (readme_keeps _ _ _ _ E1 Hf) as [_ [A2 [A3 _]]].
      assert (Hs1 : ds_structure (v_ds v1) = None) by (rewrite <- Hs; clear -A3; unfold dataset_rest in A3; congruence).
      unfold preview_body. rewrite A2, Hb, Hs1. eauto.
  Qed.
End Preview.
Print Assumptions preview_keeps.
Print Assumptions preview_shows.
Print Assumptions preview_refuses.

(** A reader of one byte per entry, and a dataset with a readme and a body. *)
Definition byte_step (_ : unit) : prog (res (entry unit) * unit) :=
  Read 1 (fun d o => match d, o with
                     | c :: _, _ => Ret (Ok (mkEntry 0 [] (VStr [c])), tt)
                     | [], Some e => Ret (Err e, tt)
                     | [], None => Ret (Err EOF, tt)
                     end).
Definition text_ds : dataset := mkDataset None M_Doc.JNull None [] None [] None (bs "name") [] [] [] []
  (Some (sc_ref (bs "readme"))) 0 [] (Some (structure_ref [])) None None None.
Definition text_view (readme body : src) : viewed :=
  mkViewed text_ds None (Some (mkPfile (bs "readme.md") None (FSrc readme))) (Some (mkPfile (bs "body") (Some 3%Z) (FSrc body))).
Definition text_create (v : viewed) := create unit unit (fun _ => None) (fun _ => Some [(bs "type", VStr (bs "array"))]) (fun _ => Ret (Ok tt)) byte_step 998 (fun _ => 511%nat) (Some v).
Definition no_source (d : bytes) (e : err) : src := mkSrc d e [].

(** A reading error of the body is not reported: the preview shows what came before it. *)
Theorem preview_reports_errors_refuted : exists v v', text_create v = (Ok tt, Some v') /\ v_raw v' = Some (bs "[""a"",""b"",""c""]") /\
  exists f, v_body v = Some f /\ delivers file_read (pf_content f) (bs "abc") (EMsg "disk error").
Proof.
  exists (text_view (no_source (bs "hello") EOF) (no_source (bs "abc") (EMsg "disk error"))). eexists. split; [vm_compute; reflexivity|]. split; [reflexivity|].
  eexists. split; [reflexivity|]. exact (delivers_src (no_source (bs "abc") (EMsg "disk error"))).
Qed.
Print Assumptions preview_reports_errors_refuted.
(** When there is no preview, the readme file of the dataset passed in has lost its bytes. *)
Theorem preview_failure_keeps_refuted : exists v v' e f f', text_create v = (Err e, Some v') /\ v_readme v = Some f /\ v_readme v' = Some f' /\
  delivers file_read (pf_content f) (bs "hello") e /\ ~ delivers file_read (pf_content f') (bs "hello") e.
Proof.
  exists (text_view (no_source (bs "hello") (EMsg "disk error")) (no_source (bs "abc") EOF)). eexists. exists (EMsg "disk error"). eexists. eexists.
  split; [vm_compute; reflexivity|]. split; [reflexivity|]. split; [reflexivity|]. split; [exact (delivers_src (no_source (bs "hello") (EMsg "disk error")))|].
  intros H. destruct (delivers_step _ _ _ _ _ H 1 _ _ _ eq_refl) as [d' [A [_ [[[B _]|[_ B]] _]]]]; [discriminate B|]. subst d'. discriminate A.
Qed.
Print Assumptions preview_failure_keeps_refuted.

(** Example: files that are read in pieces, the last together with the end. *)
Example preview_ex : exists v', text_create (text_view (mkSrc (bs "# hi") EOF [(1%nat, false); (0%nat, false); (5%nat, true)]) (mkSrc (bs "abc") EOF [(0%nat, false)])) = (Ok tt, Some v') /\
  option_map sc_text (ds_readme (v_ds v')) = Some (bs "# hi") /\ v_raw v' = Some (bs "[""a"",""b"",""c""]") /\
  option_map pf_size (v_body v') = Some (Some 3%Z).
Proof. eexists. split; [vm_compute; reflexivity|]. repeat split; reflexivity. Qed.
Example preview_long_ex : exists v' c, text_create (text_view (no_source (repeat 120%N 1200) EOF) (no_source (repeat 120%N 150) EOF)) = (Ok tt, Some v') /\
  ds_readme (v_ds v') = Some c /\ length (sc_text c) = 1000%nat /\ option_map (@length N) (v_raw v') = Some (1 + 4 * 100)%nat.
Proof. eexists. eexists. split; [vm_compute; reflexivity|]. repeat split; vm_compute; reflexivity. Qed.
Example leading_ex : leading (writable unit (fun _ => None) false) 100 (read_entry unit unit byte_step file_read) (tt, FSrc (no_source (bs "ab") EOF))
  [mkEntry 0 [] (VStr (bs "a")); mkEntry 0 [] (VStr (bs "b"))].
Proof.
  split; [split; [repeat constructor; intros X; inversion X|discriminate]|]. eexists. split; [repeat (econstructor; [reflexivity|]); constructor|].
  right. split; [cbn; lia|]. left. eexists. eexists. reflexivity.
Qed.
