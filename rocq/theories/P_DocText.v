(** C82: components as JSON text.  What json.Marshal writes for a component is a JSON text that decodes to the component
    again, with any blanks between the tokens; equal texts mean equal documents; and what is no JSON is refused. *)
From Coq Require Import ZArith Lia.
From Verif Require Import Base M_Decimal L_Decimal M_Utf8 S_Utf8 L_Utf8 S_JsonText S_JsonBack S_NDJson L_NDJson L_Value M_Time S_Signing M_Hash S_Hash P_Hash M_Doc M_Components L_Components M_Encode S_Encode L_Encode P_Encode M_DocText S_DocText L_DocParse L_DocTime L_DocText L_DocTyped.

(** The reader accepts exactly the JSON texts, and gives the only document that the text stands for. *)
Theorem text_read : forall depth b r, doc_of_text depth b = Ok r <-> dline depth r b.
Proof. exact (fun depth b r => doc_exact depth r b). Qed.
Print Assumptions text_read.
(** A point in time is read from exactly its RFC 3339 texts, and written as one of them to the nanosecond. *)
Theorem time_read : forall s t, parse_time s = Some t <-> exists f zt, time_text t f zt s.
Proof. exact time_iff. Qed.
Print Assumptions time_read.
Theorem time_back_and_forth : forall t, encodable_time t -> utc_text t (rfc3339_nano t) /\ parse_time (rfc3339_nano t) = Some t.
Proof. intros t T. pose proof (time_written t T) as U. split; [exact U|]. destruct U as [f [U _]]. apply time_iff. eauto. Qed.
Print Assumptions time_back_and_forth.
(** What is written is a text of the document. *)
Theorem written_is_text : forall depth d, writable d -> (height d <= depth)%nat -> text_of depth d (doc_text d).
Proof. intros depth d W H. now apply written_text_of. Qed.
Print Assumptions written_is_text.

Lemma of_bytes_ok : forall A depth read (decode : jdoc -> res A) doc t, (forall r, spelled doc r -> read r = doc) -> text_of depth doc t ->
  of_bytes depth read decode t = decode doc.
Proof. intros A depth read decode doc t R (r & S & L). unfold of_bytes. rewrite (proj2 (doc_exact depth r t) L). cbn [rbind]. now rewrite R. Qed.

Lemma ok_inj : forall A (a b : A), Ok a = Ok b -> b = a.
Proof. congruence. Qed.
Section Components.
  Variable renum : bytes -> jdoc.
  Notation dyn := (dynamic renum).
  Lemma str_dyn : forall p b obj d, (if negb (bempty p) && b then Ok (JStr p) else obj) = Ok d -> (forall d, obj = Ok d -> dyn d) -> dyn d.
  Proof. intros p b obj d H O. destruct (negb (bempty p) && b); [injection H as <-; apply dyn_str|auto]. Qed.
  Ltac leaves := repeat apply Forall_cons; cbn [snd];
    try (apply Forall_nil);
    try match goal with |- dyn_opt _ (oe_str _) => apply dyn_oe_str | |- dyn_opt _ (Some (JStr _)) => apply dyn_str | |- dyn_opt _ (always (JStr _)) => apply dyn_str | |- dyn_opt _ (oe_mapv JStr _) => apply dyn_oe_mapv; apply dyn_str end.
  Lemma stats_dyn : forall s d, stats_encode s = Ok d -> Forall dyn (stats_dynamic s) -> dyn d.
  Proof.
    intros s d H D. eapply str_dyn; [exact H|]. intros x X. apply ok_inj in X. subst x. apply dyn_members. inversion D; subst. leaves. now apply dyn_oe_dyn.
  Qed.
  Lemma sc_dyn : forall kind c d, fst (sc_encode kind c) = Ok d -> dyn d.
  Proof.
    intros kind c d H. rewrite sc_encode_fst in H. eapply str_dyn; [exact H|]. intros x X. apply ok_inj in X. subst x. apply dyn_obj.
    assert (P : forall k s m, Forall (fun kv => dyn (snd kv)) m -> Forall (fun kv => dyn (snd kv)) (put_str k s m)).
    { intros k [|c0 s] m M; [exact M|]. apply sub_map_set; [apply dyn_str|exact M]. }
    repeat apply P. constructor; [apply dyn_str|constructor].
  Qed.
  Lemma transform_dyn : forall t d, transform_encode t = Ok d -> Forall dyn (transform_dynamic t) -> dyn d.
  Proof.
    intros t d H D. eapply str_dyn; [exact H|]. intros x X. apply ok_inj in X. subst x. apply dyn_members. unfold transform_dynamic in D. apply Forall_app in D. destruct D as [D1 D2]. leaves.
    - now apply dyn_oe_map.
    - apply dyn_oe_mapv. intros [a|]; [apply dyn_resource|split; exact I].
    - apply dyn_oe_slice. intros [a|] Ha; [|split; exact I]. apply dyn_step. rewrite Forall_forall in D2. apply D2. apply in_flat_map.
      exists (Some a). split; [exact Ha|left; reflexivity].
  Qed.
  Lemma meta_dyn : forall m d, meta_encode m = Ok d -> Forall dyn (meta_dynamic m) -> dyn d.
  Proof.
    intros m d H D. eapply str_dyn; [exact H|]. intros x X. apply ok_inj in X. subst x. apply dyn_obj.
    assert (P : forall l m, Forall (fun ko => dyn_opt renum (snd ko)) l -> Forall (fun kv => dyn (snd kv)) m -> Forall (fun kv => dyn (snd kv)) (put_all l m)).
    { induction l as [|[k o] l IH]; intros m0 L M; [exact M|]. inversion L; subst. unfold put_all. cbn [fold_left fst snd]. apply IH; [assumption|].
      destruct o as [v|]; [|exact M]. cbn [put_opt]. apply sub_map_set; assumption. }
    apply P.
    - assert (A : forall A (enc : A -> jdoc) o, (forall a, dyn (enc a)) -> dyn_opt renum (option_map (enc_list enc) o)).
      { intros A enc [l|] E; [|exact I]. cbn [option_map dyn_opt enc_list]. apply dyn_arr. apply Forall_forall. intros v Hv. apply in_map_iff in Hv. destruct Hv as [a [<- _]]. apply E. }
      unfold meta_fields. leaves.
      + apply A. intros [a|]; [apply dyn_citation|split; exact I].
      + apply A. intros [a|]; [apply dyn_user|split; exact I].
      + apply A. apply dyn_str.
      + apply A. apply dyn_str.
      + destruct (md_license m); [apply dyn_license|exact I].
      + apply A. apply dyn_str.
    - unfold meta_dynamic in D. destruct (md_meta m) as [l|]; [|constructor]. cbn [values] in D. induction l; [constructor|]. inversion D; subst. constructor; auto.
  Qed.
  Lemma commit_reads : forall c d, commit_encode c = Ok d -> legible d -> forall r, spelled d r -> read_commit renum r = d.
  Proof.
    intros c d H L r S. unfold commit_encode, commit_object in H.
    destruct (negb (bempty (cm_path c)) && commit_is_empty c).
    { injection H as <-. inversion S as [| | | |? s' C| | | |]; subst. cbn. f_equal. apply well_formed_same; [exact (proj1 L)|assumption]. }
    destruct (time_encodes (cm_timestamp c)); [|discriminate]. apply ok_inj in H. subst d. apply members_back; [assumption| |assumption].
    apply members_all. repeat apply Forall_cons; cbn [fst snd]; try (apply Forall_nil);
      try match goal with |- match ?o with Some _ => _ | None => _ end =>
        let E := fresh in assert (E : dyn_opt renum o) by (first [apply dyn_oe_str|apply dyn_str|destruct (cm_author c); [apply dyn_user|exact I]]);
        destruct o; [apply dynamic_right; [reflexivity|exact E]|exact I] end.
    - intros _ r' S'. change (route commit_names (bs "timestamp")) with (Some (bs "timestamp")). cbv beta iota.
      change (beqb (bs "timestamp") (bs "timestamp")) with true. cbv iota. now apply time_back.
  Qed.
  Lemma dyn_right : forall names f k o, (match route names k with Some n => f n | None => as_dynamic renum end) = as_dynamic renum ->
    dyn_opt renum o -> match o with Some v => comes_right renum names f k v | None => True end.
  Proof. intros names f k [v|] E D; [|exact I]. now apply dynamic_right. Qed.
  Lemma int_right : forall names f k z, (match route names k with Some n => f n | None => as_dynamic renum end) = as_number renum ->
    match oe_int z with Some v => comes_right renum names f k v | None => True end.
  Proof.
    intros names f k z E. unfold oe_int. destruct (Z.eqb z 0); [exact I|]. intros L r S.
    replace (match route names k with Some n => f n r | None => as_dynamic renum r end)
      with ((match route names k with Some n => f n | None => as_dynamic renum end) r) by (destruct (route names k); reflexivity).
    rewrite E. apply number_back; [exact (proj1 L)|assumption].
  Qed.
  Lemma structure_reads : forall c d, structure_encode c = Ok d -> Forall dyn (structure_dynamic c) -> legible d -> forall r, spelled d r -> read_structure renum r = d.
  Proof.
    intros c d H D L r S. unfold structure_encode, structure_object in H.
    destruct (negb (bempty (st_path c)) && bempty (st_encoding c) && is_nil (st_schema c)).
    { injection H as <-. inversion S as [| | | |? s' C| | | |]; subst. cbn. f_equal. apply well_formed_same; [exact (proj1 L)|assumption]. }
    apply ok_inj in H. subst d. unfold structure_dynamic in D. apply Forall_app in D. destruct D as [D1 D2]. apply members_back; [assumption| |assumption].
    apply members_all. repeat apply Forall_cons; cbn [fst snd]; try (apply Forall_nil); try (apply int_right; reflexivity);
      apply dyn_right; try reflexivity; try apply dyn_oe_str; try apply dyn_str.
    - now apply dyn_oe_map.
    - now apply dyn_oe_map.
    - destruct (st_strict c); [split; exact I|exact I].
  Qed.
  Lemma ptr_dyn : forall A (enc : A -> res jdoc) (dyns : A -> list jdoc) o m, ptr_res enc o = Ok m -> Forall dyn (dynamic_of dyns o) ->
    (forall c d, enc c = Ok d -> Forall dyn (dyns c) -> dyn d) -> dyn_opt renum m.
  Proof.
    intros A enc dyns [a|] m H D E; cbn [ptr_res] in H; [|injection H as <-; exact I]. apply rbind_ok in H. destruct H as [d [H1 H2]]. injection H2 as <-. eapply E; eassumption.
  Qed.
  Lemma dataset_reads : forall c d, dataset_encode c = Ok d -> Forall dyn (dataset_dynamic c) -> legible d -> forall r, spelled d r -> read_dataset renum r = d.
  Proof.
    intros c d H D L r S. unfold dataset_encode in H.
    destruct (negb (bempty (ds_path c)) && dataset_is_empty c).
    { injection H as <-. inversion S as [| | | |? s' C| | | |]; subst. cbn. f_equal. apply well_formed_same; [exact (proj1 L)|assumption]. }
    apply rbind_ok in H. destruct H as (cm & Ecm & H). apply rbind_ok in H. destruct H as (md & Emd & H).
    apply rbind_ok in H. destruct H as (rm & Erm & H). apply rbind_ok in H. destruct H as (st & Est & H).
    apply rbind_ok in H. destruct H as (sa & Esa & H). apply rbind_ok in H. destruct H as (tf & Etf & H).
    apply rbind_ok in H. destruct H as (vz & Evz & H). apply ok_inj in H. subst d.
    unfold dataset_dynamic in D. apply Forall_cons_iff in D. destruct D as [D0 D]. rewrite !Forall_app in D. destruct D as (Dmd & Dst & Dsa & Dtf).
    apply members_back; [assumption| |assumption].
    apply members_all. repeat apply Forall_cons; cbn [fst snd]; try (apply Forall_nil); try (apply int_right; reflexivity);
      try match goal with |- match oe_str _ with Some _ => _ | None => _ end => apply dyn_right; [reflexivity|apply dyn_oe_str] end.
    - apply dyn_right; [reflexivity|now apply dyn_oe_dyn].
    - destruct (ds_body_bytes c) as [[|x b]|]; try exact I. intros _ r' S'. change (route dataset_names (bs "bodyBytes")) with (Some (bs "bodyBytes")). cbv beta iota.
      change (beqb (bs "bodyBytes") (bs "commit")) with false. change (beqb (bs "bodyBytes") (bs "structure")) with false. change (beqb (bs "bodyBytes") (bs "numVersions")) with false.
      change (beqb (bs "bodyBytes") (bs "bodyBytes")) with true. cbv iota. now apply bytes_back.
    - destruct (ds_commit c) as [x|]; cbn [ptr_res] in Ecm; [|injection Ecm as <-; exact I]. apply rbind_ok in Ecm. destruct Ecm as [d [E1 E2]]. injection E2 as <-.
      intros L' r' S'. change (route dataset_names (bs "commit")) with (Some (bs "commit")). cbv beta iota. change (beqb (bs "commit") (bs "commit")) with true. cbv iota.
      eapply commit_reads; eassumption.
    - apply dyn_right; [reflexivity|]. eapply (ptr_dyn _ meta_encode meta_dynamic); [exact Emd|exact Dmd|exact meta_dyn].
    - apply dyn_right; [reflexivity|]. eapply (ptr_dyn _ _ (fun _ => [])); [exact Erm| |intros x d E _; eapply sc_dyn; exact E]. destruct (ds_readme c); constructor.
    - apply dyn_right; [reflexivity|apply dyn_str].
    - destruct (ds_structure c) as [x|]; cbn [ptr_res] in Est; [|injection Est as <-; exact I]. apply rbind_ok in Est. destruct Est as [d [E1 E2]]. injection E2 as <-.
      intros L' r' S'. change (route dataset_names (bs "structure")) with (Some (bs "structure")). cbv beta iota.
      change (beqb (bs "structure") (bs "commit")) with false. change (beqb (bs "structure") (bs "structure")) with true. cbv iota. eapply structure_reads; eassumption.
    - apply dyn_right; [reflexivity|]. eapply (ptr_dyn _ stats_encode stats_dynamic); [exact Esa|exact Dsa|exact stats_dyn].
    - apply dyn_right; [reflexivity|]. eapply (ptr_dyn _ transform_encode transform_dynamic); [exact Etf|exact Dtf|exact transform_dyn].
    - apply dyn_right; [reflexivity|]. eapply (ptr_dyn _ _ (fun _ => [])); [exact Evz| |intros x d E _; eapply sc_dyn; exact E]. destruct (ds_viz c); constructor.
  Qed.
End Components.

(** Each component comes back from every text of the document it is encoded as, whatever the blanks and escapes. *)
Theorem components_survive_text : forall renum depth t doc, legible doc -> text_of depth doc t ->
  (forall c, commit_encode c = Ok doc -> exists c', commit_of_bytes renum depth t = Ok c' /\ commit_comes_back c c') /\
  (forall c, stats_encode c = Ok doc -> Forall (dynamic renum) (stats_dynamic c) -> exists c', stats_of_bytes renum depth t = Ok c' /\ stats_comes_back c c') /\
  (forall c, fst (readme_encode c) = Ok doc -> exists c', readme_of_bytes renum depth t = Ok c' /\ readme_comes_back c c') /\
  (forall c, fst (viz_encode c) = Ok doc -> exists c', viz_of_bytes renum depth t = Ok c' /\ viz_comes_back c c') /\
  (forall c, transform_maps_wf c -> transform_encode c = Ok doc -> Forall (dynamic renum) (transform_dynamic c) ->
     exists c', transform_of_bytes renum depth t = Ok c' /\ transform_comes_back c c') /\
  (forall c, structure_maps_wf c -> structure_encode c = Ok doc -> Forall (dynamic renum) (structure_dynamic c) ->
     exists c', structure_of_bytes renum depth t = Ok c' /\ structure_comes_back c c') /\
  (forall c, meta_wf c -> meta_encode c = Ok doc -> Forall (dynamic renum) (meta_dynamic c) ->
     exists c', meta_of_bytes renum depth t = Ok c' /\ meta_comes_back c c').
Proof.
  intros renum depth t doc L T. split; [|split; [|split; [|split; [|split; [|split]]]]].
  - intros c E. unfold commit_of_bytes. rewrite (of_bytes_ok _ _ _ _ doc); [now apply commit_round_trip| |assumption]. eapply commit_reads; eassumption.
  - intros c E D. unfold stats_of_bytes. rewrite (of_bytes_ok _ _ _ _ doc); [now apply stats_round_trip| |assumption].
    intros r. apply dynamic_back; [assumption|]. eapply stats_dyn; eassumption.
  - intros c E. unfold readme_of_bytes. rewrite (of_bytes_ok _ _ _ _ doc); [now apply readme_round_trip| |assumption].
    intros r. apply dynamic_back; [assumption|]. eapply sc_dyn; eassumption.
  - intros c E. unfold viz_of_bytes. rewrite (of_bytes_ok _ _ _ _ doc); [now apply viz_round_trip| |assumption].
    intros r. apply dynamic_back; [assumption|]. eapply sc_dyn; eassumption.
  - intros c W E D. unfold transform_of_bytes. rewrite (of_bytes_ok _ _ _ _ doc); [now apply transform_round_trip| |assumption].
    intros r. apply dynamic_back; [assumption|]. eapply transform_dyn; eassumption.
  - intros c W E D. unfold structure_of_bytes. rewrite (of_bytes_ok _ _ _ _ doc); [now apply structure_round_trip| |assumption].
    eapply structure_reads; eassumption.
  - intros c W E D. unfold meta_of_bytes. rewrite (of_bytes_ok _ _ _ _ doc); [now apply meta_round_trip| |assumption].
    intros r. apply dynamic_back; [assumption|]. eapply meta_dyn; eassumption.
Qed.
Print Assumptions components_survive_text.
Theorem dataset_survives_text : forall renum depth d doc t, dataset_wf d -> dataset_encode d = Ok doc ->
  legible doc -> Forall (dynamic renum) (dataset_dynamic d) -> text_of depth doc t ->
  exists d', dataset_of_bytes renum depth t = Ok d' /\ dataset_comes_back d d'.
Proof.
  intros renum depth d doc t W E L D T. unfold dataset_of_bytes. rewrite (of_bytes_ok _ _ _ _ doc); [now apply dataset_round_trip| |assumption].
  eapply dataset_reads; eassumption.
Qed.
Print Assumptions dataset_survives_text.
(** The bytes that json.Marshal returns are such a text. *)
Theorem dataset_saved : forall renum depth d doc b, dataset_wf d -> dataset_encode d = Ok doc -> to_bytes dataset_encode d = Ok b ->
  legible doc -> writable doc -> (height doc <= depth)%nat -> Forall (dynamic renum) (dataset_dynamic d) ->
  exists d', dataset_of_bytes renum depth b = Ok d' /\ dataset_comes_back d d'.
Proof.
  intros renum depth d doc b W E B L Wr H D. unfold to_bytes in B. rewrite E in B. apply ok_inj in B. subst b.
  eapply dataset_survives_text; try eassumption. now apply written_text_of.
Qed.
Print Assumptions dataset_saved.

(** Equal texts mean equal documents. *)
Theorem dataset_text_tells : forall renum depth a b da db t,
  dataset_encode a = Ok da -> dataset_encode b = Ok db -> legible da -> legible db ->
  Forall (dynamic renum) (dataset_dynamic a) -> Forall (dynamic renum) (dataset_dynamic b) ->
  text_of depth da t -> text_of depth db t -> da = db.
Proof.
  intros renum depth a b da db t Ea Eb La Lb Da Db (ra & Sa & Ta) (rb & Sb & Tb). assert (ra = rb) by (eapply dline_fun; eassumption). subst rb.
  transitivity (read_dataset renum ra); [symmetry; eapply dataset_reads; eassumption|]. eapply dataset_reads; eassumption.
Qed.
Print Assumptions dataset_text_tells.
(** So structures of equal hash are written as equal documents, unless SHA-256 fails on the two texts. *)
Theorem structure_hash_tells : forall renum a b da db h,
  structure_encode a = Ok da -> structure_encode b = Ok db ->
  legible da -> legible db -> writable da -> writable db ->
  Forall (dynamic renum) (structure_dynamic a) -> Forall (dynamic renum) (structure_dynamic b) ->
  component_hash structure_encode a = Ok h -> component_hash structure_encode b = Ok h ->
  da = db \/ (doc_text da <> doc_text db /\ sha256 (doc_text da) = sha256 (doc_text db)).
Proof.
  intros renum a b da db h Ea Eb La Lb Wa Wb Da Db Ha Hb. unfold component_hash, to_bytes in Ha, Hb. rewrite Ea in Ha. rewrite Eb in Hb. cbn [rbind] in Ha, Hb.
  destruct (json_hash_encoding (Ok (doc_text da)) (Ok (doc_text db)) h Ha Hb) as (ta & tb & [= <-] & [= <-] & S).
  destruct (beqb (doc_text da) (doc_text db)) eqn:Q.
  - left. apply beqb_eq in Q. set (n := Nat.max (height da) (height db)).
    destruct (written_text_of da n Wa ltac:(unfold n; lia)) as (ra & Sa & Ta). destruct (written_text_of db n Wb ltac:(unfold n; lia)) as (rb & Sb & Tb). rewrite <- Q in Tb.
    assert (ra = rb) by (eapply dline_fun; eassumption). subst rb.
    transitivity (read_structure renum ra); [symmetry; eapply structure_reads; eassumption|]. eapply structure_reads; eassumption.
  - right. split; [|exact S]. intros E. rewrite E, (proj2 (beqb_eq _ _) eq_refl) in Q. discriminate.
Qed.
Print Assumptions structure_hash_tells.

(** UnmarshalDataset (and its kin): no error exactly for a dataset and for bytes that decode, and nil without an error
    exactly for the nil pointer; the bytes of a dataset give what the dataset itself gives, as far as it comes back. *)
Theorem unmarshal_anything : forall A (zero : A) decode v,
  (snd (unmarshal_component zero decode v) = None <->
     v <> AOther A /\ forall b, v = ABytes A b -> exists a, decode b = Ok a) /\
  (unmarshal_component zero decode v = (None, None) <-> v = APointer A None) /\
  (fst (unmarshal_component zero decode v) = None -> v = AOther A \/ v = APointer A None).
Proof.
  intros A zero decode v. destruct v as [p|a|b|]; cbn [unmarshal_component].
  - split; [|split].
    + split; [intros _; split; [discriminate|discriminate]|reflexivity].
    + split; congruence.
    + cbn. intros ->. right. reflexivity.
  - split; [|split]; [split; [intros _; split; discriminate|reflexivity]|split; discriminate|discriminate].
  - split; [|split].
    + split.
      * intros H. split; [discriminate|]. intros b' [= <-]. destruct (decode b); try discriminate. eauto.
      * intros [_ H]. destruct (H b eq_refl) as [a ->]. reflexivity.
    + destruct (decode b); split; discriminate.
    + destruct (decode b); discriminate.
  - split; [|split]; [split; [discriminate|intros [H _]; congruence]|split; discriminate|auto].
Qed.
Print Assumptions unmarshal_anything.
Theorem unmarshal_dataset_bytes : forall renum depth zero d doc t, dataset_wf d -> dataset_encode d = Ok doc ->
  legible doc -> Forall (dynamic renum) (dataset_dynamic d) -> text_of depth doc t ->
  exists d', unmarshal_component zero (dataset_of_bytes renum depth) (ABytes dataset t) = (Some d', None) /\ dataset_comes_back d d'.
Proof.
  intros renum depth zero d doc t W E L D T. destruct (dataset_survives_text renum depth d doc t W E L D T) as [d' [E' C]].
  exists d'. split; [|exact C]. cbn [unmarshal_component]. now rewrite E'.
Qed.
Print Assumptions unmarshal_dataset_bytes.
(** Decoding always ends, and fails on everything that is no JSON text or is nested too deep. *)
Theorem no_json_refused : forall A depth read (decode : jdoc -> res A) b, (forall r, ~ dline depth r b) -> exists e, of_bytes depth read decode b = Err e.
Proof. intros A depth read decode b H. destruct (doc_bad depth b H) as [e E]. unfold of_bytes. rewrite E. cbn [rbind]. eauto. Qed.
Print Assumptions no_json_refused.
(** The typed members of an object text are read from nothing but a notation of their value: counts from integers of 64
    bits, timestamps from RFC 3339 texts, body bytes from base 64.  Anything else is refused. *)
Theorem typed_members_read : forall renum depth o t, numeric renum -> dline depth (JObj o) t ->
  (forall c, commit_of_bytes renum depth t = Ok c -> commit_from o c) /\
  (forall s, structure_of_bytes renum depth t = Ok s -> structure_from o s) /\
  (forall d, dataset_of_bytes renum depth t = Ok d -> dataset_from o d).
Proof.
  intros renum depth o t R L. assert (W : raw (JObj o)) by (eapply line_raw, L).
  unfold commit_of_bytes, structure_of_bytes, dataset_of_bytes, of_bytes. rewrite (proj2 (doc_exact depth (JObj o) t) L). cbn [rbind].
  split; [|split]; intros x H; [eapply commit_typed|eapply structure_typed|eapply dataset_typed]; eassumption.
Qed.
Print Assumptions typed_members_read.

(** Not so for texts that are not UTF-8: such bytes come back as U+FFFD. *)
Theorem any_text_survives_refuted : exists c doc c', commit_encode c = Ok doc /\ writable doc /\
  (forall renum, commit_of_bytes renum 10 (doc_text doc) = Ok c') /\ ~ commit_comes_back c c'.
Proof.
  exists (mkCommit None [] [] (bs "cm:0") [] 0 [255%N] []). eexists _, _. split; [reflexivity|]. split.
  { apply every_obj. split; [exact I|]. repeat apply Forall_cons; try apply Forall_nil; (split; [exact I|]); (split; [|exact I]); try exact I.
    unfold encodable_time. cbn. lia. }
  split; [intros renum; vm_compute; reflexivity|]. intros [(H & _)|(_ & H)]; [apply H; reflexivity|]. discriminate.
Qed.
Print Assumptions any_text_survives_refuted.
(** Nor for numbers that float64 changes: a schema keeps only what float64 can hold, while a count is kept exactly. *)
Theorem any_number_survives_refuted : forall renum z z', renum (itoa z) = JInt z' -> z' <> z ->
  let s := mkStructure [] [] 0 [] 0 0 (bs "json") None 0 [] (bs "st:0") (Some [(bs "maximum", JInt z)]) false in
  exists doc s', structure_encode s = Ok doc /\ structure_of_bytes renum 10 (doc_text doc) = Ok s' /\
    st_schema s' = Some [(bs "maximum", JInt z')] /\ ~ structure_comes_back s s'.
Proof.
  intros renum z z' R N s.
  exists (JObj [(bs "format", JStr (bs "json")); (bs "qri", JStr (bs "st:0")); (bs "schema", JObj [(bs "maximum", JInt z)])]).
  eexists. split; [reflexivity|].
  assert (T : doc_of_text 10 (doc_text (JObj [(bs "format", JStr (bs "json")); (bs "qri", JStr (bs "st:0")); (bs "schema", JObj [(bs "maximum", JInt z)])])) =
              Ok (JObj [(bs "format", JStr (bs "json")); (bs "qri", JStr (bs "st:0")); (bs "schema", JObj [(bs "maximum", JReal (itoa z))])])).
  { destruct (written_text_of (JObj [(bs "format", JStr (bs "json")); (bs "qri", JStr (bs "st:0")); (bs "schema", JObj [(bs "maximum", JInt z)])]) 10) as (r & S & L).
    - cbv [writable every fold_right fst snd]. tauto.
    - cbv [height fold_right snd Nat.max]. lia.
    - apply doc_exact in L. rewrite L. f_equal.
      assert (A : forall s s' : bytes, forallb (fun c => (c <? 128)%N) s = true -> cleaned s s' -> s' = s).
      { intros u u' Hu C. apply well_formed_same; [|exact C]. exists u. rewrite forallb_forall in Hu. split.
        - apply Forall_forall. intros c Hc. apply Hu in Hc. unfold scalar. apply N.ltb_lt in Hc. lia.
        - clear C. induction u as [|c u IH]; [reflexivity|]. cbn [flat_map]. rewrite <- IH by (intros x Hx; apply Hu; now right).
          unfold encode_rune. rewrite (Hu c (or_introl eq_refl)). reflexivity. }
      inversion S as [| | | | | | | |? o' F1]; subst. inversion F1 as [|? [k1 v1] ? o2 [K1 V1] F2]; subst. inversion F2 as [|? [k2 v2] ? o3 [K2 V2] F3]; subst.
      inversion F3 as [|? [k3 v3] ? o4 [K3 V3] F4]; subst. inversion F4; subst. cbn [fst snd] in *.
      inversion V1 as [| | | |? ? C1| | | |]; subst. inversion V2 as [| | | |? ? C2| | | |]; subst. inversion V3 as [| | | | | | | |? o5 G1]; subst.
      inversion G1 as [|? [k4 v4] ? o6 [K4 V4] G2]; subst. inversion G2; subst. cbn [fst snd] in *. inversion V4; subst.
      apply A in K1, K2, K3, K4, C1, C2; try reflexivity. congruence. }
  unfold structure_of_bytes, of_bytes. rewrite T. cbn [rbind].
  match goal with |- structure_decode ?x = _ /\ _ => assert (X : x = JObj [(bs "format", JStr (bs "json")); (bs "qri", JStr (bs "st:0")); (bs "schema", JObj [(bs "maximum", JInt z')])]) end.
  { cbn [read_structure on_members map fst snd]. cbn. rewrite R. reflexivity. }
  rewrite X. split; [reflexivity|]. split; [reflexivity|]. intros [(H & _)|(_ & H)]; [apply H; reflexivity|].
  apply (f_equal st_schema) in H. cbn in H. congruence.
Qed.
Print Assumptions any_number_survives_refuted.

(** Concrete cases. *)
Definition ex_commit : commit := mkCommit (Some (mkUser (bs "ann") [] [])) [] [] (bs "cm:0") [] 63713779200250000000 (bs "a<b") [].
Definition ex_saved : dataset := mkDataset None (JArr [JInt 1; JReal (bs "2.5")]) (Some (bs "hi")) [] (Some ex_commit) [] None (bs "cities") [] [] [] [] None 3 (bs "ds:0")
  (Some (mkStructure [] [] 2 [] 0 0 (bs "csv") None 9007199254740993 [] (bs "st:0") (Some [(bs "type", JStr (bs "array"))]) false)) None None None.
Definition ex_doc : jdoc := match dataset_encode ex_saved with Ok d => d | _ => JNull end.
Example dataset_saved_ex :
  dataset_encode ex_saved = Ok ex_doc /\ dataset_wf ex_saved /\ legible ex_doc /\ writable ex_doc /\ (height ex_doc <= 10)%nat /\
  Forall (dynamic (fun l => if beqb l (bs "1") then JInt 1 else JReal l)) (dataset_dynamic ex_saved).
Proof.
  split; [reflexivity|]. split; [repeat constructor|].
  assert (A : forall u, forallb (fun c => (c <? 128)%N) u = true -> well_formed u).
  { intros u Hu. exists u. rewrite forallb_forall in Hu. split.
    - apply Forall_forall. intros c Hc. apply Hu in Hc. unfold scalar. apply N.ltb_lt in Hc. lia.
    - induction u as [|c u IH]; [reflexivity|]. cbn [flat_map]. rewrite <- IH by (intros x Hx; apply Hu; now right).
      unfold encode_rune. rewrite (Hu c (or_introl eq_refl)). reflexivity. }
  split; [|split; [|split]].
  - cbv -[well_formed Z.le Z.lt]. repeat split; try (apply A; reflexivity); try discriminate; try reflexivity.
  - cbv -[strict_number encodable_time bytes_ok]. repeat split; try discriminate; try reflexivity.
    + exists [], [50%N], [46%N; 53%N], []. split; [reflexivity|]. split; [now left|]. split; [right; exists 50%N, []; repeat split; try constructor; lia|].
      split; [|now left]. right. exists [53%N]. repeat split; [discriminate|]. repeat constructor; lia.
    + repeat constructor; lia.
  - vm_compute. lia.
  - repeat apply Forall_cons; try apply Forall_nil; cbv; tauto.
Qed.
Example dataset_saved_text_ex : to_bytes dataset_encode ex_saved = Ok (bs
  "{""body"":[1,2.5],""bodyBytes"":""aGk="",""commit"":{""author"":{""id"":""ann""},""qri"":""cm:0"",""timestamp"":""2020-01-05T00:00:00.25Z"",""title"":""a\u003cb""},""name"":""cities"",""numVersions"":3,""qri"":""ds:0"",""structure"":{""depth"":2,""format"":""csv"",""length"":9007199254740993,""qri"":""st:0"",""schema"":{""type"":""array""}}}").
Proof. vm_compute. reflexivity. Qed.
(** Blanks, escapes, members in any letter case, and a zone. *)
Example commit_text_ex : commit_of_bytes (fun l => JReal l) 10 (bs
  " { ""Title"" : ""a<b"", ""qri"":""cm:0"",
     ""author"":{""id"":""ann""}, ""timestamp"": ""2020-01-05T01:30:00.250+01:30"" } ") = Ok ex_commit.
Proof. vm_compute. reflexivity. Qed.
Example time_read_ex : parse_time (bs "2020-02-29T23:59:59-00:01") = parse_time (bs "2020-03-01T00:00:59Z") /\
  parse_time (bs "2021-02-29T00:00:00Z") = None /\ parse_time (bs "2020-01-01T00:00:00") = None /\ parse_time (bs "0001-01-01T00:00:00.000000001Z") = Some 1%Z.
Proof. vm_compute. repeat split. Qed.
Example unmarshal_anything_ex : unmarshal_component (dataset_ref []) (dataset_of_bytes (fun l => JReal l) 10) (ABytes dataset (bs """/map/Qm""")) = (Some (dataset_ref (bs "/map/Qm")), None) /\
  exists e, unmarshal_component (dataset_ref []) (dataset_of_bytes (fun l => JReal l) 10) (ABytes dataset (bs "{""name"":}")) = (Some (dataset_ref []), Some e).
Proof. split; [reflexivity|]. eexists. vm_compute. reflexivity. Qed.
Example any_number_survives_refuted_ex : exists (renum : bytes -> jdoc) (z z' : Z), renum (itoa z) = JInt z' /\ z' <> z.
Proof. exists (fun _ => JInt 9007199254740992), 9007199254740993%Z, 9007199254740992%Z. split; [reflexivity|discriminate]. Qed.
Example typed_members_read_ex :
  structure_of_bytes (fun l => JReal l) 10 (bs "{""Length"": 1, ""length"" : -0, ""depth"":12}") = Ok (mkStructure [] [] 12 [] 0 0 [] None 0 [] [] None false) /\
  (exists e, structure_of_bytes (fun l => JReal l) 10 (bs "{""length"": 1.5}") = Err e) /\
  (exists e, structure_of_bytes (fun l => JReal l) 10 (bs "{""length"": 9223372036854775808}") = Err e) /\
  (exists e, commit_of_bytes (fun l => JReal l) 10 (bs "{""timestamp"": ""yesterday""}") = Err e) /\
  (exists e, dataset_of_bytes (fun l => JReal l) 10 (bs "{""bodyBytes"": ""aGk""}") = Err e) /\
  (exists d, dataset_of_bytes (fun l => JReal l) 10 (bs "{""bodyBytes"": ""aG\nl=""}") = Ok d /\ ds_body_bytes d = Some (bs "hi")).
Proof. repeat split; try (eexists; vm_compute; try split; reflexivity). Qed.
