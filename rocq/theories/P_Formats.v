(** C43-C46: kinds, format names, option maps, file names. *)
From Verif Require Import Base M_Formats S_Formats.

(** ** C43 *)
Theorem kind_valid_safe : forall old s k, kind_unmarshal old (Ok s) = (k, Ok tt) ->
  k = s /\ (4 <= length k)%nat /\
  exists t c v, kind_type k = Ok t /\ kind_version k = Ok v /\ length t = 2%nat /\ v <> [] /\ k = t ++ c :: v.
Proof.
  intros old s k H. simpl in H. injection H as <- H. split; [reflexivity|].
  unfold kind_valid in H. destruct (Nat.ltb_spec (length s) 4) as [|L]; [discriminate|]. split; [exact L|].
  destruct s as [|a [|b [|c [|d s]]]]; simpl in L; try lia.
  exists [a; b], c, (d :: s). unfold kind_type, kind_version, slice_to, slice_from. simpl.
  repeat split; congruence.
Qed.
Print Assumptions kind_valid_safe.
Example kind_valid_safe_ex : kind_unmarshal [] (Ok (bs "ds:0")) = (bs "ds:0", Ok tt).
Proof. reflexivity. Qed.

(** A failed decode still replaces the receiver by a kind on which Version can panic. *)
Theorem kind_failed_decode_keeps_value_refuted : exists old s k e,
  kind_unmarshal old (Ok s) = (k, Err e) /\ k <> old /\ kind_version k = Panic.
Proof. exists (bs "ds:0"), (bs "ds"), (bs "ds"), (EMsg "invalid kind"). repeat split; discriminate. Qed.
Print Assumptions kind_failed_decode_keeps_value_refuted.

(** Validity does not imply the documented form [type]:[version]. *)
Theorem kind_valid_has_colon_refuted : exists k t c v, kind_valid k = Ok tt /\ kind_type k = Ok t /\
  kind_version k = Ok v /\ k = t ++ c :: v /\ [c] <> bs ":".
Proof. exists (bs "abcd"), (bs "ab"), 99%N, (bs "d"). repeat split; discriminate. Qed.
Print Assumptions kind_valid_has_colon_refuted.

Theorem kind_type_panics_iff : forall k, (kind_type k = Panic <-> (length k < 2)%nat) /\
  (kind_version k = Panic <-> (length k < 3)%nat).
Proof.
  intros k. unfold kind_type, kind_version, slice_to, slice_from.
  destruct (Nat.leb_spec 2 (length k)), (Nat.leb_spec 3 (length k)); split; split; intros; try discriminate; try lia; auto.
Qed.
Print Assumptions kind_type_panics_iff.
Example kind_type_panics_iff_ex : kind_type (bs "d") = Panic /\ kind_version (bs "ds:") = Ok [].
Proof. split; reflexivity. Qed.

Theorem component_prefix_injective : forall k a b p, component_type_prefix k a = Ok p ->
  component_type_prefix k b = Ok p -> a = b.
Proof.
  intros k a b p. unfold component_type_prefix. destruct (kind_type k) as [t| | |]; try discriminate.
  intros H1 H2. rewrite <- H1 in H2. injection H2 as H2. apply app_inv_head in H2. now injection H2.
Qed.
Print Assumptions component_prefix_injective.
(** Prefixes of kinds of different type differ whatever the texts. *)
Theorem component_prefix_separates : forall k k' a b p, component_type_prefix k a = Ok p ->
  component_type_prefix k' b = Ok p -> kind_type k = kind_type k' /\ a = b.
Proof.
  intros k k' a b p. unfold component_type_prefix, kind_type, slice_to.
  destruct (Nat.leb_spec 2 (length k)); try discriminate. destruct (Nat.leb_spec 2 (length k')); try discriminate.
  intros H1 H2. rewrite <- H1 in H2. injection H2 as H2.
  assert (L : length (firstn 2 k) = length (firstn 2 k')) by (rewrite !firstn_length; lia).
  destruct k as [|x [|y k]]; simpl in *; try lia. destruct k' as [|x' [|y' k']]; simpl in *; try lia.
  injection H2 as -> -> ->. auto.
Qed.
Print Assumptions component_prefix_separates.
Example component_prefix_ex : component_type_prefix (bs "ds:0") (bs "hello") = Ok (bs "ds:hello").
Proof. reflexivity. Qed.

(** ** C44 *)
Lemma alookup_In : forall A (eqb : A -> A -> bool) B (l : list (A * B)) k v,
  (forall a b, eqb a b = true -> a = b) -> alookup eqb k l = Some v -> In (k, v) l.
Proof.
  induction l as [|[k' v'] l IH]; simpl; intros k v He H; [discriminate|].
  destruct (eqb k k') eqn:E; [left; apply He in E; congruence|right; auto].
Qed.

Theorem data_format_accepts_exactly : forall s f, parse_data_format s = Ok f <-> accepted_name s f.
Proof.
  intros s f. split.
  - unfold parse_data_format. destruct (alookup beqb s parse_names) eqn:E; [|discriminate].
    intros H. injection H as ->. apply alookup_In in E; [|intros; now apply beqb_eq].
    unfold accepted_name, format_name.
    repeat (destruct E as [E|E]; [injection E as <- <-; first [solve [eexists; split; [|left; reflexivity]; tauto] | solve [eexists; split; [|right; split; [|reflexivity]; discriminate]; tauto]]|]).
    destruct E.
  - intros (n & Hn & Hs). unfold format_name in Hn.
    assert (C : n = bs "" \/ n <> []) by (destruct n; [left; reflexivity|right; discriminate]).
    repeat match goal with H : _ \/ _ |- _ => destruct H | H : _ /\ _ |- _ => destruct H end;
      subst; try reflexivity; try congruence; try discriminate;
      exfalso; match goal with H : bs "" <> [] |- _ => apply H; reflexivity end.
Qed.
Print Assumptions data_format_accepts_exactly.
Example data_format_accepts_exactly_ex : accepted_name (bs ".jsonl") fNDJSON.
Proof. exists (bs "jsonl"). split; [right; auto|right; split; [discriminate|reflexivity]]. Qed.

Theorem data_format_parse_string : forall f n, format_name f n ->
  format_string f = n /\ parse_data_format (format_string f) = Ok f.
Proof.
  intros f n H. unfold format_name in H.
  repeat (destruct H as [[-> ->]|H]; [split; reflexivity|]). destruct H as [-> ->]; split; reflexivity.
Qed.
Print Assumptions data_format_parse_string.
Example data_format_parse_string_ex : format_name fCBOR (bs "cbor").
Proof. unfold format_name. tauto. Qed.

Theorem data_format_string_injective : forall f g n, format_name f n -> format_name g n -> f = g.
Proof.
  intros f g n Hf Hg. destruct (data_format_parse_string _ _ Hf) as [E1 P1].
  destruct (data_format_parse_string _ _ Hg) as [E2 P2]. rewrite E1 in P1. rewrite E2 in P2. congruence.
Qed.
Print Assumptions data_format_string_injective.

(** JSON: what MarshalJSON puts between its quotes decodes to the same format; unknown cannot be encoded. *)
Theorem data_format_json : forall f n old, format_name f n ->
  (f = fUnknown -> exists e, format_marshal f = Err e) /\
  (f <> fUnknown -> format_marshal f = Ok (cQUOTE :: n ++ [cQUOTE]) /\ format_unmarshal old (Ok n) = (f, Ok tt)).
Proof.
  intros f n old H. destruct (data_format_parse_string _ _ H) as [E P]. unfold format_marshal. split.
  - intros ->. eexists. reflexivity.
  - intros Hf. destruct (Z.eqb_spec f fUnknown); [congruence|]. rewrite E in *. split; [reflexivity|].
    unfold format_unmarshal. now rewrite P.
Qed.
Print Assumptions data_format_json.
Example data_format_json_ex : format_marshal fXLSX = Ok (cQUOTE :: bs "xlsx" ++ [cQUOTE]).
Proof. reflexivity. Qed.

(** A failed decode leaves the receiver alone. *)
Theorem data_format_failed_decode : forall old d f e, format_unmarshal old d = (f, Err e) -> f = old.
Proof.
  intros old d f e. unfold format_unmarshal. destruct d; try congruence.
  destruct (parse_data_format a); congruence.
Qed.
Print Assumptions data_format_failed_decode.
Example data_format_failed_decode_ex : exists e, format_unmarshal fCSV (Ok (bs "nope")) = (fCSV, Err e).
Proof. eexists. reflexivity. Qed.

(** Values outside the declared constants encode without error and come back as unknown. *)
Theorem data_format_out_of_range_refuted : exists f s, f <> fUnknown /\ format_marshal f = Ok (cQUOTE :: s ++ [cQUOTE]) /\
  format_unmarshal f (Ok s) = (fUnknown, Ok tt).
Proof. exists 7%Z, []. repeat split; discriminate. Qed.
Print Assumptions data_format_out_of_range_refuted.

(** ** C45 *)
Theorem csv_options_round_trip_iff : forall F (o : csv_options),
  new_csv_options (@csv_options_map F (Some o)) = Ok o <-> csv_sep o = 0%Z.
Proof.
  intros F [h lq sep vf]. unfold csv_options_map. cbn [csv_sep csv_header csv_lazy csv_variadic].
  destruct (Z.eqb_spec sep 0) as [->|Hs].
  - split; [reflexivity|]. destruct h, lq, vf; reflexivity.
  - split; [|congruence]. destruct h, lq, vf; discriminate.
Qed.
Print Assumptions csv_options_round_trip_iff.
Example csv_options_round_trip_ex : new_csv_options (@csv_options_map Z (Some (mkCSV true false 0 true))) = Ok (mkCSV true false 0 true).
Proof. reflexivity. Qed.

Theorem csv_options_separator_round_trip_refuted : exists o e,
  new_csv_options (@csv_options_map Z (Some o)) = Err e.
Proof. exists (mkCSV true false 59 false). eexists. reflexivity. Qed.
Print Assumptions csv_options_separator_round_trip_refuted.

Theorem csv_options_accepts_iff : forall F (m : list (bytes * gval F)),
  (exists o, new_csv_options (Some m) = Ok o) <-> csv_map_well_typed m.
Proof.
  intros F m. unfold new_csv_options, csv_map_well_typed, opt_bool, opt_sep, opt_get, is_bool_or_unset, is_char_or_unset.
  split.
  - intros [o H].
    destruct (map_get (bs "headerRow") m) as [[| | | | | | |]|];
    destruct (map_get (bs "lazyQuotes") m) as [[| | | | | | |]|]; try discriminate H;
    destruct (map_get (bs "separator") m) as [[| | | |[|c [|]]| | |]|]; try discriminate H;
    destruct (map_get (bs "variadicFields") m) as [[| | | | | | |]|]; try discriminate H;
    repeat split; eauto 6.
  - intros (H1 & H2 & H3 & H4).
    repeat match goal with H : _ \/ _ |- _ => destruct H | H : exists _, _ |- _ => destruct H end;
    repeat match goal with H : map_get _ _ = _ |- _ => rewrite H; clear H end; eauto.
Qed.
Print Assumptions csv_options_accepts_iff.
Example csv_options_accepts_iff_ex : csv_map_well_typed (F:=Z) [(bs "headerRow", VBool true); (bs "separator", VStr (bs ";"))].
Proof.
  split; [|split; [|split]]; [right; right; eexists; reflexivity|left; reflexivity|left; reflexivity|].
  right; right; eexists; reflexivity.
Qed.

(** And the decoded options say what the map says. *)
Theorem csv_options_values : forall F (m : list (bytes * gval F)) o, new_csv_options (Some m) = Ok o ->
  (csv_header o = true <-> says_true (bs "headerRow") m) /\ (csv_lazy o = true <-> says_true (bs "lazyQuotes") m) /\
  (csv_variadic o = true <-> says_true (bs "variadicFields") m) /\
  (forall c, (c <> 0)%N -> (csv_sep o = Z.of_N c <-> map_get (bs "separator") m = Some (VStr [c]))).
Proof.
  intros F m o H. unfold new_csv_options, opt_bool, opt_sep, opt_get in H. unfold says_true.
  destruct (map_get (bs "headerRow") m) as [[| | | | | | |]|];
  destruct (map_get (bs "lazyQuotes") m) as [[| | | | | | |]|]; try discriminate H;
  destruct (map_get (bs "separator") m) as [[| | | |[|c' [|]]| | |]|]; try discriminate H;
  destruct (map_get (bs "variadicFields") m) as [[| | | | | | |]|]; try discriminate H;
  injection H as <-; cbn [csv_header csv_lazy csv_variadic csv_sep];
  (split; [split; congruence|]; split; [split; congruence|]; split; [split; congruence|];
   intros c Hc; split; intros E; try congruence; try lia; try (apply N2Z.inj in E; subst; reflexivity);
   try (injection E as ->; reflexivity)).
Qed.
Print Assumptions csv_options_values.
Example csv_options_values_ex : new_csv_options (Some [(bs "headerRow", @VBool Z true); (bs "separator", VStr (bs ";"))])
  = Ok (mkCSV true false 59 false).
Proof. reflexivity. Qed.

Theorem xlsx_options_round_trip : forall F s, new_xlsx_options (@xlsx_options_map F (Some s)) = Ok s.
Proof.
  intros F s. unfold xlsx_options_map. destruct (beqb_spec s []); [subst; reflexivity|].
  unfold new_xlsx_options, opt_get. now rewrite map_get_set_eq.
Qed.
Print Assumptions xlsx_options_round_trip.
Example xlsx_options_round_trip_ex : new_xlsx_options (@xlsx_options_map Z (Some (bs "Sheet1"))) = Ok (bs "Sheet1").
Proof. reflexivity. Qed.

Theorem json_options_round_trip : forall F (m : list (bytes * gval F)),
  json_options_map (Some (new_json_options (Some m))) = m /\ json_options_map (Some (new_json_options (@None (list (bytes * gval F))))) = [].
Proof. intros. split; reflexivity. Qed.
Print Assumptions json_options_round_trip.

(** Only CSV, JSON and XLSX have a configuration. *)
Theorem format_config_formats : forall F f (m : option (list (bytes * gval F))),
  f <> fCSV -> f <> fJSON -> f <> fXLSX -> exists e, parse_format_config_map f m = Err e.
Proof.
  intros F f m H1 H2 H3. unfold parse_format_config_map.
  destruct (Z.eqb_spec f fCSV); [congruence|]. destruct (Z.eqb_spec f fJSON); [congruence|].
  destruct (Z.eqb_spec f fXLSX); [congruence|]. eauto.
Qed.
Print Assumptions format_config_formats.
Example format_config_formats_ex : fCBOR <> fCSV /\ fCBOR <> fJSON /\ fCBOR <> fXLSX.
Proof. repeat split; discriminate. Qed.

(** ** C46 *)
Definition no_dot_slash (s : bytes) : Prop := forall c, In c s -> c <> cDOT /\ c <> 47%N.

Lemma ext_scan_app : forall t acc r, no_dot_slash t -> ext_scan (rev t ++ cDOT :: r) acc = cDOT :: t ++ acc.
Proof.
  induction t as [|c t IH] using rev_ind; intros acc r H; [reflexivity|].
  rewrite rev_app_distr. simpl.
  assert (c <> cDOT /\ c <> 47%N) as [H1 H2] by (apply H; apply in_or_app; right; left; reflexivity).
  destruct (N.eqb_spec c 47); [congruence|]. destruct (N.eqb_spec c cDOT); [congruence|].
  rewrite IH; [now rewrite <- app_assoc|]. intros d Hd. apply H. apply in_or_app. auto.
Qed.

Lemma filepath_ext_app : forall base t, no_dot_slash t -> filepath_ext (base ++ cDOT :: t) = cDOT :: t.
Proof.
  intros. unfold filepath_ext. rewrite rev_app_distr. simpl. rewrite <- app_assoc. simpl.
  rewrite ext_scan_app by assumption. now rewrite app_nil_r.
Qed.

Lemma trim_suffix_app : forall a b, trim_suffix (a ++ b) b = a.
Proof.
  intros a b. unfold trim_suffix. rewrite app_length.
  replace (length a + length b - length b)%nat with (length a) by lia.
  rewrite skipn_app, skipn_all, Nat.sub_diag. simpl. rewrite beqb_refl.
  rewrite (proj2 (Nat.leb_le _ _)) by lia. simpl.
  rewrite firstn_app, firstn_all, Nat.sub_diag. simpl. apply app_nil_r.
Qed.

Lemma no_dot_slash_dec : forall s, forallb (fun c => negb (N.eqb c cDOT) && negb (N.eqb c 47)) s = true -> no_dot_slash s.
Proof.
  intros s H c Hc. rewrite forallb_forall in H. specialize (H c Hc). apply andb_prop in H as [A B].
  apply negb_true_iff in A, B. apply N.eqb_neq in A, B. auto.
Qed.

(** A file name built from a structure is read back as the structure's format and compression. *)
Theorem filename_round_trip : forall base s f comp c, s <> [] -> accepted_name s f -> compression_name comp c ->
  format_from_filename (add_extensions s comp base) = (f, c, Ok tt).
Proof.
  intros base s f comp c Hs Hf Hc.
  assert (E : exists b t, base ++ bs "." ++ s = b ++ cDOT :: t /\ no_dot_slash t /\ parse_compression t = None /\
              alookup beqb (cDOT :: t) ext_formats = Some f).
  { destruct Hf as (n & Hn & Hs').
    assert (N : no_dot_slash n /\ (n <> [] -> parse_compression n = None /\ alookup beqb (cDOT :: n) ext_formats = Some f)).
    { unfold format_name in Hn. clear Hs' Hc.
      repeat match goal with H : _ \/ _ |- _ => destruct H | H : _ /\ _ |- _ => destruct H end; subst;
        (split; [apply no_dot_slash_dec; reflexivity|]); intros N0; split; try reflexivity;
        exfalso; apply N0; reflexivity. }
    destruct N as [N1 N2].
    destruct Hs' as [->|[Hn' ->]].
    - exists base, n. destruct N2; auto.
    - exists (base ++ bs "."), n. destruct N2; auto. split; auto. rewrite <- app_assoc. reflexivity. }
  destruct E as (b & t & E & Hd & Hp & Ha).
  unfold add_extensions. destruct (beqb_spec s []); [congruence|]. rewrite E.
  destruct Hc as [[-> ->]|Hc].
  - simpl beqb. cbn iota. unfold format_from_filename. rewrite filepath_ext_app by assumption. simpl trim_dot.
    rewrite Hp, Ha. reflexivity.
  - assert (C : comp <> [] /\ no_dot_slash comp /\ parse_compression comp = Some c).
    { repeat match goal with H : _ \/ _ |- _ => destruct H | H : _ /\ _ |- _ => destruct H end; subst;
        (split; [discriminate|]; split; [apply no_dot_slash_dec; reflexivity|reflexivity]). }
    destruct C as (C1 & C2 & C3). destruct (beqb_spec comp []); [congruence|].
    change (bs "." ++ comp) with (cDOT :: comp).
    unfold format_from_filename. rewrite filepath_ext_app by assumption. simpl trim_dot.
    change (N.eqb cDOT cDOT) with true. cbn iota. rewrite C3.
    rewrite trim_suffix_app, filepath_ext_app by assumption. rewrite Ha. reflexivity.
Qed.
Print Assumptions filename_round_trip.
Example filename_round_trip_ex : format_from_filename (add_extensions (bs "csv") (bs "gz") (bs "a/b.json/c.d")) = (fCSV, bs "gzip", Ok tt).
Proof. reflexivity. Qed.

(** The name of a body says what its structure says: with a format, both are read off the name; without one, there is
    none to be found, and the name of a structure with neither is just the word. *)
Theorem body_filename_round_trip : forall s f comp c, s <> [] -> accepted_name s f -> compression_name comp c ->
  format_from_filename (body_filename s comp) = (f, c, Ok tt) /\ body_filename [] [] = bs "body" /\
  exists tail, body_filename s comp = bs "body." ++ s ++ tail /\ (comp = [] -> tail = []) /\ (comp <> [] -> tail = bs "." ++ comp).
Proof.
  intros s f comp c Hs Ha Hc. split; [now apply filename_round_trip|]. split; [reflexivity|].
  unfold body_filename, add_extensions. destruct (beqb_spec s []); [congruence|].
  destruct (beqb_spec comp []) as [->|H]; [exists []|exists (bs "." ++ comp)]; (split; [|split; congruence]).
  - now rewrite app_nil_r, app_assoc.
  - now rewrite <- !app_assoc.
Qed.
Print Assumptions body_filename_round_trip.
Example body_filename_ex : body_filename (bs "csv") (bs "gz") = bs "body.csv.gz" /\ format_from_filename (body_filename (bs "csv") (bs "gz")) = (fCSV, bs "gzip", Ok tt).
Proof. split; reflexivity. Qed.

(** A success always names a real format: the last or, before a compression suffix, the last but one extension. *)
Theorem filename_success_sound : forall path f c, format_from_filename path = (f, c, Ok tt) ->
  exists s comp base, path = add_extensions s comp base /\ s <> [] /\ accepted_name s f /\ compression_name comp c.
Proof.
  assert (X : forall p t, filepath_ext p = t -> t <> [] -> exists b, p = b ++ t /\ exists n, t = cDOT :: n).
  { assert (Y : forall r acc t, ext_scan r acc = t -> t <> [] -> exists b n, rev r ++ acc = b ++ t /\ t = cDOT :: n).
    { induction r as [|c r IH]; simpl; intros acc t H N; [congruence|].
      destruct (N.eqb c 47); [congruence|]. destruct (N.eqb_spec c cDOT).
      - subst. exists (rev r), acc. rewrite <- app_assoc. auto.
      - destruct (IH (c :: acc) t H N) as (b & n' & E & E2). exists b, n'. rewrite <- app_assoc. auto. }
    intros p t H N. destruct (Y (rev p) [] t H N) as (b & n & E & E2).
    rewrite rev_involutive, app_nil_r in E. exists b. split; eauto. }
  assert (Z : forall e f, alookup beqb e ext_formats = Some f -> exists n, e = cDOT :: n /\ n <> [] /\ accepted_name n f).
  { intros e f H. apply alookup_In in H; [|intros; now apply beqb_eq]. unfold accepted_name, format_name.
    repeat (destruct H as [H|H]; [injection H as <- <-; eexists; split; [reflexivity|]; split; [discriminate|]; eexists; split; [|left; reflexivity]; tauto|]).
    destruct H. }
  intros path f c H. unfold format_from_filename in H.
  destruct (parse_compression (trim_dot (filepath_ext path))) as [cc|] eqn:P.
  - destruct (alookup beqb (filepath_ext (trim_suffix path (filepath_ext path))) ext_formats) as [f'|] eqn:A; [|congruence].
    injection H as -> ->.
    destruct (Z _ _ A) as (n & En & Nn & An).
    assert (N0 : filepath_ext path <> []) by (intros E0; rewrite E0 in P; discriminate).
    destruct (X path _ eq_refl N0) as (b & Eb & (m & Em)).
    rewrite Em in P. simpl in P.
    assert (Eb' : trim_suffix path (filepath_ext path) = b) by (rewrite Eb at 1; apply trim_suffix_app).
    rewrite Eb' in En.
    destruct (X b _ eq_refl) as (b2 & Eb2 & _); [rewrite En; discriminate|].
    exists n, m, b2. unfold add_extensions. destruct (beqb_spec n []); [congruence|].
    assert (M : m <> [] /\ compression_name m c).
    { unfold parse_compression in P. apply alookup_In in P; [|intros; now apply beqb_eq]. unfold compression_name.
      repeat (destruct P as [P|P]; [injection P as <- <-; split; [discriminate|]; tauto|]). destruct P. }
    destruct M as [M1 M2]. destruct (beqb_spec m []); [congruence|].
    split; [|auto]. rewrite Eb, Em, Eb2, En. reflexivity.
  - destruct (alookup beqb (filepath_ext path) ext_formats) as [f'|] eqn:A; [|congruence].
    injection H as H1 H2; subst f' c. destruct (Z _ _ A) as (n & En & Nn & An).
    destruct (X path _ eq_refl) as (b & Eb & _); [rewrite En; discriminate|].
    exists n, [], b. unfold add_extensions. destruct (beqb_spec n []); [congruence|]. simpl.
    split; [rewrite Eb, En; reflexivity|]. split; auto. split; auto. left; auto.
Qed.
Print Assumptions filename_success_sound.
Example filename_success_sound_ex : format_from_filename (bs "x.csv.zstd") = (fCSV, bs "zst", Ok tt).
Proof. reflexivity. Qed.
