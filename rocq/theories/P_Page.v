(** C85: what pages and previews show of a body does not depend on its format. *)
From Coq Require Import ZArith Lia.
From Verif Require Import Base M_Decimal M_Csv M_Bufio L_Bufio M_Utf8 S_Utf8 L_Utf8 M_Sink M_Json M_JsonWrite S_JsonText S_JsonBack L_JsonRead L_JsonDoc P_Json M_Cbor S_Cbor L_Cbor P_Cbor
  S_NDJson L_NDJson M_Xlsx M_Formats M_Stream S_Stream L_Stream M_Convert S_Convert S_ConvertCsv L_Convert P_Convert S_Calculate P_Calculate S_ConvertAny P_ConvertAny
  M_Validate S_Validate S_ValidateBody P_ValidateBody M_Preview M_Viz S_Viz P_Viz M_Page S_Page.

Lemma asked_all : forall A (offset limit : Z) (l : list A), ((0 <=? offset) && (0 <=? limit))%Z = false -> asked offset limit l l.
Proof. intros A offset limit l H. left. split; [|reflexivity]. apply andb_false_iff in H. destruct H as [H|H]; apply Z.leb_gt in H; auto. Qed.
Lemma asked_window : forall A (offset limit : Z) (l : list A), ((0 <=? offset) && (0 <=? limit))%Z = true -> asked offset limit l (window offset limit l).
Proof.
  intros A offset limit l H. right. apply andb_true_iff in H. destruct H as [H1 H2]. apply Z.leb_le in H1, H2. split; [auto|].
  exists (firstn (Z.to_nat offset) l), (skipn (Z.to_nat limit) (skipn (Z.to_nat offset) l)). unfold window.
  destruct (Z.ltb_spec limit 0); [lia|]. rewrite !firstn_skipn. split; [reflexivity|].
  destruct (Nat.le_gt_cases (Z.to_nat offset) (length l)) as [L|L].
  - split; [left; rewrite firstn_length; lia|]. destruct (Nat.le_gt_cases (Z.to_nat limit) (length (skipn (Z.to_nat offset) l))) as [K|K]; rewrite firstn_length; [left; lia|right; split; [lia|apply skipn_all2; lia]].
  - split; [right; split; [lia|apply firstn_all2; lia]|]. rewrite (skipn_all2 l) by lia. rewrite firstn_nil, skipn_nil. cbn [length]. destruct (Z.eq_dec limit 0); [left; lia|right; split; [lia|reflexivity]].
Qed.
Lemma asked_unique : forall A (offset limit : Z) (l a b : list A), asked offset limit l a -> asked offset limit l b -> a = b.
Proof.
  intros A offset limit l a b [[HA ->]|[HA (p1 & q1 & E1 & P1 & Q1)]] [[HB ->]|[HB (p2 & q2 & E2 & P2 & Q2)]]; try lia; [reflexivity|].
  assert (p1 = p2 /\ a ++ q1 = b ++ q2) as [-> E].
  { assert (L1 : (length p1 <= length l)%nat) by (rewrite E1, !app_length; lia). assert (L2 : (length p2 <= length l)%nat) by (rewrite E2, !app_length; lia).
    assert (L : length p1 = length p2) by (destruct P1 as [P1|[P1 ->]], P2 as [P2|[P2 ->]]; lia).
    assert (X : p1 ++ (a ++ q1) = p2 ++ (b ++ q2)) by congruence. clear -X L. revert p2 L X. induction p1 as [|x p1 IH]; intros [|y p2] L X; try discriminate; [auto|].
    cbn in X. injection X as -> X. destruct (IH p2) as [-> ->]; auto. }
  assert (L : length (a ++ q1) = length (b ++ q2)) by congruence. rewrite !app_length in L.
  assert (K : length a = length b) by (destruct Q1 as [Q1|[Q1 ->]], Q2 as [Q2|[Q2 ->]]; cbn [length] in L; lia).
  clear -E K. revert b K E. induction a as [|x a IH]; intros [|y b] K E; try discriminate; [reflexivity|]. cbn in E. injection E as -> E. f_equal. apply IH; auto.
Qed.
Lemma asked_map : forall A B (f : A -> B) offset limit l part, asked offset limit l part -> asked offset limit (map f l) (map f part).
Proof.
  intros A B f offset limit l part [[H ->]|[H (p & q & -> & P & Q)]]; [left; auto|right; split; [exact H|]]. exists (map f p), (map f q).
  rewrite !map_app, !app_length, !map_length. rewrite !app_length in P. split; [reflexivity|]. split.
  - destruct P as [P|[P E]]; [auto|right]. split; [exact P|]. rewrite E at 1. rewrite !map_app. reflexivity.
  - destruct Q as [Q|[Q ->]]; auto.
Qed.
Lemma last_value_pair : forall F (es : list (entry F)) k, last_pair (map (fun e => (e_key e, e_val e)) es) k (last_value k es).
Proof.
  intros F es k. unfold last_value. induction es as [|e es IH] using rev_ind; [intros []|]. rewrite rev_app_distr. cbn [rev app find]. rewrite map_app. cbn [map].
  destruct (beqb k (e_key e)) eqn:B.
  - apply beqb_eq in B. subst k. cbn [last_pair]. exists (map (fun e => (e_key e, e_val e)) es), []. split; [reflexivity|intros []].
  - assert (NE : k <> e_key e) by (intros ->; rewrite beqb_refl in B; discriminate). destruct (find (fun e0 => beqb k (e_key e0)) (rev es)) as [x|]; cbn [last_pair] in *.
    + destruct IH as (pre & post & E & NI). exists pre, (post ++ [(e_key e, e_val e)]). rewrite E, <- app_assoc. split; [reflexivity|]. rewrite map_app, in_app_iff. cbn. tauto || (intros [H|[H|[]]]; congruence || tauto).
    + rewrite map_app, in_app_iff. cbn. intros [H|[H|[]]]; [tauto|congruence].
Qed.

Section Page.
  Variable parse_float : bytes -> option N.
  Variable fmt_plain : N -> bytes.
  Variable fmt_json : N -> option bytes.
  Variable depth : nat.
  Variable surrogate : bytes.
  Variable save : book -> bytes.
  Variable load : bytes -> res book.
  Variable sheet_key keep : bytes -> bytes.
  Variable order : jmap -> jmap.
  Variables size osize wsize dsize : nat.
  Variable unpack : bytes -> src -> res src.
  Variable pack : bytes -> bytes -> bytes.
  Hypothesis opos : (0 < osize)%nat.
  Notation open := (new_entry_reader load sheet_key order size dsize unpack).
  Notation rstep := (read_step parse_float depth surrogate osize).
  Notation page := (page_entries parse_float depth surrogate load sheet_key order size osize dsize unpack).
  Notation preview := (preview_data parse_float fmt_plain fmt_json depth surrogate save load sheet_key keep order size osize wsize dsize unpack pack).
  Notation holds := (S_Calculate.holds parse_float depth order unpack load sheet_key).
  Notation broken := (broken parse_float depth order unpack).
  Notation holds_pairs := (holds_pairs parse_float unpack).

  Lemma top_of : forall sh (obj : bool), (if obj then of_objects sh else of_arrays sh) -> get_top_level_type (sh_schema sh) = Ok (if obj then bs "object" else bs "array").
  Proof. intros sh obj H. destruct obj; destruct H as (m & -> & H); unfold get_top_level_type; rewrite H; reflexivity. Qed.
  Lemma page_yields : forall sh s (obj : bool) r es r' fuel offset limit, open sh s = Ok r -> yields (rstep fuel) r es EOF r' -> (length es < fuel)%nat ->
    (if obj then of_objects sh else of_arrays sh) -> exists v part, page fuel sh s offset limit = Ok v /\ asked offset limit es part /\ body_value obj part v.
  Proof.
    intros sh s obj r es r' fuel offset limit HO Y HL HT. unfold page_entries. rewrite HO. destruct ((0 <=? offset)%Z && (0 <=? limit)%Z) eqn:E.
    - destruct (paged_window _ _ _ _ _ limit offset Y) as [p' [Hp _]].
      pose proof (read_entries_spec N _ _ _ _ _ _ (sh_schema sh) obj fuel Hp (top_of sh obj HT)) as R.
      assert (WL : (length (window offset limit es) < fuel)%nat).
      { unfold window. destruct (limit <? 0)%Z; [|rewrite firstn_length]; rewrite skipn_length; lia. }
      specialize (R WL). destruct ((0 <=? limit)%Z && (Z.max 0 offset + limit <=? Z.of_nat (length es))%Z); cbn in R; destruct R as (v & R & B);
        (exists v, (window offset limit es); rewrite R; split; [reflexivity|split; [apply asked_window; exact E|exact B]]).
    - pose proof (read_entries_spec N _ _ _ _ _ _ (sh_schema sh) obj fuel Y (top_of sh obj HT) HL) as R. cbn in R. destruct R as (v & R & B).
      exists v, es. rewrite R. split; [reflexivity|split; [apply asked_all; exact E|exact B]].
  Qed.
  (** A page gets the values it asks for, of whatever format the body is. *)
  Theorem page_array : forall sh s vs offset limit part, holds sh s vs -> of_arrays sh -> asked offset limit vs part ->
    exists f0, forall fuel, (f0 <= fuel)%nat -> page fuel sh s offset limit = Ok (VArr part).
  Proof.
    intros sh s vs offset limit part H T A.
    destruct (holds_yields parse_float depth surrogate load sheet_key order size osize dsize unpack (fun _ => 0%Z) (fun _ => []) opos sh s vs H) as [f0 [es [Hv Y]]].
    exists f0. intros fuel Hf. destruct (Y fuel Hf) as (r & r' & Ho & Hy & Hl). destruct (page_yields sh s false r es r' fuel offset limit Ho Hy Hl T) as (v & p & -> & AP & B).
    inversion B; subst. f_equal. f_equal. eapply asked_unique; [|exact A]. apply asked_map. exact AP.
  Qed.
  (** Of an object it gets, for each key, the last value among the pairs asked for. *)
  Theorem page_object : forall sh s kvs offset limit part, holds_pairs sh s kvs -> of_objects sh -> asked offset limit kvs part ->
    exists f0, forall fuel, (f0 <= fuel)%nat -> exists m, page fuel sh s offset limit = Ok (VMap m) /\ forall k, last_pair part k (map_get k m).
  Proof.
    intros sh s kvs offset limit part H T A. destruct (pairs_yield parse_float depth surrogate load sheet_key order size osize dsize unpack opos sh s kvs H) as [f0 [es [Hv Y]]].
    exists f0. intros fuel Hf. destruct (Y fuel Hf) as (r & r' & Ho & Hy & Hl). destruct (page_yields sh s true r es r' fuel offset limit Ho Hy Hl T) as (v & p & -> & AP & B).
    inversion B as [|p' m HM]; subst. exists m. split; [reflexivity|]. intros k. rewrite HM. rewrite (asked_unique _ _ _ _ _ _ A (asked_map _ _ (fun e => (e_key e, e_val e)) _ _ _ _ AP)). apply last_value_pair.
  Qed.
  (** A body that cannot be read to its end is an error if all of it is asked for. *)
  Theorem page_broken : forall sh s offset limit, of_arrays sh \/ of_objects sh -> (offset < 0 \/ limit < 0)%Z ->
    broken sh s \/ (exists vs kvs q c q', S_Convert.content unpack (sh_compression sh) s q /\ ~ L_JsonBuf.ends_escaped q /\
      ((typed sh fJSON (bs "array") /\ jdoc_array N (float_reads N parse_float) vs (q ++ c :: q')) \/
       (typed sh fJSON (bs "object") /\ jdoc_object N (float_reads N parse_float) kvs (q ++ c :: q')))) ->
    exists f0, forall fuel, (f0 <= fuel)%nat -> exists e, page fuel sh s offset limit = Err e.
  Proof.
    intros sh s offset limit T HN H. assert (T' : exists obj : bool, if obj then of_objects sh else of_arrays sh) by (destruct T; [exists false|exists true]; assumption). destruct T' as [obj T'].
    assert (Y : exists f0, forall fuel, (f0 <= fuel)%nat ->
      exists r es e r', open sh s = Ok r /\ yields (rstep fuel) r es e r' /\ is_eof_text e <> true /\ (length es < fuel)%nat).
    { destruct H as [H|(vs & kvs & q & c & q' & Hc & Hq & HD)].
      - exact (broken_yields parse_float depth surrogate load sheet_key order size osize dsize unpack (fun _ => 0%Z) (fun _ => []) opos sh s H).
      - exact (truncated_yields parse_float depth surrogate load sheet_key order size osize dsize unpack (fun _ => M_Float.f_int 0) opos sh s vs kvs q c q' Hc Hq HD). }
    destruct Y as [f0 Y]. exists f0. intros fuel Hf. destruct (Y fuel Hf) as (r & es & e & r' & Ho & Hy & He & Hl). exists e. unfold page_entries. rewrite Ho.
    assert (E : ((0 <=? offset)%Z && (0 <=? limit)%Z) = false) by (apply andb_false_iff; destruct HN as [HN|HN]; [left|right]; apply Z.leb_gt; exact HN). rewrite E.
    pose proof (read_entries_spec N _ _ _ _ _ _ (sh_schema sh) obj fuel Hy (top_of sh obj T') Hl) as R. destruct (is_eof_text e); [contradiction|]. rewrite R. reflexivity.
  Qed.

  (** ** Previews *)
  (** A preview is a JSON text of the first hundred values. *)
  Theorem preview_first : (4 <= wsize)%nat -> float_format N fmt_json parse_float -> strict_format N fmt_json parse_float -> lossless_end unpack pack -> (forall b, load (save b) = Ok b) ->
    forall sh s vs part back, holds sh s vs -> of_arrays sh -> asked 0 100 vs part -> Forall2 (S_JsonBack.comes_back N fmt_json) part back ->
    exists b f0, (forall fuel, (f0 <= fuel)%nat -> preview fuel sh s = Ok b) /\ forall s', s_rem s' = b -> s_fin s' = EOF -> holds (preview_shape sh) s' back.
  Proof.
    intros HW Hf1 Hf2 HL HB sh s vs part back H T A C. unfold preview_data. eapply convert_holds; try eassumption.
    assert (E : chosen false 0 max_rows vs = part) by (eapply asked_unique; [apply asked_window; reflexivity|exact A]). rewrite E. apply so_json; [|left; reflexivity|exact C].
    split; [reflexivity|exact T].
  Qed.
  (** Bodies that begin with the same hundred values have the same preview, byte for byte. *)
  Lemma write_by_value : forall c ind rows keys k es es', map e_val es = map e_val es' ->
    write_until (write_step fmt_plain fmt_json sheet_key keep wsize) (c, WJson (mkJw false ind rows keys k)) es = write_until (write_step fmt_plain fmt_json sheet_key keep wsize) (c, WJson (mkJw false ind rows keys k)) es'.
  Proof.
    intros c ind rows keys k es. revert rows k keys. induction es as [|e es IH]; intros rows k keys [|e' es'] H; try discriminate; [reflexivity|]. cbn [map] in H. injection H as HE HR.
    assert (W : json_write_entry N fmt_json (mkJw false ind rows keys k) e = json_write_entry N fmt_json (mkJw false ind rows keys k) e') by (unfold json_write_entry, val_bytes; cbn [jw_obj negb]; rewrite HE; reflexivity).
    cbn [write_until]. unfold write_step. cbn [snd fst]. rewrite W.
    assert (SH : exists x k', json_write_entry N fmt_json (mkJw false ind rows keys k) e' = (x, mkJw false ind (S rows) keys k')).
    { unfold json_write_entry, val_bytes. cbn [jw_obj negb jw_rows jw_sink jw_keys jw_indent].
      destruct (if (rows =? 0)%nat then sink_write [91%N] k else (None, k)) as [[x|] k1]; [eauto|]. destruct (encode N fmt_json ind (e_val e')); [|eauto].
      destruct (sink_write _ k1) as [y k2]. eauto. }
    destruct SH as (x & k' & SH). rewrite SH. destruct x; [reflexivity|]. apply IH. exact HR.
  Qed.
  Theorem preview_same : forall sh s vs sh' s' vs' part, holds sh s vs -> holds sh' s' vs' -> of_arrays sh -> of_arrays sh' -> asked 0 100 vs part -> asked 0 100 vs' part ->
    exists f0, forall fuel, (f0 <= fuel)%nat -> preview fuel sh s = preview fuel sh' s'.
  Proof.
    intros sh s vs sh' s' vs' part H H' T T' A A'.
    destruct (holds_yields parse_float depth surrogate load sheet_key order size osize dsize unpack (fun _ => 0%Z) (fun _ => []) opos sh s vs H) as [f0 [es [Hv Y]]].
    destruct (holds_yields parse_float depth surrogate load sheet_key order size osize dsize unpack (fun _ => 0%Z) (fun _ => []) opos sh' s' vs' H') as [f1 [es' [Hv' Y']]].
    exists (Nat.max f0 f1). intros fuel Hf. destruct (Y fuel ltac:(lia)) as (r & r1 & Ho & Hy & Hl). destruct (Y' fuel ltac:(lia)) as (r' & r1' & Ho' & Hy' & Hl').
    assert (W : forall sh, of_arrays sh -> convert_writer sheet_key order wsize (preview_shape sh) = Ok (None, WJson (new_jwriter false [] good_sink))).
    { intros x (m & E & G). unfold convert_writer, new_entry_writer, preview_shape. cbn. rewrite E. unfold make_json. cbn [sh_schema required rthen]. unfold get_top_level_type. rewrite G. reflexivity. }
    unfold preview_data, convert. rewrite (W sh T), (W sh' T'), Ho, Ho'.
    rewrite (convert_until _ _ _ _ _ _ _ _ _ _ max_rows 0%Z false fuel Hy Hl), (convert_until _ _ _ _ _ _ _ _ _ _ max_rows 0%Z false fuel Hy' Hl').
    assert (V : map e_val (chosen false 0 max_rows es) = map e_val (chosen false 0 max_rows es')).
    { subst vs vs'. transitivity part; [|symmetry]; (eapply asked_unique; [apply asked_map; apply asked_window; reflexivity|]); assumption. }
    unfold new_jwriter. rewrite (write_by_value None [] 0 [] good_sink _ _ V). reflexivity.
  Qed.
End Page.
Print Assumptions page_array.
Print Assumptions page_object.
Print Assumptions page_broken.
Print Assumptions preview_first.
Print Assumptions preview_same.

(** ** Concrete cases, and claims that do not hold. *)
From Verif Require P_ConvertCsv P_EntryBuffer.
Import P_ConvertCsv P_EntryBuffer P_ConvertAny.
Definition demo_page (s : src) (sh : shape) (offset limit : Z) : res (gval N) :=
  page_entries P_Convert.demo_parse 8 (bs "?") load_book (fun n => n) (fun m => m) demo_size 16 16 demo_unpack 60 sh s offset limit.
Definition demo_preview (s : src) (sh : shape) : res bytes :=
  preview_data P_Convert.demo_parse (fun _ => []) (fun _ => None) 8 (bs "?") save_book load_book (fun n => n) (fun n => n) (fun m => m) demo_size 16 16 16 demo_unpack demo_pack 60 sh s.
Example asked_ex : asked 1 2 [10; 20; 30; 40]%Z [20; 30]%Z /\ asked 3 2 [10; 20; 30; 40]%Z [40]%Z /\ asked 9 2 [10; 20]%Z [] /\ asked 1 (-1) [10; 20]%Z [10; 20]%Z.
Proof. repeat split; [exact (asked_window _ 1 2 [10; 20; 30; 40]%Z eq_refl)|exact (asked_window _ 3 2 [10; 20; 30; 40]%Z eq_refl)|exact (asked_window _ 9 2 [10; 20]%Z eq_refl)|exact (asked_all _ 1 (-1) [10; 20]%Z eq_refl)]. Qed.
Example page_array_ex : let vs := [row "qq" false; row "x;y" true] in let packed := from (bs "gzip" ++ cbor_encode (VArr vs)) in
  S_Calculate.holds P_Convert.demo_parse 8 (fun m => m) demo_unpack load_book (fun n => n) as_cbor packed vs /\ of_arrays as_cbor /\ of_arrays as_packed /\
  demo_page packed as_cbor 1 5 = Ok (VArr [row "x;y" true]) /\ demo_page packed as_cbor 0 (-1) = Ok (VArr vs) /\
  demo_page (from (bs "gzip" ++ bs "qq;false" ++ nl ++ bs """x;y"";true" ++ nl)) as_packed 1 5 = Ok (VArr [row "x;y" true]) /\
  demo_page (from (bs "[""qq"",false]" ++ nl ++ bs "[""x;y"",true]" ++ nl)) as_lines 1 5 = Ok (VArr [row "x;y" true]).
Proof.
  cbv zeta. split; [|split; [|split; [|vm_compute; repeat split]]].
  - apply ho_cbor; [split; [reflexivity|eexists; split; reflexivity]| | | |reflexivity].
    + right. exists (bs "gzip"). eexists. repeat split.
    + repeat constructor; cbn; lia.
    + cbn. lia.
  - eexists. split; reflexivity.
  - eexists. split; reflexivity.
Qed.
Example page_object_ex : of_objects as_pairs /\ demo_page (from (bs "{""b"":1,""a"":true,""b"":null}")) as_pairs 0 (-1) = Ok (VMap [(bs "a", VBool true); (bs "b", VNil)]) /\
  demo_page (from (bs "{""b"":false,""a"":true,""b"":null}")) as_pairs 0 2 = Ok (VMap [(bs "a", VBool true); (bs "b", VBool false)]).
Proof. split; [eexists; split; reflexivity|]. vm_compute. split; reflexivity. Qed.
Example page_broken_ex : exists e, demo_page (from (bs "[true]" ++ nl ++ bs "[tru]" ++ nl)) as_lines 0 (-1) = Err e.
Proof. eexists. vm_compute. reflexivity. Qed.
Example preview_same_ex : let vs := [row "qq" false; row "x;y" true] in
  demo_preview (from (bs "gzip" ++ cbor_encode (VArr vs))) as_cbor = Ok (bs "[[""qq"",false],[""x;y"",true]]") /\
  demo_preview (from (bs "gzip" ++ bs "qq;false" ++ nl ++ bs """x;y"";true" ++ nl)) as_packed = Ok (bs "[[""qq"",false],[""x;y"",true]]").
Proof. vm_compute. split; reflexivity. Qed.
(** A preview of a body that cannot be read is what came before; nothing tells it from a shorter body. *)
Theorem preview_broken_refuted : exists s, (exists e, demo_page s as_lines 0 (-1) = Err e) /\ demo_preview s as_lines = demo_preview (from (bs "[true]" ++ nl)) as_lines /\
  demo_preview s as_lines = Ok (bs "[[true]]").
Proof. exists (from (bs "[true]" ++ nl ++ bs "[tru]" ++ nl)). split; [eexists; vm_compute; reflexivity|]. vm_compute. split; reflexivity. Qed.
Print Assumptions preview_broken_refuted.
(** Nor does a page with a window tell: here the second line is no JSON. *)
Theorem page_window_broken_refuted : exists s v, demo_page s as_lines 0 1 = Ok v /\ exists e, demo_page s as_lines 0 2 = Err e.
Proof. exists (from (bs "[true]" ++ nl ++ bs "[tru]" ++ nl)). eexists. split; [vm_compute; reflexivity|]. eexists. vm_compute. reflexivity. Qed.
Print Assumptions page_window_broken_refuted.
