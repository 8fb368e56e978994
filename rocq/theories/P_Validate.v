(** C55, C56, C68: validation of datasets, names, bodies and CSV rows. *)
From Coq Require Import ZArith Lia.
From Verif Require Import Base M_Decimal L_Decimal M_Utf8 M_Doc M_Formats M_Components M_Sink M_JsonWrite M_Unmarshal L_Unmarshal M_Bufio L_Bufio M_Stream S_Stream L_Stream
  S_Formats P_Formats S_Utf8 S_JsonText S_JsonBack S_NDJson L_JsonMarshal L_NDJson L_UnmarshalInv P_NDJson S_Csv L_CsvText L_DetectCsv M_Validate S_Validate L_ValidateBatch L_ValidateCsv.
Notation length := List.length.

(** ** C55 *)
Theorem validate_dataset_iff : forall d, (validate_dataset (Some d) = Ok tt <-> good_dataset d) /\
  (validate_dataset (Some d) = Ok tt \/ exists e, validate_dataset (Some d) = Err e).
Proof.
  assert (SC : forall s, (validate_structure s = Ok tt /\ good_structure s) \/ ((exists e, validate_structure s = Err e) /\ ~ good_structure s)).
  { intros s. unfold validate_structure, structure_data_format.
    destruct (parse_data_format (st_format s)) as [f|e| |] eqn:Ef.
    - destruct (Z.eqb_spec f fUnknown) as [->|Hf].
      + right. split; [eauto|]. intros [[g [Hg Hn]] _]. apply data_format_accepts_exactly in Hg. congruence.
      + destruct (st_schema s) as [m|] eqn:Em.
        * left. rewrite andb_false_r. split; [reflexivity|]. split; [|eauto]. exists f. split; [apply data_format_accepts_exactly; exact Ef|exact Hf].
        * right. split; [destruct (Z.eqb f fCSV); cbn; eauto|]. intros [_ [m X]]. congruence.
    - right. cbn. split; [eauto|]. intros [[g [Hg Hn]] _]. apply data_format_accepts_exactly in Hg. congruence.
    - right. cbn. split; [eauto|]. intros [[g [Hg Hn]] _]. apply data_format_accepts_exactly in Hg. congruence.
    - right. cbn. split; [eauto|]. intros [[g [Hg Hn]] _]. apply data_format_accepts_exactly in Hg. congruence. }
  intros d. unfold validate_dataset. destruct (ds_commit d) as [c|] eqn:Ec.
  2: { split; [|eauto]. split; [discriminate|]. intros [[c [X _]] _]. congruence. }
  assert (CC : (validate_commit c = Ok tt /\ good_commit c) \/ ((exists e, validate_commit c = Err e) /\ ~ good_commit c)).
  { unfold validate_commit, good_commit. destruct (cm_title c) as [|x t] eqn:Et; [left; split; [reflexivity|cbn; lia]|].
    destruct (Nat.ltb_spec 100 (length (x :: t))); [right|left]; split; eauto; lia. }
  destruct CC as [[-> Hc]|[[e ->] Hc]].
  2: { split; [|eauto]. split; [discriminate|]. intros [[c' [X Hc']] _]. congruence. }
  destruct (ds_structure d) as [s|] eqn:Es.
  - destruct (SC s) as [[-> Hs]|[[e ->] Hs]].
    + split; [|auto]. split; [|reflexivity]. intros _. split; [eauto|]. intros s' X. rewrite Es in X. injection X as <-. exact Hs.
    + split; [|eauto]. split; [discriminate|]. intros [_ X]. specialize (X s Es). contradiction.
  - split; [|auto]. split; [|reflexivity]. intros _. split; [eauto|]. intros s' X. congruence.
Qed.
Print Assumptions validate_dataset_iff.
Theorem validate_nothing : validate_dataset None = Ok tt.
Proof. reflexivity. Qed.
Print Assumptions validate_nothing.

Theorem valid_name_iff : forall s, (valid_name s = Ok tt <-> good_name s) /\ (valid_name s = Ok tt \/ exists e, valid_name s = Err e).
Proof.
  assert (G : forall p l, forallb (fun c => Bool.eqb (p c) (existsb (N.eqb c) l)) (map N.of_nat (seq 0 128)) = true ->
    (forall c, p c = true -> (c < 128)%N) -> forallb (fun c => c <? 128)%N l = true -> forall c, p c = true <-> In c l).
  { intros p l H1 H2 H3 c. rewrite forallb_forall in H1, H3.
    assert (X : (c < 128)%N -> p c = true <-> In c l).
    { intros Hc. specialize (H1 c). rewrite in_map_iff in H1. specialize (H1 ltac:(exists (N.to_nat c); rewrite in_seq; lia)).
      apply Bool.eqb_prop in H1. rewrite H1, existsb_exists. split; [intros [y [I E]]; apply N.eqb_eq in E; subst; exact I|].
      intros I. exists c. split; [exact I|apply N.eqb_refl]. }
    split; intros H; apply X; auto. apply N.ltb_lt. auto. }
  assert (L : forall c, is_letter c = true <-> In c letters).
  { apply G; [vm_compute; reflexivity| |vm_compute; reflexivity]. intros c. unfold is_letter. rewrite orb_true_iff, !andb_true_iff, !N.leb_le. lia. }
  assert (W : forall c, is_word c = true <-> In c word_chars).
  { apply G; [vm_compute; reflexivity| |vm_compute; reflexivity]. intros c. unfold is_word, is_letter.
    rewrite !orb_true_iff, !andb_true_iff, !N.leb_le, N.eqb_eq. lia. }
  intros [|c r].
  - split; [|right; cbn; eauto]. split; [discriminate|]. intros [c [r [X _]]]. discriminate.
  - unfold valid_name, name_matches. destruct (is_letter c && forallb is_word r && (length r <=? 143)%nat) eqn:E.
    + split; [|auto]. split; [|reflexivity]. intros _. rewrite !andb_true_iff, Nat.leb_le, forallb_forall in E. destruct E as [[E1 E2] E3].
      exists c, r. split; [reflexivity|]. split; [apply L; exact E1|]. split; [intros x I; apply W; auto|]. cbn [length]. lia.
    + split; [|eauto]. split; [discriminate|]. intros [c' [r' [X [H1 [H2 H3]]]]]. injection X as <- <-.
      apply L in H1. rewrite H1 in E. replace (forallb is_word r) with true in E by (symmetry; apply forallb_forall; intros x I; apply W; auto).
      cbn [andb] in E. apply Nat.leb_gt in E. cbn [length] in H3. lia.
Qed.
Print Assumptions valid_name_iff.

(** ** C56 *)
Section Reader.
  Variables F St E : Type.
  Variable fmt_float : F -> option bytes.
  Variable parse_float : bytes -> option F.
  Variable depth : nat.
  Variable check : gval F -> list E.
  Notation entry_reader := (entry_reader F St E fmt_float parse_float depth check).

  (** What the top level of the schema says: an array or an object. *)
  Definition top_level (schema : option (list (bytes * gval F))) (obj : bool) : Prop :=
    exists m, schema = Some m /\ map_get (bs "type") m = Some (VStr (if obj then bs "object" else bs "array")).
  Lemma top_level_is : forall schema obj, top_level schema obj -> get_top_level_type schema = Ok (if obj then bs "object" else bs "array").
  Proof. intros schema obj [m [-> H]]. unfold get_top_level_type. rewrite H. destruct obj; reflexivity. Qed.
  Lemma top_level_of : forall schema t, get_top_level_type schema = Ok t -> exists obj, top_level schema obj.
  Proof.
    intros [m|] t H; [|discriminate]. unfold get_top_level_type in H. destruct (map_get (bs "type") m) as [v|] eqn:Em; [|discriminate].
    destruct v as [|b|z|f|s|s|l|mm]; try discriminate. destruct (beqb s (bs "array")) eqn:E1.
    - apply beqb_eq in E1. subst. exists false, m. auto.
    - destruct (beqb s (bs "object")) eqn:E2; [|discriminate]. apply beqb_eq in E2. subst. exists true, m. auto.
  Qed.

  (** The errors reported are those of the batches of 5000 entries, checked one by one in order, each as a
      document of its own. *)
  Theorem entry_reader_batches : strict_format F fmt_float parse_float ->
    forall schema obj (rd : St -> res (entry F) * St) s es e s' bs docs d fuel, top_level schema obj ->
    yields rd s es e s' -> is_eof_text e = true -> (length es < fuel)%nat ->
    batches per_batch es bs -> Forall (writable F fmt_float obj) bs -> Forall2 (batch_doc F parse_float obj) bs docs ->
    depth = S d -> Forall (fun x => deep F d (e_val x)) es ->
    entry_reader fuel (Ok tt) schema rd s = (Ok (flat_map check docs), s').
  Proof.
    intros Hfmt schema obj rd s es e s' bs docs d fuel Htop Hy He Hfuel Hb Hw Hd Hdep Hdeep.
    pose proof (top_level_is _ _ Htop) as Ht. unfold M_Validate.entry_reader. rewrite (new_buffer_ok F schema obj Ht).
    assert (NE : flush_batch F E parse_float depth check (new_jwriter obj [] (mkSink [] [])) [] = Ok []) by (apply (flush_empty F E fmt_float parse_float depth check obj); apply holds_new).
    destruct es as [|x es].
    - inversion Hb; subst; [|congruence|destruct b; [discriminate|discriminate]]. inversion Hd; subst. inversion Hy; subst.
      destruct fuel as [|fuel]; [cbn in Hfuel; lia|]. cbn [each_entry]. rewrite H, He. rewrite NE. reflexivity.
    - assert (Hs : Z.of_nat per_batch = 5000%Z) by reflexivity.
      assert (Hne : x :: es <> []) by discriminate.
      destruct (visit_all F E fmt_float parse_float depth check Hfmt per_batch Hs schema obj Ht (x :: es) bs Hb docs Hw Hd (ex_intro _ d (conj Hdep Hdeep)) Hne
        (new_jwriter obj [] (mkSink [] [])) [] [] 0 NE eq_refl) as [w' [errs' [V K]]].
      rewrite (each_entry_all rd _ s (x :: es) e s' Hy 0 _ _ V fuel Hfuel), He, K. reflexivity.
  Qed.
  (** Success means that the reader was read to its end and that every batch could be written. *)
  Theorem entry_reader_success : forall schema (rd : St -> res (entry F) * St) s fuel so errs s', entry_reader fuel so schema rd s = (Ok errs, s') ->
    exists obj es e bs, so = Ok tt /\ top_level schema obj /\ yields rd s es e s' /\ is_eof_text e = true /\
      batches per_batch es bs /\ Forall (writable F fmt_float obj) bs.
  Proof.
    intros schema rd s fuel so errs s' H. unfold M_Validate.entry_reader in H. destruct so as [[]|?| |]; try discriminate.
    destruct (get_top_level_type schema) as [t|?| |] eqn:Et; try (unfold new_buffer in H; rewrite Et in H; discriminate).
    destruct (top_level_of _ _ Et) as [obj Htop]. pose proof (top_level_is _ _ Htop) as Ht. rewrite (new_buffer_ok F schema obj Ht) in H.
    destruct (each_entry _ _ _ _ _ _) as [[[[]|?| |] s1] [w' errs']] eqn:Ee in H; try discriminate. injection H as H <-.
    destruct (each_entry_ok_inv F St _ rd _ (on_entry_error F E fmt_float parse_float depth check schema) _ _ _ _ _ _ Ee) as [es [e [Y [T V]]]].
    assert (Hs : Z.of_nat per_batch = 5000%Z) by reflexivity.
    destruct (visited_all F E fmt_float parse_float depth check per_batch Hs schema obj Ht es _ V) as [bs [B1 B2]].
    exists obj, es, e, bs. auto 10.
  Qed.
  (** Otherwise there is an error. *)
  Theorem entry_reader_answers : forall schema (rd : St -> res (entry F) * St) s es e s1 fuel so, yields rd s es e s1 -> (length es < fuel)%nat ->
    (exists x, so = Ok x) \/ (exists x, so = Err x) ->
    exists r s', entry_reader fuel so schema rd s = (r, s') /\ ((exists errs, r = Ok errs) \/ exists er, r = Err er).
  Proof.
    intros schema rd s es e s1 fuel so Hy Hf Hso. unfold M_Validate.entry_reader. destruct Hso as [[x ->]|[x ->]]; [|eauto 6].
    unfold new_buffer. assert (GT : (exists t, get_top_level_type schema = Ok t) \/ exists er, get_top_level_type schema = Err er).
    { unfold get_top_level_type. destruct schema as [m|]; [|eauto]. destruct (map_get (bs "type") m) as [[]|]; eauto.
      destruct (negb (beqb s0 (bs "array")) && negb (beqb s0 (bs "object"))); eauto. }
    destruct GT as [[t ->]|[er ->]]; [|eauto 6].
    assert (EA : forall (fn : jwriter * list E -> Z -> entry F -> option err * (jwriter * list E)) c i, exists r s2 c2, each_entry fuel rd fn i s c = (r, s2, c2) /\ (r = Ok tt \/ exists er, r = Err er)).
    { intros fn c i. revert c i fuel Hf. clear -Hy. induction Hy as [s0 e0 s2 H|s0 x s1 es e0 s2 H Hy IH]; intros c i fuel Hf; (destruct fuel as [|fuel]; [lia|]); cbn [each_entry]; rewrite H.
      - destruct (is_eof_text e0); eauto 8.
      - destruct (fn c i x) as [[er|] c1]; [destruct (is_eof_text er); eauto 8|]. apply IH. cbn [length] in Hf. lia. }
    destruct (EA (on_entry F E fmt_float parse_float depth check schema) (new_jwriter (beqb t (bs "object")) [] (mkSink [] []), []) 0%Z) as [r [s2 [[w2 errs2] [-> Hr]]]].
    destruct Hr as [->|[er ->]]; [|eauto 6].
    assert (FB : (exists l, flush_batch F E parse_float depth check w2 errs2 = Ok l) \/ exists er, flush_batch F E parse_float depth check w2 errs2 = Err er).
    { unfold flush_batch. destruct (k_out (jw_sink w2)); [eauto|]. destruct (json_close None w2) as [[er|] w3]; [eauto|].
      destruct (unmarshal_total F parse_float depth (k_out (jw_sink w3))) as [U1 U2].
      destruct (unmarshal F parse_float depth (k_out (jw_sink w3))); try contradiction; eauto. }
    destruct FB as [[l ->]|[er ->]]; eauto 6.
  Qed.
  (** So a reader that fails, and an entry that has no place in its batch, are errors. *)
  Theorem entry_reader_rejects : forall schema obj (rd : St -> res (entry F) * St) s es e s1 bs fuel, yields rd s es e s1 -> (length es < fuel)%nat ->
    top_level schema obj -> batches per_batch es bs -> is_eof_text e = false \/ Exists (fun b => ~ writable F fmt_float obj b) bs ->
    exists er s', entry_reader fuel (Ok tt) schema rd s = (Err er, s').
  Proof.
    intros schema obj rd s es e s1 bs fuel Hy Hf Htop Hb Hbad.
    destruct (entry_reader_answers schema rd s es e s1 fuel (Ok tt) Hy Hf ltac:(eauto)) as [r [s' [Hr [[errs ->]|[er ->]]]]]; [|eauto].
    exfalso. destruct (entry_reader_success _ _ _ _ _ _ _ Hr) as [obj' [es' [e' [bs' [_ [Htop' [Hy' [He' [Hb' Hw']]]]]]]]].
    destruct (yields_det rd s es e s1 Hy es' e' s' Hy') as [<- [<- <-]].
    assert (Z5 : (0 < per_batch)%nat) by (apply Nat.ltb_lt; reflexivity).
    pose proof (batches_fun _ per_batch es bs Z5 Hb bs' Hb') as <-.
    assert (obj' = obj) as ->.
    { destruct Htop as [m [-> T1]]. destruct Htop' as [m' [X T2]]. injection X as <-. rewrite T1 in T2. destruct obj, obj'; try reflexivity; discriminate. }
    destruct Hbad as [Hbad|Hbad]; [congruence|]. apply Exists_exists in Hbad. destruct Hbad as [b [I Hn]]. rewrite Forall_forall in Hw'. auto.
  Qed.
End Reader.
Print Assumptions entry_reader_batches.
Print Assumptions entry_reader_success.
Print Assumptions entry_reader_answers.
Print Assumptions entry_reader_rejects.

(** Every sequence has exactly one cutting into batches, and nothing is lost, repeated or moved by it. *)
Theorem batches_once : forall A (l : list A), exists bs, batches per_batch l bs /\ (forall bs', batches per_batch l bs' -> bs' = bs) /\ concat bs = l /\
  Forall (fun b => (0 < length b <= per_batch)%nat) bs.
Proof.
  intros A l. assert (Z5 : (0 < per_batch)%nat) by (apply Nat.ltb_lt; reflexivity). destruct (batches_some A per_batch l Z5) as [bs H]. exists bs.
  split; [exact H|]. split; [intros bs' H'; symmetry; exact (batches_fun _ _ _ _ Z5 H _ H')|]. split; [eapply batches_concat; exact H|].
  induction H as [|b Hb Hl|b l bs Hl Hne Hb IH]; [constructor|..].
  - constructor; [|constructor]. split; [|exact Hl]. destruct b; [congruence|cbn; apply Nat.lt_0_succ].
  - constructor; [|exact IH]. rewrite Hl. split; [exact Z5|apply le_n].
Qed.
Print Assumptions batches_once.

(** ** C68 *)
Theorem check_csv_rows_iff : forall size s,
  (check_csv_row_lengths size s = Ok tt <-> exists rows, equal_rows (s_fin s) (s_rem s) rows) /\
  (check_csv_row_lengths size s = Ok tt \/ exists e, check_csv_row_lengths size s = Err e).
Proof.
  intros size s. unfold check_csv_row_lengths. destruct (new_bufr_ok size s) as [Hok Hp]. set (b := new_bufr size s) in *. clearbody b.
  set (cap := Nat.max 16 size) in *. clearbody cap. set (fin := s_fin s) in *.
  destruct (check_read_ok cap fin b Hok) as [o [b' [Hb' [R ->]]]]. rewrite Hp in R.
  destruct o as [[fs [x|]]|].
  - split; [|eauto]. split; [discriminate|]. intros [rows [t [U [A [_ [w Hw]]]]]]. apply unix_fun in U. subst t. exfalso.
    apply (rows_end_not _ fin rows w [] (Flaw x) A Hw); [eapply an_flaw; [exact R|constructor]|eauto].
  - assert (L : (length (clean fin (pending b')) < S (length (s_rem s)))%nat).
    { pose proof (record_shorter false true 44 [] fin _ _ _ R fs eq_refl) as L1. pose proof (clean_length fin (s_rem s)). lia. }
    destruct (check_loop_ok cap fin (S (length (s_rem s))) (length fs) 1 b' Hb' L) as [rows [l [H1 [H2 [[-> H3]|[Hl [e H3]]]]]]].
    + split; [|auto]. split; [|intros _; exact H3]. intros _. exists (fs :: rows), (clean fin (s_rem s)). split; [apply clean_unix|].
      split; [cbn [map app]; eapply an_row; [exact R|left; lia|exact H2]|]. split; [discriminate|]. exists (length fs). constructor; [reflexivity|assumption].
    + split; [|eauto]. split; [rewrite H3; discriminate|]. intros [rows' [t [U [A [Hne [w Hw]]]]]]. exfalso. apply unix_fun in U. subst t.
      assert (A2 : answers false true [44%N] fin (-1) (clean fin (s_rem s)) (map Row (fs :: rows) ++ [l])).
      { cbn [map app]. eapply an_row; [exact R|left; lia|exact H2]. }
      assert (Ew : length fs = w).
      { destruct rows' as [|r0 rows']; [congruence|]. assert (X : exists r, map Row (r0 :: rows') ++ [End] = [Row fs] ++ r).
        { eapply answers_prefix; [|exact A|cbn; lia]. eapply an_row; [exact R|left; lia|constructor]. }
        destruct X as [r X]. injection X as -> _. inversion Hw; subst. reflexivity. }
      apply (rows_end_not _ fin rows' w (fs :: rows) l A Hw A2). rewrite <- Ew. exact Hl.
  - split; [|eauto]. split; [discriminate|]. intros [rows [t [U [A [Hne [w Hw]]]]]]. exfalso. apply unix_fun in U. subst t.
    destruct rows as [|r0 rows]; [congruence|].
    assert (X : exists r, map Row (r0 :: rows) ++ [End] = [End] ++ r).
    { eapply answers_prefix; [|exact A|cbn; lia]. eapply an_end; [exact R|constructor]. }
    destruct X as [r X]. discriminate.
Qed.
Print Assumptions check_csv_rows_iff.

(** ** Concrete cases, and what does not hold *)
Definition list_reader {F} (l : list (entry F)) : res (entry F) * list (entry F) :=
  match l with [] => (Err EOF, []) | x :: r => (Ok x, r) end.
Lemma list_yields : forall F (l : list (entry F)), yields list_reader l l EOF [].
Proof. induction l; [apply y_end; reflexivity|eapply y_cons; [reflexivity|assumption]]. Qed.
Definition array_schema : option (list (bytes * gval (option Z))) := Some [(bs "type", VStr (bs "array"))].
Definition object_schema : option (list (bytes * gval (option Z))) := Some [(bs "type", VStr (bs "object"))].
Lemma array_top : top_level (option Z) array_schema false.
Proof. eexists. split; reflexivity. Qed.
Lemma object_top : top_level (option Z) object_schema true.
Proof. eexists. split; reflexivity. Qed.
Notation demo_check := (entry_reader (option Z) (list (entry (option Z)))).

(** More than 5000 entries: what a check of the whole body finds is not found.  The check used here is a
    limit of 5000 entries, like maxItems. *)
Definition at_most_5000 (doc : gval (option Z)) : list unit :=
  match doc with VArr l => if (Z.of_nat (length l) <=? 5000)%Z then [] else [tt] | _ => [] end.
Theorem entry_reader_whole_refuted : exists es whole, batch_doc (option Z) demo_parse false es whole /\ at_most_5000 whole = [tt] /\
  demo_check unit demo_fmt demo_parse 3 at_most_5000 (S (length es)) (Ok tt) array_schema list_reader es = (Ok [], []).
Proof.
  assert (H5 : exists n : nat, n = per_batch) by eauto. destruct H5 as [n Hn].
  set (x := mkEntry 0 [] (@VNil (option Z))).
  assert (R : forall k, Forall2 (fun e v => line_back (option Z) demo_parse (e_val e) v) (repeat x k) (repeat VNil k)).
  { induction k; [constructor|]. cbn [repeat]. constructor; [apply lb_nil|assumption]. }
  assert (W : forall k, writable (option Z) demo_fmt false (repeat x k)).
  { intros k. split; [|discriminate]. induction k; [constructor|]. cbn [repeat]. constructor; [intros X; inversion X|assumption]. }
  assert (D : forall k, Forall (fun e : entry (option Z) => deep (option Z) 2 (e_val e)) (repeat x k)).
  { induction k; [constructor|]. cbn [repeat]. constructor; [constructor|assumption]. }
  exists (repeat x n ++ [x]), (VArr (repeat VNil n ++ [VNil])). split; [|split].
  - apply bd_array. apply Forall2_app; [apply R|apply (R 1%nat)].
  - unfold at_most_5000. rewrite app_length, repeat_length, Nat2Z.inj_add, Hn. reflexivity.
  - rewrite (entry_reader_batches (option Z) _ unit demo_fmt demo_parse 3 at_most_5000 demo_format array_schema false list_reader _ _ EOF []
      [repeat x n; [x]] [VArr (repeat VNil n); VArr [VNil]] 2 _ array_top (list_yields _ _)); try reflexivity.
    + cbn [flat_map at_most_5000]. rewrite repeat_length, Hn. reflexivity.
    + apply le_n.
    + apply ba_more; [rewrite repeat_length; exact Hn|discriminate|]. apply ba_last; [discriminate|]. cbn [length]. apply Nat.leb_le. reflexivity.
    + constructor; [apply W|constructor; [apply (W 1%nat)|constructor]].
    + constructor; [apply bd_array; apply R|constructor; [apply bd_array; apply (R 1%nat)|constructor]].
    + apply Forall_app. split; [apply D|apply (D 1%nat)].
Qed.
Print Assumptions entry_reader_whole_refuted.
(** An empty body is not checked at all. *)
Theorem entry_reader_empty_refuted : exists check : gval (option Z) -> list unit, batch_doc (option Z) demo_parse false [] (VArr []) /\ check (VArr []) = [tt] /\
  demo_check unit demo_fmt demo_parse 3 check 1 (Ok tt) array_schema list_reader [] = (Ok [], []).
Proof. exists (fun _ => [tt]). split; [apply bd_array; constructor|]. split; reflexivity. Qed.
Print Assumptions entry_reader_empty_refuted.
(** A key that comes again in a later batch of an object is not refused, although in one document it would be. *)
Theorem entry_reader_duplicate_refuted : exists es : list (entry (option Z)), ~ NoDup (map e_key es) /\
  demo_check unit demo_fmt demo_parse 3 (fun _ => []) (S (length es)) (Ok tt) object_schema list_reader es = (Ok [], []).
Proof.
  assert (H5 : exists n : nat, n = per_batch) by eauto. destruct H5 as [n Hn].
  set (x := fun i => mkEntry 0 (repeat 97%N (S i)) (@VNil (option Z))).
  assert (K : forall l, NoDup l -> NoDup (map e_key (map x l))).
  { intros l H. rewrite map_map. apply FinFun.Injective_map_NoDup; [|exact H]. intros i j X. cbn [e_key] in X. unfold x in X. cbn [e_key] in X.
    apply (f_equal (@List.length N)) in X. rewrite !repeat_length in X. injection X as ->. reflexivity. }
  assert (W : forall l, NoDup l -> writable (option Z) demo_fmt true (map x l)).
  { intros l H. split; [|intros _; split; [|apply K; exact H]].
    - clear H. induction l; [constructor|]. cbn [map]. constructor; [intros X; inversion X|assumption].
    - clear H. induction l; [constructor|]. cbn [map]. constructor; [discriminate|assumption]. }
  assert (D : forall l, Forall (fun e : entry (option Z) => deep (option Z) 2 (e_val e)) (map x l)).
  { induction l; [constructor|]. cbn [map]. constructor; [constructor|assumption]. }
  assert (B : forall l, exists doc, batch_doc (option Z) demo_parse true (map x l) doc).
  { intros l. assert (X : exists kvs, Forall2 (fun e kv => cleaned (e_key e) (fst kv) /\ line_back (option Z) demo_parse (e_val e) (snd kv)) (map x l) kvs).
    { induction l as [|i l [kvs IH]]; [exists []; constructor|]. destruct (cleaned_total (repeat 97%N (S i))) as [k Hk].
      exists ((k, VNil) :: kvs). cbn [map]. constructor; [split; [exact Hk|apply lb_nil]|exact IH]. }
    destruct X as [kvs X]. exists (object_of (option Z) kvs). apply bd_object. exact X. }
  destruct (B (seq 0 n)) as [d1 D1]. destruct (B [0%nat]) as [d2 D2].
  exists (map x (seq 0 n) ++ map x [0%nat]). split.
  - rewrite map_app. cbn [map]. intros X. apply nodup_snoc in X. destruct X as [_ X]. apply X. apply in_map. apply in_map. apply in_seq.
    rewrite Hn. split; [lia|]. apply Nat.ltb_lt. reflexivity.
  - rewrite (entry_reader_batches (option Z) _ unit demo_fmt demo_parse 3 (fun _ => []) demo_format object_schema true list_reader _ _ EOF []
      [map x (seq 0 n); map x [0%nat]] [d1; d2] 2 _ object_top (list_yields _ _)); try reflexivity.
    + apply le_n.
    + apply ba_more; [rewrite map_length, seq_length; exact Hn|discriminate|]. apply ba_last; [discriminate|]. cbn [map length]. apply Nat.leb_le. reflexivity.
    + constructor; [apply W; apply seq_NoDup|constructor; [apply W; constructor; [intros []|constructor]|constructor]].
    + constructor; [exact D1|constructor; [exact D2|constructor]].
    + apply Forall_app. split; apply D.
Qed.
Print Assumptions entry_reader_duplicate_refuted.

Definition good_ds : dataset :=
  mkDataset None JNull None [] (Some (mkCommit None [] [] [] [] 0 (repeat 97%N 100) [])) [] None [] [] [] [] [] None 0 []
    (Some (mkStructure [] [] 0 [] 0 0 (bs ".csv") None 0 [] [] (Some []) false)) None None None.
Example validate_dataset_ex : good_dataset good_ds /\
  (exists e, validate_dataset (Some (dataset_ref (bs "p"))) = Err e).
Proof. split; [apply validate_dataset_iff; reflexivity|eexists; reflexivity]. Qed.
Example valid_name_ex : valid_name (97%N :: repeat 95%N 143) = Ok tt /\ (exists e, valid_name (97%N :: repeat 95%N 144) = Err e) /\
  (exists e, valid_name (bs "9lives") = Err e) /\ (exists e, valid_name (bs "a-b") = Err e).
Proof. repeat split; try (eexists; reflexivity). Qed.
(** Three entries, one of which the check does not like; the entries are read back from JSON. *)
Definition demo_es : list (entry (option Z)) := [mkEntry 0 [] (VInt 1); mkEntry 1 [] (VStr (bs "x")); mkEntry 2 [] (VFloat (Some 3%Z))].
Definition want_numbers (doc : gval (option Z)) : list nat :=
  match doc with
  | VArr l => map fst (filter (fun p => match snd p with VFloat _ => false | _ => true end) (combine (seq 0 (length l)) l))
  | _ => []
  end.
Example entry_reader_ex :
  demo_check nat demo_fmt demo_parse 3 want_numbers 4 (Ok tt) array_schema list_reader demo_es = (Ok [1%nat], []) /\
  batches per_batch demo_es [demo_es] /\ Forall (writable (option Z) demo_fmt false) [demo_es] /\
  Forall2 (batch_doc (option Z) demo_parse false) [demo_es] [VArr [VFloat (Some 1%Z); VStr (bs "x"); VFloat (Some 3%Z)]].
Proof.
  split; [vm_compute; reflexivity|]. split; [apply ba_last; [discriminate|apply Nat.leb_le; reflexivity]|]. split.
  - constructor; [|constructor]. split; [|discriminate]. repeat constructor; intros X; inversion X as [f Hf| |]; discriminate.
  - constructor; [|constructor]. apply bd_array. constructor; [apply lb_int; reflexivity|]. constructor; [apply lb_str; apply (ascii_cleaned (option Z) demo_parse (fun _ => true) (fun x => x)); reflexivity|].
    constructor; [apply lb_float|constructor].
Qed.
Example entry_reader_rejects_ex : exists er s', demo_check nat demo_fmt demo_parse 3 want_numbers 4 (Ok tt) object_schema list_reader
  [mkEntry 0 (bs "a") (VInt 1); mkEntry 1 (bs "a") (VInt 2)] = (Err er, s').
Proof. eexists _, _. vm_compute. reflexivity. Qed.
Example check_csv_rows_ex : forall sched,
  check_csv_row_lengths 16 (mkSrc (bs "a, ""b,c""" ++ [13; 10; 10]%N ++ bs "1,2") EOF sched) = check_csv_row_lengths 16 (mkSrc (bs "a, ""b,c""" ++ [13; 10; 10]%N ++ bs "1,2") EOF []) /\
  check_csv_row_lengths 16 (mkSrc (bs "a, ""b,c""" ++ [13; 10; 10]%N ++ bs "1,2") EOF []) = Ok tt /\
  (exists e, check_csv_row_lengths 16 (mkSrc (bs "a,b" ++ [10%N] ++ bs "1") EOF []) = Err e) /\
  (exists e, check_csv_row_lengths 16 (mkSrc [] EOF []) = Err e).
Proof.
  intros sched. assert (X : check_csv_row_lengths 16 (mkSrc (bs "a, ""b,c""" ++ [13; 10; 10]%N ++ bs "1,2") EOF []) = Ok tt) by (vm_compute; reflexivity).
  split; [|split; [exact X|split; eexists; vm_compute; reflexivity]]. rewrite X. apply check_csv_rows_iff. apply check_csv_rows_iff in X. exact X.
Qed.
