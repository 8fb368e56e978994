(** An EntryBuffer that is written, closed and then read is a writer followed by a reader. *)
From Coq Require Import ZArith Lia.
From Verif Require Import Base M_Bufio L_Bufio M_Sink M_Json M_JsonWrite M_Cbor M_Columns M_Tabular M_CsvText M_Csv M_NDJson M_Xlsx M_Formats M_Stream M_Convert
  M_EntryBuffer S_EntryBuffer L_EntryBuffer.

Lemma sink_grows : forall d k, exists x, k_out (snd (sink_write d k)) = k_out k ++ x.
Proof. intros d k. unfold sink_write. destruct (k_plan k) as [|[[n e]|] p]; cbn; eauto. Qed.
Lemma grow_trans : forall (a b c : bytes), (exists x, b = a ++ x) -> (exists y, c = b ++ y) -> exists z, c = a ++ z.
Proof. intros a b c [x ->] [y ->]. exists (x ++ y). symmetry. apply app_assoc. Qed.
Lemma grow_refl : forall (a : bytes), exists x, a = a ++ x.
Proof. intros a. exists []. symmetry. apply app_nil_r. Qed.
Local Hint Resolve grow_refl : core.

Section Csv.
  Variable wsize : nat.
  Definition out (w : bufw) : bytes := k_out (w_dest w).
  Definition grows (f : bufw -> option err * bufw) : Prop := forall w, exists d, out (snd (f w)) = out w ++ d.
  Lemma flush_grows : grows bw_flush.
  Proof.
    intros w. unfold bw_flush. destruct (w_sticky w); [apply grow_refl|]. destruct (w_buf w) eqn:E; [apply grow_refl|].
    destruct (sink_grows (n :: l) (w_dest w)) as [x Hx]. destruct (sink_write (n :: l) (w_dest w)) as [[e|] k]; exists x; exact Hx.
  Qed.
  Lemma then_grows : forall f g, grows f -> grows g -> grows (fun w => bw_then (f w) g).
  Proof.
    intros f g Hf Hg w. specialize (Hf w). unfold bw_then. destruct (f w) as [[e|] w1]; [exact Hf|].
    eapply grow_trans; [exact Hf|]. apply Hg.
  Qed.
  Lemma string_grows : forall f s w, exists d, out (snd (bw_string wsize f w s)) = out w ++ d.
  Proof.
    induction f as [|f IH]; intros s w; cbn [bw_string]; [apply grow_refl|].
    destruct (_ && _).
    - eapply grow_trans; [|apply IH]. apply (flush_grows (bw_add w (firstn (bw_room wsize w) s))).
    - destruct (w_sticky w); apply grow_refl.
  Qed.
  Lemma add_after_flush : forall d, grows (fun w => match bw_flush w with (Some e, w') => (Some e, w') | (None, w') => (None, bw_add w' d) end).
  Proof. intros d w. pose proof (flush_grows w) as H. destruct (bw_flush w) as [[e|] w']; exact H. Qed.
  Lemma byte_grows : forall c, grows (fun w => bw_byte wsize w c).
  Proof.
    intros c w. unfold bw_byte. destruct (w_sticky w); [apply grow_refl|]. destruct (_ =? _)%nat; [apply add_after_flush|apply grow_refl].
  Qed.
  Lemma rune_grows : forall r, grows (fun w => bw_rune wsize w r).
  Proof.
    intros r w. unfold bw_rune. destruct (r <? 128)%N; [apply byte_grows|]. destruct (w_sticky w); [apply grow_refl|].
    destruct (_ <? _)%nat; [apply add_after_flush|apply grow_refl].
  Qed.
  Lemma quoted_grows : forall f s, grows (fun w => bw_quoted wsize f w s).
  Proof.
    induction f as [|f IH]; intros s w; cbn [bw_quoted]; [apply grow_refl|]. destruct s as [|c0 s]; [apply grow_refl|].
    destruct (plain_part (c0 :: s)) as [a rest].
    apply (then_grows (fun w => bw_write_string wsize w a)); [intros w1; apply string_grows|]. intros w1. destruct rest as [|c rest]; [apply grow_refl|].
    apply (then_grows (fun w => if N.eqb c 34 then bw_write_string wsize w [34%N; 34%N] else bw_byte wsize w c)).
    - intros w2. destruct (N.eqb c 34); [apply string_grows|apply byte_grows].
    - intros w2. apply IH.
  Qed.
  Lemma field_grows : forall comma f, grows (fun w => bw_field wsize comma w f).
  Proof.
    intros comma f w. unfold bw_field. destruct (needs_quotes comma f); [|apply string_grows].
    apply (then_grows (fun w => bw_byte wsize w 34)); [apply byte_grows|].
    apply (then_grows (fun w => bw_quoted wsize (S (length f)) w f)); [apply quoted_grows|apply byte_grows].
  Qed.
  Lemma fields_grows : forall comma fs b, grows (fun w => bw_fields wsize comma b w fs).
  Proof.
    induction fs as [|f fs IH]; intros b w; cbn [bw_fields]; [apply grow_refl|].
    apply (then_grows (fun w => if b then (None, w) else bw_rune wsize w comma)).
    - intros w1. destruct b; [apply grow_refl|apply rune_grows].
    - apply (then_grows (fun w => bw_field wsize comma w f)); [apply field_grows|apply IH].
  Qed.
  Lemma csv_write_grows : forall comma fs, grows (fun w => csv_write wsize comma w fs).
  Proof.
    intros comma fs w. unfold csv_write. destruct (valid_delim comma); [|apply grow_refl].
    apply (then_grows (fun w => bw_fields wsize comma true w fs)); [apply fields_grows|apply byte_grows].
  Qed.
End Csv.

Section Alone.
  Variable parse_float : bytes -> option N.
  Variable fmt_plain : N -> bytes.
  Variable fmt_json : N -> option bytes.
  Variable depth : nat.
  Variable surrogate : bytes.
  Variable save : book -> bytes.
  Variable load : bytes -> res book.
  Variables sheet_key keep : bytes -> bytes.
  Variable order : jmap -> jmap.
  Variables size osize wsize dsize : nat.
  Variable unpack : bytes -> src -> res src.
  Variable pack : bytes -> bytes -> bytes.
  Notation open := (new_entry_reader load sheet_key order size dsize unpack).
  Notation make := (new_entry_writer sheet_key order wsize).
  Notation buffer := (new_entry_buffer load sheet_key order size wsize dsize unpack pack).
  Notation rstep fuel := (read_step parse_float depth surrogate osize fuel).
  Notation wstep := (write_step fmt_plain fmt_json sheet_key keep wsize).
  Notation cstep := (close_step save).
  Notation run fuel := (eb_run parse_float fmt_plain fmt_json depth surrogate save sheet_key keep osize wsize pack fuel).
  Definition of_buffer (d : bytes) : src := mkSrc d EOF [].

  Lemma more_more : forall a b s, more b (more a s) = more (a ++ b) s.
  Proof. intros a b s. unfold more. cbn. rewrite app_assoc. reflexivity. Qed.
  Lemma more_buf_more : forall a b x, more_buf b (more_buf a x) = more_buf (a ++ b) x.
  Proof. intros a b x. unfold more_buf. cbn [b_buf b_cap b_err b_src]. rewrite more_more. reflexivity. Qed.
  Lemma feed_feed : forall a b r, feed b (feed a r) = feed (a ++ b) r.
  Proof.
    intros a b [js st|obj st x|c x|x|x]; cbn [feed j_buf j_prev nd_count nd_buf]; rewrite ?more_buf_more; try reflexivity.
    unfold more_csv. cbn [rd_csv rd_header r_st r_width i_buf i_err i_inner]. rewrite more_buf_more. reflexivity.
  Qed.
  Definition not_xlsx (sh : shape) : Prop := structure_data_format (sh_format sh) <> fXLSX.
  Lemma feed_open : forall sh r, sh_compression sh = [] -> not_xlsx sh -> open sh (of_buffer []) = Ok r ->
    forall d, open sh (of_buffer d) = Ok (feed d r).
  Proof.
    intros sh r Hc Hx H d. unfold new_entry_reader in *. destruct (Z.eqb (structure_data_format (sh_format sh)) fCBOR).
    - unfold open_cbor in *. rewrite Hc in *. cbn [wrap_decompressor rthen] in *.
      destruct (required (sh_schema sh)); cbn [rthen] in *; try discriminate.
      destruct (get_top_level_type (sh_schema sh)); cbn [rthen] in *; try discriminate. injection H as <-. reflexivity.
    - destruct (Z.eqb (structure_data_format (sh_format sh)) fJSON).
      + unfold open_json in *. rewrite Hc in *. cbn [wrap_decompressor rthen] in *.
        destruct (required (sh_schema sh)); cbn [rthen] in *; try discriminate.
        destruct (get_top_level_type (sh_schema sh)); cbn [rthen] in *; try discriminate. injection H as <-. reflexivity.
      + destruct (Z.eqb (structure_data_format (sh_format sh)) fCSV).
        * unfold open_csv in *. rewrite Hc in *. cbn [wrap_decompressor rthen] in *.
          destruct (new_csv_reader N order (sh_format sh) (some_map (sh_schema sh)) (sh_config sh)); cbn [rthen] in *; try discriminate.
          injection H as <-. reflexivity.
        * destruct (Z.eqb_spec (structure_data_format (sh_format sh)) fXLSX); [contradiction|].
          destruct (Z.eqb (structure_data_format (sh_format sh)) fNDJSON).
          -- unfold open_nd in *. rewrite Hc in *. cbn [wrap_decompressor rthen] in *.
             destruct (required (sh_schema sh)); cbn [rthen] in *; try discriminate.
             destruct (get_top_level_type (sh_schema sh)) as [t|e| |]; cbn [rthen] in *; try discriminate.
             destruct (negb (beqb t (bs "array"))); [discriminate|]. injection H as <-. reflexivity.
          -- destruct (Z.eqb _ fUnknown); discriminate.
  Qed.
  Lemma make_plain : forall sh w, sh_compression sh = [] -> make sh good_sink = Ok w -> fst w = None.
  Proof.
    intros sh w Hc H. unfold new_entry_writer, make_cbor, make_json, make_csv, make_xlsx, make_nd in H. rewrite Hc in H. cbn [wrap_compressor rthen] in H.
    repeat match type of H with
    | (if ?b then _ else _) = _ => destruct b
    | rthen ?x _ = _ => destruct x; cbn [rthen] in H; try discriminate
    end; try discriminate; injection H as <-; reflexivity.
  Qed.
  (** A writer that holds no bytes of an earlier Close: what it sent only grows. *)
  Definition unclosed (w : option bytes * ewriter) : Prop := fst w = None /\ match snd w with WCbor _ o => o = [] | _ => True end.
  Lemma make_unclosed : forall sh w, sh_compression sh = [] -> make sh good_sink = Ok w -> unclosed w.
  Proof.
    intros sh w Hc H. split; [eapply make_plain; eassumption|]. unfold new_entry_writer, make_cbor, make_json, make_csv, make_xlsx, make_nd in H. rewrite Hc in H. cbn [wrap_compressor rthen] in H.
    repeat match type of H with
    | (if ?b then _ else _) = _ => destruct b
    | rthen ?x _ = _ => destruct x; cbn [rthen] in H; try discriminate
    end; try discriminate; injection H as <-; reflexivity.
  Qed.
  Lemma write_grows : forall w e, unclosed w -> unclosed (snd (wstep w e)) /\ exists d, sent pack (snd (wstep w e)) = sent pack w ++ d.
  Proof.
    intros [c w] e [H1 H2]. cbn in H1, H2. subst c. unfold write_step. cbn [fst snd]. destruct w as [j|cw o|c|n|f].
    - assert (G : exists d, k_out (jw_sink (snd (json_write_entry N fmt_json j e))) = k_out (jw_sink j) ++ d).
      { unfold json_write_entry. pose proof (sink_grows [if jw_obj j then 123%N else 91%N] (jw_sink j)) as G.
        destruct (Nat.eqb (jw_rows j) 0).
        - destruct (sink_write _ (jw_sink j)) as [[x|] k]; cbn [snd] in G; [exact G|].
          destruct (val_bytes N fmt_json j e) as [[data|x] keys]; [|exact G].
          match goal with |- context [sink_write ?d k] => pose proof (sink_grows d k) as G2; destruct (sink_write d k) as [y k2] end.
          cbn [snd] in G2. eapply grow_trans; eassumption.
        - destruct (val_bytes N fmt_json j e) as [[data|x] keys]; [|apply grow_refl].
          match goal with |- context [sink_write ?d ?k] => pose proof (sink_grows d k) as G2; destruct (sink_write d k) as [y k2] end.
          exact G2. }
      destruct (json_write_entry N fmt_json j e) as [x j']. split; [split; reflexivity|exact G].
    - destruct (cbor_write_entry cw e) as [x c']. split; [split; [reflexivity|exact H2]|]. apply grow_refl.
    - assert (G : exists d, k_out (w_dest (wr_out (snd (csv_write_entry N fmt_plain fmt_json wsize c e)))) = k_out (w_dest (wr_out c)) ++ d).
      { unfold csv_write_entry. destruct (e_val e); try apply grow_refl.
        pose proof (csv_write_grows wsize (wr_comma c) (map (cell_text N fmt_plain fmt_json) l) (wr_out c)) as G. cbv beta in G.
        destruct (csv_write _ _ _ _) as [x o]. exact G. }
      destruct (csv_write_entry N fmt_plain fmt_json wsize c e) as [x c']. split; [split; reflexivity|exact G].
    - assert (G : exists d, k_out (w_sink (snd (nd_write_entry N fmt_json n e))) = k_out (w_sink n) ++ d).
      { unfold nd_write_entry. destruct (w_err n); [apply grow_refl|]. destruct (marshal N fmt_json [] [] [] (e_val e)); [|apply grow_refl].
        match goal with |- context [sink_write ?d ?k] => pose proof (sink_grows d k) as G2; destruct (sink_write d k) as [y k2] end. exact G2. }
      destruct (nd_write_entry N fmt_json n e) as [x n']. split; [split; reflexivity|exact G].
    - assert (G : xw_dest (snd (xlsx_write_entry N fmt_plain fmt_json sheet_key keep f e)) = xw_dest f).
      { unfold xlsx_write_entry. repeat match goal with |- context [match ?x with _ => _ end] => destruct x; try reflexivity end. }
      destruct (xlsx_write_entry N fmt_plain fmt_json sheet_key keep f e) as [x f']. split; [split; reflexivity|].
      cbn [snd] in G. unfold sent, dest_bytes. cbn [fst snd]. rewrite G. apply grow_refl.
  Qed.
  (** What Close adds. *)
  Lemma close_grows : forall w, unclosed w -> let w' := snd (cstep w) in
    sent pack w' = sent pack w ++ match snd w' with WCbor _ o => o | _ => skipn (length (sent pack w)) (sent pack w') end.
  Proof.
    intros [c w] [H1 H2]. cbn in H1, H2. subst c. unfold close_step. cbn [fst snd]. destruct w as [j|cw o|c|n|f].
    - assert (G : exists d, k_out (jw_sink (snd (json_close None j))) = k_out (jw_sink j) ++ d).
      { unfold json_close. destruct (Nat.eqb (jw_rows j) 0).
        - match goal with |- context [sink_write ?d ?k] => pose proof (sink_grows d k) as G2; destruct (sink_write d k) as [[y|] k2] end; exact G2.
        - assert (G1 : exists x, k_out (if pretty j then snd (sink_write [10%N] (jw_sink j)) else jw_sink j) = k_out (jw_sink j) ++ x).
          { destruct (pretty j); [apply sink_grows|apply grow_refl]. }
          match goal with |- context [sink_write ?d (if ?a then ?b else ?c)] => pose proof (sink_grows d (if a then b else c)) as G2; destruct (sink_write d (if a then b else c)) as [[y|] k2] end;
          (cbn [snd] in *; eapply grow_trans; eassumption). }
      destruct (json_close None j) as [x j']. cbn [snd] in G. destruct G as [d G]. unfold sent, dest_bytes. cbn [fst snd]. rewrite G.
      rewrite skipn_app, skipn_all, Nat.sub_diag. reflexivity.
    - subst o. reflexivity.
    - unfold csv_close. destruct (flush_grows (wr_out c)) as [d G]. unfold sent, dest_bytes. cbn [fst snd wr_out]. unfold out in G. rewrite G.
      rewrite skipn_app, skipn_all, Nat.sub_diag. reflexivity.
    - cbn [snd]. rewrite skipn_all, app_nil_r. reflexivity.
    - assert (G : exists d, k_out (xw_dest (snd (xlsx_close save f))) = k_out (xw_dest f) ++ d).
      { unfold xlsx_close. match goal with |- context [sink_write ?d ?k] => pose proof (sink_grows d k) as G2; destruct (sink_write d k) as [y k2] end. exact G2. }
      destruct (xlsx_close save f) as [x f']. cbn [snd] in G. destruct G as [d G]. unfold sent, dest_bytes. cbn [fst snd]. rewrite G.
      rewrite skipn_app, skipn_all, Nat.sub_diag. reflexivity.
  Qed.

  Lemma run_take : forall fuel n r w, run fuel (mkEb r w) (repeat CRead n) = map Read (take (rstep fuel) n r).
  Proof.
    induction n as [|n IH]; intros r w; [reflexivity|]. cbn [repeat eb_run take]. unfold eb_call. cbn [eb_r eb_w].
    destruct (rstep fuel r) as [x r']. cbn [map]. rewrite IH. reflexivity.
  Qed.
  (** Writing, perhaps with reads that answer x and leave the reader as it is as long as nothing was sent. *)
  Lemma run_put : forall cs fuel r w x tail, Forall is_step cs -> unclosed w ->
    (In CRead cs -> rstep fuel r = (x, r) /\ forall es, sent pack (snd (put wstep w es)) = []) ->
    run fuel (mkEb (feed (sent pack w) r) w) (cs ++ tail) =
    let '(os, w') := put wstep w (written cs) in answered x cs os ++ run fuel (mkEb (feed (sent pack w') r) w') tail.
  Proof.
    induction cs as [|c cs IH]; intros fuel r w x tail HS Hu HR; [reflexivity|].
    inversion HS as [|? ? Hc HS']; subst. cbn [app eb_run]. destruct c as [e| | |]; try contradiction.
    - unfold eb_call. cbn [eb_w eb_r written put]. destruct (write_grows w e Hu) as [U [d G]].
      destruct (wstep w e) as [o w1] eqn:Ew. cbn [snd] in U, G. rewrite G, skipn_app, skipn_all, Nat.sub_diag. cbn [app skipn].
      rewrite feed_feed, <- G. rewrite (IH fuel r w1 x tail HS' U).
      + destruct (put wstep w1 (written cs)) as [os w2]. reflexivity.
      + intros Hin. destruct (HR (or_intror Hin)) as [R1 R2]. split; [assumption|]. intros es. specialize (R2 (e :: es)).
        cbn [put] in R2. rewrite Ew in R2. destruct (put wstep w1 es) as [os w2]. exact R2.
    - unfold eb_call. cbn [eb_w eb_r written]. destruct (HR (or_introl eq_refl)) as [R1 R2].
      assert (E0 : sent pack w = []) by (exact (R2 [])). rewrite E0.
      assert (F0 : feed [] r = r) .
      { destruct r as [js st|obj st b|c b|b|b]; cbn [feed]; try reflexivity.
        - destruct st as [[bb bc be [sr sf ss]] p]. unfold more_buf, more. cbn. rewrite app_nil_r. reflexivity.
        - destruct b as [bb bc be [sr sf ss]]. unfold more_buf, more. cbn. rewrite app_nil_r. reflexivity.
        - destruct b as [h [wd [ib ie [bb bc be [sr sf ss]]]]]. unfold more_csv, more_buf, more. cbn. rewrite app_nil_r. reflexivity.
        - destruct b as [k [bb bc be [sr sf ss]]]. unfold more_buf, more. cbn. rewrite app_nil_r. reflexivity. }
      rewrite F0, R1. pose proof (IH fuel r w x tail HS' Hu) as IH'. rewrite E0, F0 in IH'. rewrite IH'.
      + destruct (put wstep w (written cs)) as [os w2]. destruct os; reflexivity.
      + intros Hin. apply HR. right. assumption.
  Qed.
  Lemma put_unclosed : forall es w, unclosed w -> unclosed (snd (put wstep w es)).
  Proof.
    induction es as [|e es IH]; intros w H; [assumption|]. cbn [put]. destruct (write_grows w e H) as [U _].
    destruct (wstep w e) as [o w1]. specialize (IH w1 U). destruct (put wstep w1 es) as [os w2]. exact IH.
  Qed.
  Lemma run_close : forall fuel r w n, unclosed w ->
    run fuel (mkEb (feed (sent pack w) r) w) (CClose :: repeat CRead n) =
    let '(x, w') := cstep w in Closed x :: map Read (take (rstep fuel) n (feed (sent pack w') r)).
  Proof.
    intros fuel r w n Hu. cbn [eb_run]. unfold eb_call. cbn [eb_w eb_r]. pose proof (close_grows w Hu) as G.
    destruct (cstep w) as [x w']. cbn [snd] in G. cbv zeta in G. rewrite feed_feed, <- G, run_take. reflexivity.
  Qed.
End Alone.
