(** The buffered output of the CSV writer. *)
From Coq Require Import ZArith Lia.
From Verif Require Import Base M_Bufio M_Utf8 M_Unmarshal M_Sink M_CsvText S_Csv L_CsvText.

Section Out.
  Variable wsize : nat.
  Hypothesis big : (4 <= wsize)%nat.

  Definition total (w : bufw) : bytes := k_out (w_dest w) ++ w_buf w.
  Definition bw_ok (w : bufw) : Prop := w_sticky w = None /\ (length (w_buf w) <= wsize)%nat.
  Definition prefix_of (p s : bytes) : Prop := exists q, s = p ++ q.
  (** After an operation that should add d: done, or failed for good with part of the text delivered. *)
  Definition added (w : bufw) (d : bytes) (x : option err * bufw) : Prop :=
    (fst x = None /\ bw_ok (snd x) /\ total (snd x) = total w ++ d /\ prefix_of (k_out (w_dest w)) (k_out (w_dest (snd x)))) \/
    (exists e, fst x = Some e /\ w_sticky (snd x) = Some e /\ prefix_of (k_out (w_dest (snd x))) (total w ++ d) /\ k_plan (w_dest w) <> []).
  Definition good (w : bufw) : Prop := k_plan (w_dest w) = [].
  Definition op (f : bufw -> option err * bufw) (d : bytes) : Prop :=
    (forall w, bw_ok w -> added w d (f w) /\ (good w -> good (snd (f w)))).
  Definition stuck (f : bufw -> option err * bufw) : Prop := forall w e, w_sticky w = Some e -> f w = (Some e, w).

  Lemma flush_op : op bw_flush [].
  Proof.
    intros w [Hs Hl]. unfold bw_flush. rewrite Hs. destruct (w_buf w) as [|c t] eqn:Eb.
    - split; [|auto]. left. cbn [fst snd]. split; [reflexivity|]. split; [split; [assumption|rewrite Eb; assumption]|]. split; [rewrite app_nil_r; reflexivity|].
      exists []. rewrite app_nil_r. reflexivity.
    - unfold sink_write, good, added, total. rewrite <- Eb. destruct (k_plan (w_dest w)) as [|[[n e]|] p] eqn:Ep; cbn [fst snd k_out k_plan w_dest w_buf w_sticky].
      + split; [|auto]. left. split; [reflexivity|]. split; [split; [reflexivity|cbn [w_buf length]; lia]|]. split; [rewrite !app_nil_r; reflexivity|]. eexists. reflexivity.
      + split; [|discriminate]. right. exists e. split; [reflexivity|]. split; [reflexivity|]. split; [|discriminate].
        exists (skipn n (w_buf w)). rewrite app_nil_r, <- app_assoc, firstn_skipn. reflexivity.
      + split; [|discriminate]. left. split; [reflexivity|]. split; [split; [reflexivity|cbn [w_buf length]; lia]|]. split; [rewrite !app_nil_r; reflexivity|]. eexists. reflexivity.
  Qed.
  Lemma flush_empty : forall w, bw_ok w -> fst (bw_flush w) = None -> w_buf (snd (bw_flush w)) = [].
  Proof.
    intros w [Hs Hl] H. unfold bw_flush in *. rewrite Hs in *. destruct (w_buf w) as [|c t] eqn:Eb; [assumption|].
    destruct (sink_write (c :: t) (w_dest w)) as [[e|] k]; [discriminate|reflexivity].
  Qed.
  Lemma flush_stuck : stuck bw_flush.
  Proof. intros w e H. unfold bw_flush. rewrite H. reflexivity. Qed.
  Lemma add_added : forall w d, bw_ok w -> (length (w_buf w) + length d <= wsize)%nat -> added w d (None, bw_add w d).
  Proof.
    intros w d [Hs Hl] H. left. cbn [fst snd]. split; [reflexivity|]. split; [split; [assumption|]|split].
    - unfold bw_add. cbn [w_buf]. rewrite app_length. lia.
    - unfold total, bw_add. cbn [w_dest w_buf]. apply app_assoc.
    - exists []. unfold bw_add. cbn [w_dest]. rewrite app_nil_r. reflexivity.
  Qed.
  Lemma prefix_app : forall p s d, prefix_of p s -> prefix_of p (s ++ d).
  Proof. intros p s d [q ->]. exists (q ++ d). rewrite app_assoc. reflexivity. Qed.
  Lemma op_then : forall f g d1 d2, op f d1 -> op g d2 -> op (fun w => bw_then (f w) g) (d1 ++ d2).
  Proof.
    intros f g d1 d2 Hf Hg w Hw. destruct (Hf w Hw) as [A Ga]. unfold bw_then. destruct (f w) as [[e|] w1]; cbn [fst snd] in *.
    - destruct A as [[X _]|[e' [E [S1 [P N]]]]]; [discriminate|]. split; [|assumption]. right. exists e'. cbn [fst snd]. split; [assumption|]. split; [assumption|].
      split; [rewrite app_assoc; apply prefix_app; assumption|assumption].
    - destruct A as [[_ [K [T [q Q]]]]|[e' [X _]]]; [|discriminate]. cbn [fst snd] in *. destruct (Hg w1 K) as [B Gb]. split; [|auto].
      destruct B as [[B1 [B2 [B3 [q2 B4]]]]|[e' [B1 [B2 [B3 B4]]]]].
      + left. split; [assumption|]. split; [assumption|]. split; [rewrite B3, T, app_assoc; reflexivity|]. exists (q ++ q2). rewrite B4, Q, app_assoc. reflexivity.
      + right. exists e'. split; [assumption|]. split; [assumption|]. split; [rewrite T in B3; rewrite app_assoc; assumption|].
        intros X. apply B4. apply Ga. exact X.
  Qed.
  Lemma stuck_then : forall f g, stuck f -> stuck (fun w => bw_then (f w) g).
  Proof. intros f g Hf w e H. rewrite (Hf w e H). reflexivity. Qed.
  Lemma ret_op : op (fun w => (None, w)) [].
  Proof.
    intros w Hw. split; [|auto]. left. cbn [fst snd]. split; [reflexivity|]. split; [assumption|]. split; [rewrite app_nil_r; reflexivity|]. exists []. rewrite app_nil_r. reflexivity.
  Qed.
  Lemma op_ext : forall f g d, op f d -> (forall w, g w = f w) -> op g d.
  Proof. intros f g d H E w Hw. rewrite E. apply H. assumption. Qed.

  Lemma string_op : forall fuel s w, bw_ok w -> (length s < fuel \/ length s = fuel /\ (0 < bw_room wsize w))%nat ->
    added w s (bw_string wsize fuel w s) /\ (good w -> good (snd (bw_string wsize fuel w s))).
  Proof.
    induction fuel as [|fuel IH]; intros s w Hw Hf.
    { destruct Hf as [Hf|[Hf Hr]]; [lia|]. destruct s; [|discriminate]. apply ret_op. assumption. }
    cbn [bw_string]. pose proof Hw as [Hs Hl]. rewrite Hs, andb_true_r.
    destruct (Nat.ltb_spec (bw_room wsize w) (length s)) as [Hlt|Hge].
    - set (n := bw_room wsize w) in *.
      assert (Hn : length (firstn n s) = n) by (rewrite firstn_length; lia).
      assert (K : bw_ok (bw_add w (firstn n s))).
      { split; [assumption|]. unfold bw_add. cbn [w_buf]. rewrite app_length, Hn. unfold n, bw_room. lia. }
      destruct (flush_op _ K) as [A Ga]. pose proof (flush_empty _ K) as Fe.
      assert (Ta : total (bw_add w (firstn n s)) = total w ++ firstn n s) by (unfold total, bw_add; cbn [w_dest w_buf]; apply app_assoc).
      destruct (bw_flush (bw_add w (firstn n s))) as [r w1]. cbn [fst snd] in *.
      destruct A as [[A1 [A2 [A3 [q A4]]]]|[e [A1 [A2 [A3 A4]]]]].
      + cbn [fst snd] in *. subst r. specialize (Fe eq_refl).
        assert (R1 : bw_room wsize w1 = wsize) by (unfold bw_room; rewrite Fe; cbn [length]; lia).
        destruct (IH (skipn n s) w1 A2) as [B Gb]; [rewrite skipn_length, R1; lia|].
        rewrite Ta, app_nil_r in A3. split; [|intros G; apply Gb, Ga; exact G].
        destruct B as [[B1 [B2 [B3 [q2 B4]]]]|[e [B1 [B2 [B3 B4]]]]].
        * left. split; [assumption|]. split; [assumption|]. split; [rewrite B3, A3, <- app_assoc, firstn_skipn; reflexivity|].
          exists (q ++ q2). rewrite B4, A4. rewrite app_assoc. reflexivity.
        * right. exists e. split; [assumption|]. split; [assumption|]. rewrite A3, <- app_assoc, firstn_skipn in B3. split; [assumption|].
          intros X. apply B4. apply Ga. exact X.
      + cbn [fst snd] in *. subst r.
        assert (E : bw_string wsize fuel w1 (skipn n s) = (Some e, w1)).
        { destruct fuel as [|fuel]; [exfalso|cbn [bw_string]; rewrite A2, andb_false_r; reflexivity].
          destruct Hf as [Hf|[Hf Hr]]; [lia|]. lia. }
        rewrite E. cbn [fst snd]. split; [|assumption]. right. exists e. cbn [fst snd]. split; [reflexivity|]. split; [assumption|]. split; [|exact A4].
        rewrite Ta, app_nil_r in A3. rewrite <- (firstn_skipn n s), app_assoc. apply prefix_app. assumption.
    - split; [|auto]. apply add_added; [assumption|]. unfold bw_room in Hge. lia.
  Qed.
  Lemma write_string_op : forall s, op (fun w => bw_write_string wsize w s) s.
  Proof. intros s w Hw. apply string_op; [assumption|left; lia]. Qed.
  Lemma write_string_stuck : forall s, stuck (fun w => bw_write_string wsize w s).
  Proof. intros s w e H. unfold bw_write_string. cbn [bw_string]. rewrite H, andb_false_r. reflexivity. Qed.
  Lemma flushed_add : forall d, (length d <= wsize)%nat -> op (fun w => match bw_flush w with (Some e, w') => (Some e, w') | (None, w') => (None, bw_add w' d) end) d.
  Proof.
    intros d Hd w Hw. destruct (flush_op w Hw) as [A Ga]. pose proof (flush_empty w Hw) as Fe.
    destruct (bw_flush w) as [[e|] w1]; cbn [fst snd] in *.
    - destruct A as [[X _]|[e' [E [S1 [P N]]]]]; [discriminate|]. split; [|assumption]. right. exists e'. split; [assumption|]. split; [assumption|].
      split; [|assumption]. rewrite app_nil_r in P. apply prefix_app. assumption.
    - destruct A as [[_ [K [T [q Q]]]]|[e' [X _]]]; [|discriminate]. rewrite app_nil_r in T. cbn [fst snd] in *. split; [|assumption].
      destruct (add_added w1 d K) as [[B1 [B2 [B3 [q2 B4]]]]|[e' [X _]]]; [rewrite (Fe eq_refl); cbn [length]; lia| |discriminate].
      left. split; [assumption|]. split; [assumption|]. split; [rewrite B3, T; reflexivity|]. exists (q ++ q2). rewrite B4, Q, app_assoc. reflexivity.
  Qed.
  Lemma byte_op : forall c, op (fun w => bw_byte wsize w c) [c].
  Proof.
    intros c w Hw. pose proof Hw as [Hs Hl]. unfold bw_byte. rewrite Hs. destruct (Nat.eqb_spec (bw_room wsize w) 0) as [E|E].
    - apply (flushed_add [c]); [cbn [length]; lia|assumption].
    - split; [|auto]. apply add_added; [assumption|]. unfold bw_room in E. cbn [length]. lia.
  Qed.
  Lemma byte_stuck : forall c, stuck (fun w => bw_byte wsize w c).
  Proof. intros c w e H. unfold bw_byte. rewrite H. reflexivity. Qed.
  Lemma encode_rune_short : forall r, (length (encode_rune r) <= 4)%nat.
  Proof.
    intros r. unfold encode_rune. repeat match goal with |- context [if ?b then _ else _] => destruct b end; cbn [length]; lia.
  Qed.
  Lemma rune_op : forall r, op (fun w => bw_rune wsize w r) (encode_rune r).
  Proof.
    intros r w Hw. pose proof Hw as [Hs Hl]. unfold bw_rune. destruct (N.ltb_spec r 128) as [H|H].
    - replace (encode_rune r) with [r]; [apply byte_op; assumption|]. unfold encode_rune. apply N.ltb_lt in H. rewrite H. reflexivity.
    - rewrite Hs. destruct (Nat.ltb_spec (bw_room wsize w) 4) as [E|E].
      + apply (flushed_add (encode_rune r)); [pose proof (encode_rune_short r); lia|assumption].
      + split; [|auto]. apply add_added; [assumption|]. unfold bw_room in E. pose proof (encode_rune_short r). lia.
  Qed.
  Lemma rune_stuck : forall r, stuck (fun w => bw_rune wsize w r).
  Proof. intros r w e H. unfold bw_rune. destruct (r <? 128)%N; [apply byte_stuck; assumption|]. rewrite H. reflexivity. Qed.

  Lemma plain_part_spec : forall s a b, plain_part s = (a, b) -> s = a ++ b /\ (forall c, In c a -> special c = false) /\ match b with [] => True | c :: _ => special c = true end.
  Proof.
    induction s as [|c t IH]; intros a b H; cbn [plain_part] in H.
    - injection H as <- <-. repeat split. intros c [].
    - destruct (special c) eqn:E.
      + injection H as <- <-. repeat split; [intros x []|assumption].
      + destruct (plain_part t) as [a' b'] eqn:P. injection H as <- <-. destruct (IH _ _ eq_refl) as [-> [H1 H2]].
        split; [reflexivity|]. split; [intros x [<-|X]; auto|assumption].
  Qed.
  Lemma doubled_plain : forall a, (forall c, In c a -> special c = false) -> doubled a = a.
  Proof.
    induction a as [|c a IH]; intros H; [reflexivity|]. unfold doubled in *. cbn [flat_map]. pose proof (H c (or_introl eq_refl)) as X. unfold special in X.
    destruct (N.eqb c 34); [discriminate|]. cbn [app]. f_equal. apply IH. intros x Hx. apply H. right. assumption.
  Qed.
  Lemma doubled_app : forall a b, doubled (a ++ b) = doubled a ++ doubled b.
  Proof. intros a b. unfold doubled. rewrite flat_map_app. reflexivity. Qed.
  Lemma quoted_op : forall fuel s, (length s < fuel)%nat -> op (fun w => bw_quoted wsize fuel w s) (doubled s).
  Proof.
    induction fuel as [|fuel IH]; intros s Hf; [lia|]. destruct s as [|c0 s0] eqn:Es; [exact ret_op|]. rewrite <- Es in *.
    destruct (plain_part s) as [a b] eqn:P. destruct (plain_part_spec _ _ _ P) as [E1 [E2 E3]].
    eapply op_ext with (f := fun w => bw_then (bw_write_string wsize w a) (fun w => match b with [] => (None, w) | c :: r =>
        bw_then (if N.eqb c 34 then bw_write_string wsize w [34; 34]%N else bw_byte wsize w c) (fun w => bw_quoted wsize fuel w r) end)).
    - rewrite E1, doubled_app, (doubled_plain a E2).
      apply (op_then (fun w => bw_write_string wsize w a) (fun w => match b with [] => (None, w) | c :: r =>
        bw_then (if N.eqb c 34 then bw_write_string wsize w [34; 34]%N else bw_byte wsize w c) (fun w => bw_quoted wsize fuel w r) end)); [apply write_string_op|].
      destruct b as [|c r]; [exact ret_op|].
      change (doubled (c :: r)) with ((if N.eqb c 34 then [34; 34]%N else [c]) ++ doubled r).
      apply (op_then (fun w => if N.eqb c 34 then bw_write_string wsize w [34; 34]%N else bw_byte wsize w c) (fun w => bw_quoted wsize fuel w r)).
      + destruct (N.eqb c 34); [apply write_string_op|apply byte_op].
      + apply IH. apply (f_equal (@length N)) in E1. rewrite app_length in E1. cbn [length] in E1. lia.
    - intros w. cbn [bw_quoted]. rewrite Es. rewrite <- Es, P. reflexivity.
  Qed.
  Definition cell_out (comma : N) (f : bytes) : bytes := if needs_quotes comma f then 34%N :: doubled f ++ [34%N] else f.
  Lemma field_op : forall comma f, op (fun w => bw_field wsize comma w f) (cell_out comma f).
  Proof.
    intros comma f. unfold bw_field, cell_out. destruct (needs_quotes comma f); [|apply write_string_op].
    apply (op_then (fun w => bw_byte wsize w 34) _ [34%N] (doubled f ++ [34%N])); [apply byte_op|].
    apply (op_then (fun w => bw_quoted wsize (S (length f)) w f) (fun w => bw_byte wsize w 34)); [apply quoted_op; lia|apply byte_op].
  Qed.
  Lemma field_stuck : forall comma f, stuck (fun w => bw_field wsize comma w f).
  Proof.
    intros comma f w e H. unfold bw_field. destruct (needs_quotes comma f); [|apply write_string_stuck; assumption].
    rewrite (byte_stuck 34 w e H). reflexivity.
  Qed.
  Fixpoint cells_out (comma : N) (fs : list bytes) : bytes :=
    match fs with
    | [] => []
    | [f] => cell_out comma f
    | f :: r => cell_out comma f ++ encode_rune comma ++ cells_out comma r
    end.
  Lemma fields_op : forall comma fs b, op (fun w => bw_fields wsize comma b w fs)
    (match fs with [] => [] | _ => if b then cells_out comma fs else encode_rune comma ++ cells_out comma fs end).
  Proof.
    intros comma. induction fs as [|f r IH]; intros b; [exact ret_op|].
    assert (E : (if b then cells_out comma (f :: r) else encode_rune comma ++ cells_out comma (f :: r)) =
      (if b then [] else encode_rune comma) ++ cell_out comma f ++ match r with [] => [] | _ => encode_rune comma ++ cells_out comma r end).
    { destruct b, r; cbn [cells_out]; rewrite ?app_nil_r; reflexivity. }
    rewrite E. cbn [bw_fields].
    apply (op_then (fun w => if b then (None, w) else bw_rune wsize w comma) (fun w => bw_then (bw_field wsize comma w f) (fun w => bw_fields wsize comma false w r))).
    - destruct b; [exact ret_op|apply rune_op].
    - apply (op_then (fun w => bw_field wsize comma w f) (fun w => bw_fields wsize comma false w r)); [apply field_op|]. apply (IH false).
  Qed.
  Definition line_out (comma : N) (fs : list bytes) : bytes := cells_out comma fs ++ [10%N].
  Lemma write_op : forall comma fs, valid_delim comma = true -> op (fun w => csv_write wsize comma w fs) (line_out comma fs).
  Proof.
    intros comma fs Hc. unfold csv_write. rewrite Hc. unfold line_out.
    apply (op_then (fun w => bw_fields wsize comma true w fs) (fun w => bw_byte wsize w 10)); [|apply byte_op].
    pose proof (fields_op comma fs true) as H. destruct fs; assumption.
  Qed.
  Lemma write_stuck : forall comma fs, valid_delim comma = true -> stuck (fun w => csv_write wsize comma w fs).
  Proof.
    intros comma fs Hc w e H. unfold csv_write. rewrite Hc. destruct fs as [|f r].
    - cbn [bw_fields bw_then]. apply byte_stuck. assumption.
    - cbn [bw_fields bw_then]. rewrite (field_stuck comma f w e H). reflexivity.
  Qed.
End Out.
