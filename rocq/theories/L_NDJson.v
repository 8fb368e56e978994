(** The NDJSON reader splits a stream into lines whatever the chunking, and the writer puts every value on
    one line. *)
From Coq Require Import ZArith Lia ZifyN ZifyBool.
From Verif Require Import Base M_Decimal L_Decimal M_Bufio L_Bufio M_Utf8 S_Utf8 L_Utf8 M_Sink M_Json M_JsonWrite S_JsonText S_JsonBack
  M_Unmarshal S_NDJson M_NDJson L_JsonRead L_JsonMarshal L_Unmarshal.
Ltac Zify.zify_post_hook ::= Z.div_mod_to_equations.

Lemma index_byte_some : forall c s i, index_byte c s = Some i ->
  exists a r, s = a ++ c :: r /\ ~ In c a /\ length a = i.
Proof.
  induction s as [|x s IH]; intros i H; cbn in H; [discriminate|].
  destruct (N.eqb_spec x c) as [->|Hx].
  - injection H as <-. exists [], s. split; [reflexivity|]. split; [intros []|reflexivity].
  - destruct (index_byte c s) as [j|]; [|discriminate]. injection H as <-.
    destruct (IH j eq_refl) as [a [r [-> [Ha Hl]]]]. exists (x :: a), r. split; [reflexivity|]. split; [|cbn; lia].
    intros [E|E]; [congruence|contradiction].
Qed.
Lemma index_byte_none : forall c s, index_byte c s = None -> ~ In c s.
Proof.
  induction s as [|x s IH]; intros H; cbn in H; [intros []|]. destruct (N.eqb_spec x c); [discriminate|].
  destruct (index_byte c s); [discriminate|]. intros [E|E]; [congruence|]. apply IH; auto.
Qed.

(** The first line of the bytes left, or all of them. *)
Definition slice_of (c : N) (cap : nat) (fin : err) (b : bufr) (o : option slice) (b' : bufr) : Prop :=
  buf_ok cap fin b' /\
  match o with
  | Some (SLine d) => exists a, d = a ++ [c] /\ ~ In c a /\ pending b = d ++ pending b'
  | Some (SFull d) => ~ In c d /\ d <> [] /\ pending b = d ++ pending b'
  | Some (SEnd d e) => ~ In c d /\ e = fin /\ pending b = d /\ pending b' = []
  | None => False
  end.
Lemma read_slice_spec : forall fuel c cap fin b, buf_ok cap fin b ->
  ((match b_err b with Some _ => 0 | None => 1 end) + (cap - length (b_buf b)) < fuel)%nat ->
  let '(o, b') := read_slice fuel c b in slice_of c cap fin b o b'.
Proof.
  induction fuel as [|f IH]; intros c cap fin b Hok Hf; [lia|]. cbn [read_slice].
  pose proof Hok as [Hc [Hp [Hl [Hfin He]]]].
  destruct (index_byte c (b_buf b)) as [i|] eqn:Ei.
  - destruct (index_byte_some _ _ _ Ei) as [a [r [Eb [Ha Hi]]]].
    assert (E1 : firstn (S i) (b_buf b) = a ++ [c]).
    { rewrite Eb, <- Hi. replace (a ++ c :: r) with ((a ++ [c]) ++ r) by (rewrite <- app_assoc; reflexivity).
      rewrite firstn_app. rewrite firstn_all2 by (rewrite app_length; cbn [length]; lia).
      replace (S (length a) - length (a ++ [c]))%nat with 0%nat by (rewrite app_length; cbn [length]; lia). apply app_nil_r. }
    assert (E2 : skipn (S i) (b_buf b) = r).
    { rewrite Eb, <- Hi. replace (a ++ c :: r) with ((a ++ [c]) ++ r) by (rewrite <- app_assoc; reflexivity).
      rewrite skipn_app. rewrite skipn_all2 by (rewrite app_length; cbn [length]; lia).
      replace (S (length a) - length (a ++ [c]))%nat with 0%nat by (rewrite app_length; cbn [length]; lia). reflexivity. }
    rewrite E1, E2. split.
    + apply set_buf_ok; [assumption|]. rewrite Eb, app_length. cbn. lia.
    + exists a. split; [reflexivity|]. split; [assumption|]. unfold pending, set_buf. cbn [b_buf b_src]. rewrite Eb, <- !app_assoc. reflexivity.
  - pose proof (index_byte_none _ _ Ei) as Hn. destruct (b_err b) as [e|] eqn:Ee.
    + destruct (He e eq_refl) as [-> Hr]. split.
      * apply clear_err_ok, set_buf_ok; [assumption|cbn; lia].
      * split; [assumption|]. split; [reflexivity|]. unfold pending, clear_err, set_buf; cbn [b_buf b_src]. rewrite Hr, app_nil_r. auto.
    + destruct (Nat.leb_spec (b_cap b) (buffered b)) as [Hfull|Hroom]; unfold buffered in *.
      * split; [apply set_buf_ok; [assumption|cbn; lia]|]. split; [assumption|]. split; [|reflexivity].
        intro E. rewrite E in Hfull. cbn in Hfull. lia.
      * destruct (fill_spec cap fin b Hok ltac:(lia)) as [H1 [H2 [H3 H4]]].
        pose proof H1 as [_ [_ [Hl2 _]]].
        specialize (IH c cap fin (fill b) H1).
        assert (Hf2 : ((match b_err (fill b) with Some _ => 0 | None => 1 end) + (cap - length (b_buf (fill b))) < f)%nat).
        { destruct H3 as [H3|[H3 [H5 _]]].
          - destruct (b_err (fill b)); lia.
          - rewrite H5, H3. lia. }
        specialize (IH Hf2). destruct (read_slice f c (fill b)) as [o b']. unfold slice_of in *. rewrite H2 in IH. exact IH.
Qed.

Lemma read_bytes_spec : forall fuel c cap fin b, buf_ok cap fin b -> (length (pending b) < fuel)%nat ->
  let '(o, b') := read_bytes fuel c b in buf_ok cap fin b' /\
  ((exists a, ~ In c a /\ pending b = a ++ c :: pending b' /\ o = Ok (a ++ [c])) \/
   (~ In c (pending b) /\ pending b' = [] /\ o = Err fin)).
Proof.
  induction fuel as [|f IH]; intros c cap fin b Hok Hf; [lia|]. cbn [read_bytes].
  pose proof Hok as [Hc _].
  pose proof (read_slice_spec (S (S (b_cap b))) c cap fin b Hok) as Hs.
  destruct (read_slice (S (S (b_cap b))) c b) as [o b']. specialize (Hs ltac:(destruct (b_err b); lia)).
  destruct Hs as [H1 H2]. destruct o as [[d|d|d e]|]; [| | |contradiction].
  - destruct H2 as [a [-> [Ha E]]]. split; [assumption|]. left. exists a. rewrite E, <- app_assoc. auto.
  - destruct H2 as [Hd [Hne E]].
    assert (Hf2 : (length (pending b') < f)%nat).
    { rewrite E, app_length in Hf. destruct d; [contradiction|]. cbn in Hf. lia. }
    specialize (IH c cap fin b' H1 Hf2). destruct (read_bytes f c b') as [o2 b2]. destruct IH as [H3 [[a [Ha [E2 ->]]]|[Hn [E2 ->]]]].
    + split; [assumption|]. left. exists (d ++ a). rewrite E, E2, <- !app_assoc. split; [|auto].
      rewrite in_app_iff. tauto.
    + split; [assumption|]. right. rewrite E, in_app_iff. split; [tauto|auto].
  - destruct H2 as [Hd [-> [E1 E2]]]. split; [assumption|]. right. rewrite E1. auto.
Qed.

Lemma first_line : forall (c : N) a b r s, ~ In c a -> ~ In c b -> a ++ c :: r = b ++ c :: s -> a = b /\ r = s.
Proof.
  induction a as [|x a IH]; intros [|y b] r s Ha Hb E; cbn in E.
  - injection E as ->. auto.
  - injection E as <- _. exfalso. apply Hb. left. reflexivity.
  - injection E as -> _. exfalso. apply Ha. left. reflexivity.
  - injection E as -> E. destruct (IH b r s) as [-> ->]; auto; intro; [apply Ha|apply Hb]; right; assumption.
Qed.

Section Reader.
  Variable F : Type.
  Variable parse_float : bytes -> option F.
  Variable depth : nat.
  Notation nd_read_entry := (nd_read_entry F parse_float depth).
  Notation nd_calls := (nd_calls F parse_float depth).
  Notation unmarshal := (unmarshal F parse_float depth).

  (** The results of the calls that read these lines: the entries are numbered by the good lines so far. *)
  Fixpoint line_results (n : nat) (lines : list bytes) : list (res (entry F)) :=
    match lines with
    | [] => []
    | l :: ls => match unmarshal (l ++ [10%N]) with
                 | Ok v => Ok (mkEntry (Z.of_nat n) [] v) :: line_results (S n) ls
                 | Err e => Err e :: line_results n ls
                 | Panic => Panic :: line_results n ls
                 | OutOfFuel => OutOfFuel :: line_results n ls
                 end
    end.

  Lemma nd_end : forall n cap fin r, buf_ok cap fin (nd_buf r) -> ~ In 10%N (pending (nd_buf r)) ->
    nd_calls n r = repeat (Err fin) n.
  Proof.
    induction n as [|n IH]; intros cap fin r Hok Hn; [reflexivity|]. cbn [M_NDJson.nd_calls repeat]. unfold nd_read_entry.
    pose proof (read_bytes_spec (S (length (b_buf (nd_buf r)) + length (s_rem (b_src (nd_buf r))))) 10 cap fin (nd_buf r) Hok) as Hs.
    destruct (read_bytes _ 10 (nd_buf r)) as [o b']. specialize (Hs ltac:(unfold pending; rewrite app_length; lia)).
    destruct Hs as [H1 [[a [_ [E _]]]|[_ [E ->]]]].
    - exfalso. apply Hn. rewrite E. apply in_or_app. right. left. reflexivity.
    - rewrite (IH cap fin); [reflexivity|assumption|]. cbn [nd_buf]. rewrite E. intros [].
  Qed.
  Lemma nd_lines : forall lines rest n cap fin r, buf_ok cap fin (nd_buf r) -> Forall line lines -> line rest ->
    pending (nd_buf r) = stream lines rest ->
    nd_calls (length lines + n) r = line_results (nd_count r) lines ++ repeat (Err fin) n.
  Proof.
    induction lines as [|l lines IH]; intros rest n cap fin r Hok Hl Hr E.
    - cbn [length line_results app Nat.add]. apply (nd_end n cap); [assumption|]. rewrite E. exact Hr.
    - inversion Hl as [|? ? Hl1 Hl2]; subst. cbn [length Nat.add M_NDJson.nd_calls line_results]. unfold nd_read_entry.
      pose proof (read_bytes_spec (S (length (b_buf (nd_buf r)) + length (s_rem (b_src (nd_buf r))))) 10 cap fin (nd_buf r) Hok) as Hs.
      destruct (read_bytes _ 10 (nd_buf r)) as [o b']. specialize (Hs ltac:(unfold pending; rewrite app_length; lia)).
      assert (E0 : pending (nd_buf r) = l ++ 10%N :: stream lines rest).
      { rewrite E. unfold stream. cbn [flat_map]. rewrite <- !app_assoc. reflexivity. }
      destruct Hs as [H1 [[a [Ha [E1 ->]]]|[Hn _]]].
      + rewrite E0 in E1. destruct (first_line 10%N l a _ _ Hl1 Ha E1) as [<- E2].
        destruct (unmarshal (l ++ [10%N])) as [v|e| |].
        * rewrite (IH rest n cap fin) by auto. reflexivity.
        * rewrite (IH rest n cap fin) by auto. reflexivity.
        * rewrite (IH rest n cap fin) by auto. reflexivity.
        * rewrite (IH rest n cap fin) by auto. reflexivity.
      + exfalso. apply Hn. rewrite E0. apply in_or_app. right. left. reflexivity.
  Qed.
End Reader.

(** Strings as written. *)
Lemma ascii_rune : forall c, (c < 128)%N -> encode_rune c = [c].
Proof. intros c H. unfold encode_rune. rewrite (proj2 (N.ltb_lt c 128)) by assumption. reflexivity. Qed.
Lemma schars_ascii : forall c s t, (32 <= c < 128)%N -> c <> 34%N -> c <> 92%N -> schars s t -> schars (c :: s) (c :: t).
Proof.
  intros c s t Hc H1 H2 H. pose proof (sc_rune c s t) as J. rewrite ascii_rune in J by lia. apply J; auto; [unfold scalar; lia|lia].
Qed.
Lemma schars_u : forall a b c d va vb vc vd r s t, hexval a va -> hexval b vb -> hexval c vc -> hexval d vd ->
  r = (va * 4096 + vb * 256 + vc * 16 + vd)%N -> ~ high_half r -> ~ low_half r -> schars s t ->
  schars (encode_rune r ++ s) (92%N :: 117%N :: a :: b :: c :: d :: t).
Proof.
  intros. apply (sc_u r [92; 117; a; b; c; d]%N); auto. exists a, b, c, d, va, vb, vc, vd. auto 10.
Qed.
Lemma quote_ascii_schars : forall c s t, (c < 128)%N -> schars s t -> schars (c :: s) (quote_ascii c ++ t).
Proof.
  intros c s t Hc H. unfold quote_ascii. destruct (html_safe c) eqn:E.
  { unfold html_safe in E. repeat rewrite andb_true_iff in E. rewrite !negb_true_iff, !N.eqb_neq, N.leb_le in E. apply schars_ascii; try tauto; lia. }
  destruct (N.eqb_spec c 34); [subst; apply (sc_short 34%N); [unfold short_escape; lia|assumption]|].
  destruct (N.eqb_spec c 92); [subst; apply (sc_short 92%N); [unfold short_escape; lia|assumption]|].
  cbn [orb].
  destruct (N.eqb_spec c 10); [subst; apply (sc_short 110%N); [unfold short_escape; lia|assumption]|].
  destruct (N.eqb_spec c 13); [subst; apply (sc_short 114%N); [unfold short_escape; lia|assumption]|].
  destruct (N.eqb_spec c 9); [subst; apply (sc_short 116%N); [unfold short_escape; lia|assumption]|].
  pose proof (schars_u 48 48 (hex_char (c / 16)) (hex_char (c mod 16)) 0 0 (c / 16) (c mod 16) c s t) as J.
  rewrite ascii_rune in J by assumption. unfold high_half, low_half in J.
  apply J; [unfold hexval; lia|unfold hexval; lia|apply hex_char_val; lia|apply hex_char_val; lia|lia|lia|lia|assumption].
Qed.
Lemma quote_loop_schars : forall n s, (length s <= n)%nat -> exists s', cleaned s s' /\ schars s' (quote_loop n s).
Proof.
  induction n as [|n IH]; intros s Hn.
  { destruct s; [|cbn in Hn; lia]. exists []. split; constructor. }
  destruct s as [|c t]; [exists []; split; constructor|]. cbn [quote_loop length] in *.
  destruct (N.ltb_spec c 128) as [Hc|Hc].
  { destruct (IH t ltac:(lia)) as [s' [H1 H2]]. exists (c :: s'). split; [|apply quote_ascii_schars; assumption].
    pose proof (cl_rune c t s') as J. rewrite ascii_rune in J by assumption. apply J; [unfold scalar; lia|assumption]. }
  destruct (decode_rune (c :: t)) as [[r k]|] eqn:E.
  - destruct (decode_some _ _ _ E) as [Hr [Hk Es]]. pose proof (encode_length r) as Hl.
    assert (Hlen : (length (skipn k (c :: t)) <= n)%nat) by (rewrite skipn_length; cbn [length]; lia).
    destruct (IH _ Hlen) as [s' [H1 H2]].
    assert (Hcl : cleaned (c :: t) (encode_rune r ++ s')) by (rewrite Es; constructor; assumption).
    assert (Hr128 : (128 <= r)%N).
    { destruct (N.ltb_spec r 128) as [X|X]; [|assumption]. rewrite ascii_rune in Es by assumption. injection Es as Es _. lia. }
    exists (encode_rune r ++ s'). split; [assumption|].
    destruct (N.eqb_spec r 8232) as [->|_].
    { apply (schars_u 50 48 50 56 2 0 2 8); unfold hexval, high_half, low_half; try lia. assumption. }
    destruct (N.eqb_spec r 8233) as [->|_].
    { apply (schars_u 50 48 50 57 2 0 2 9); unfold hexval, high_half, low_half; try lia. assumption. }
    assert (Ef : firstn k (c :: t) = encode_rune r).
    { rewrite Es, Hk, firstn_app, firstn_all, Nat.sub_diag. cbn [firstn]. apply app_nil_r. }
    rewrite Ef. apply sc_rune; auto; lia.
  - destruct (IH t ltac:(lia)) as [s' [H1 H2]]. exists (encode_rune 65533 ++ s'). split.
    + apply cl_bad; [|assumption]. intros r t' Hr. apply decode_none; assumption.
    + apply (schars_u 102 102 102 100 15 15 15 13); unfold hexval, high_half, low_half; try lia. assumption.
Qed.
Lemma quote_schars : forall s s', cleaned s s' -> exists t, quote s = 34%N :: t ++ [34%N] /\ schars s' t.
Proof.
  intros s s' H. destruct (quote_loop_schars (length s) s (le_n _)) as [s2 [H1 H2]].
  rewrite (cleaned_fun _ _ H _ H1). exists (quote_loop (length s) s). split; [reflexivity|assumption].
Qed.
Lemma hexval_10 : forall c v, hexval c v -> c <> 10%N.
Proof. unfold hexval. intros; lia. Qed.
Lemma u_escape_line : forall r u, u_escape r u -> ~ In 10%N u.
Proof.
  intros r u (a & b & c & d & va & vb & vc & vd & -> & Ha & Hb & Hc & Hd & _). unfold hexval in *. cbn. intuition (try congruence; lia).
Qed.
Lemma schars_line : forall s t, schars s t -> ~ In 10%N t.
Proof.
  induction 1 as [|x s t Hx H32 H34 H92 Hs IH|c s t Hb Hs IH|e c s t He Hs IH|x u s t Hu Hh Hl Hs IH|x1 x2 u1 u2 s t Hu1 Hh Hu2 Hl Hs IH|x u s t Hu Hh Hno Hs IH].
  - intros [].
  - rewrite in_app_iff. intros [H|H]; [|contradiction]. destruct (N.ltb_spec x 128) as [X|X].
    + rewrite ascii_rune in H by assumption. cbn in H. destruct H as [H|[]]. lia.
    + pose proof (encode_high x X) as J. rewrite Forall_forall in J. apply J in H. lia.
  - intros [E|E]; [|contradiction]. subst c. apply (Hb 10%N t); [unfold scalar; lia|reflexivity].
  - unfold short_escape in He. intros [E|[E|E]]; [discriminate| |contradiction]. lia.
  - rewrite in_app_iff. apply u_escape_line in Hu. tauto.
  - rewrite !in_app_iff. apply u_escape_line in Hu1, Hu2. tauto.
  - rewrite in_app_iff. apply u_escape_line in Hu. tauto.
Qed.
Lemma quote_line : forall s, ~ In 10%N (quote s).
Proof.
  intros s. destruct (cleaned_total s) as [s' H]. destruct (quote_schars s s' H) as [t [-> Ht]]. apply schars_line in Ht.
  cbn. rewrite in_app_iff. cbn. intuition discriminate.
Qed.
Lemma strict_number_line : forall t, strict_number t -> ~ In 10%N t.
Proof.
  intros t [g [i [f [e [-> [Hg [Hi [Hf He]]]]]]]].
  assert (D : forall d, digits d -> ~ In 10%N d) by (intros d Hd Hin; unfold digits in Hd; rewrite Forall_forall in Hd; apply Hd in Hin; lia).
  rewrite !in_app_iff. intros [H|[H|[H|H]]].
  - destruct Hg as [->| ->]; cbn in H; [tauto|]. destruct H as [H|[]]; discriminate.
  - destruct Hi as [->|[c [r [-> [Hc Hr]]]]]; cbn in H.
    + destruct H as [H|[]]; discriminate.
    + destruct H as [H|H]; [lia|]. apply (D r); assumption.
  - destruct Hf as [->|[r [-> [_ Hr]]]]; cbn in H; [tauto|]. destruct H as [H|H]; [discriminate|]. apply (D r); assumption.
  - destruct He as [->|[x [h [r [-> [Hx [Hh [_ Hr]]]]]]]]; cbn in H; [tauto|]. destruct H as [H|H]; [lia|].
    apply in_app_or in H. destruct H as [H|H]; [|apply (D r); assumption].
    destruct Hh as [->|[->| ->]]; cbn in H; try tauto; destruct H as [H|[]]; discriminate.
Qed.
Lemma digits_int : forall n, int_part (dec n).
Proof.
  intros n. destruct (dec n) as [|c t] eqn:E; [exfalso; exact (dec_nonempty n E)|].
  assert (Hd : Forall (fun c => (48 <= c <= 57)%N) (c :: t)) by (rewrite <- E; apply Forall_forall; intros x Hx; apply dec_in in Hx; assumption).
  inversion Hd as [|? ? Hc Ht]; subst. destruct (N.eqb_spec c 48) as [->|Hne].
  - rewrite (dec_no_leading_zero n _ _ E eq_refl). left. reflexivity.
  - right. exists c, t. split; [reflexivity|]. split; [lia|exact Ht].
Qed.
Lemma itoa_strict : forall z, strict_number (itoa z).
Proof.
  intros z. unfold itoa. destruct (z <? 0)%Z.
  - exists [45%N], (dec (Z.abs_N z)), [], []. rewrite !app_nil_r. split; [reflexivity|]. split; [auto|]. split; [apply digits_int|].
    split; left; reflexivity.
  - exists [], (dec (Z.to_N z)), [], []. rewrite !app_nil_r. split; [reflexivity|]. split; [auto|]. split; [apply digits_int|].
    split; left; reflexivity.
Qed.
Lemma base64_schars : forall s t, base64 s t -> schars t t.
Proof.
  intros s t H.
  assert (A : Forall (fun c => (32 <= c < 128)%N /\ c <> 34%N /\ c <> 92%N) t).
  { assert (P : forall n c, sextet n c -> (32 <= c < 128)%N /\ c <> 34%N /\ c <> 92%N).
    { intros n c Hs. unfold sextet in Hs. apply nth_error_In in Hs.
      assert (X : forallb (fun c => ((32 <=? c) && (c <? 128) && negb (c =? 34) && negb (c =? 92))%N) alphabet = true) by reflexivity.
      rewrite forallb_forall in X. apply X in Hs. lia. }
    induction H; repeat (apply Forall_cons; [first [lia|eapply P; eassumption]|]); auto. }
  clear H. induction A as [|c t [H1 [H2 H3]] A IH]; [constructor|]. apply schars_ascii; auto.
Qed.

Local Opaque quote.
Section Writer.
  Variable F : Type.
  Variable fmt_float : F -> option bytes.
  Variable parse_float : bytes -> option F.
  Notation gval := (gval F).
  Notation marshal := (marshal F fmt_float).
  Notation stext := (stext F parse_float).
  Notation stail := (stail F parse_float).
  Notation spair := (spair F parse_float).
  Notation sptail := (sptail F parse_float).

  Lemma marshal_line : (forall f t, fmt_float f = Some t -> ~ In 10%N t) ->
    forall v t, marshal [] [] [] v = Some t -> ~ In 10%N t.
  Proof.
    intros Hfmt. induction v as [|b|z|f|s|s|l IH|m IH] using gval_ind2; intros t Hm.
    - cbn in Hm. injection Hm as <-. cbn. intuition discriminate.
    - destruct b; cbn in Hm; injection Hm as <-; cbn; intuition discriminate.
    - cbn in Hm. injection Hm as <-. apply strict_number_line, itoa_strict.
    - eapply Hfmt. exact Hm.
    - cbn in Hm. injection Hm as <-. apply quote_line.
    - cbn in Hm. injection Hm as <-. intros [E|E]; [discriminate|]. rewrite in_app_iff in E. destruct E as [E|[E|[]]]; [|discriminate].
      assert (X : forall n, b64_char n <> 10%N) by (intros n; unfold b64_char; repeat match goal with |- context [if ?b then _ else _] => destruct b eqn:? end; lia).
      revert E. clear -X. revert s.
      fix REC 1. intros [|a [|b [|c s]]] E; cbn [b64] in E; try contradiction.
      + cbn in E. intuition (try congruence; try (eapply X; eassumption)).
      + cbn in E. intuition (try congruence; try (eapply X; eassumption)).
      + cbn [app In] in E. destruct E as [E|[E|[E|[E|E]]]]; try (eapply X; eassumption). exact (REC s E).
    - destruct l as [|v l]; [cbn in Hm; injection Hm as <-; cbn; intuition discriminate|].
      rewrite marshal_arr in Hm. cbn [app] in Hm. inversion IH as [|? ? IHv IHl]; subst.
      destruct (marshal [] [] [] v) as [a|] eqn:Ea; [|discriminate]. specialize (IHv a eq_refl).
      destruct (marshal_tail F fmt_float [] [] [] l) as [b|] eqn:Eb; [|discriminate]. injection Hm as <-.
      assert (Hb : ~ In 10%N b).
      { clear -IHl Eb. revert b Eb. induction l as [|x l IH2]; intros b Eb; [cbn in Eb; injection Eb as <-; intros []|].
        cbn [marshal_tail app] in Eb. inversion IHl as [|? ? IHx IHl2]; subst.
        destruct (marshal [] [] [] x) as [a1|] eqn:Ea; [|discriminate]. specialize (IHx a1 eq_refl).
        destruct (marshal_tail F fmt_float [] [] [] l) as [b1|] eqn:Eb1; [|discriminate]. injection Eb as <-.
        specialize (IH2 IHl2 b1 eq_refl). intros [E|E]; [discriminate|]. apply in_app_or in E. tauto. }
      intros [E|E]; [discriminate|]. rewrite !in_app_iff in E. cbn in E. intuition discriminate.
    - destruct m as [|[k v] l]; [cbn in Hm; injection Hm as <-; cbn; intuition discriminate|].
      rewrite marshal_map in Hm. cbn [app] in Hm. inversion IH as [|? ? IHv IHl]; subst. cbn [snd] in IHv.
      destruct (marshal [] [] [] v) as [a|] eqn:Ea; [|discriminate]. specialize (IHv a eq_refl).
      destruct (marshal_ptail F fmt_float [] [] [] l) as [b|] eqn:Eb; [|discriminate]. injection Hm as <-.
      assert (Hb : ~ In 10%N b).
      { clear -IHl Eb. revert b Eb. induction l as [|[kx x] l IH2]; intros b Eb; [cbn in Eb; injection Eb as <-; intros []|].
        cbn [marshal_ptail app] in Eb. inversion IHl as [|? ? IHx IHl2]; subst. cbn [snd] in IHx.
        destruct (marshal [] [] [] x) as [a1|] eqn:Ea; [|discriminate]. specialize (IHx a1 eq_refl).
        destruct (marshal_ptail F fmt_float [] [] [] l) as [b1|] eqn:Eb1; [|discriminate]. injection Eb as <-.
        specialize (IH2 IHl2 b1 eq_refl). intros [E|E]; [discriminate|]. apply in_app_or in E. destruct E as [E|[E|E]].
        - exact (quote_line kx E). - discriminate. - apply in_app_or in E. tauto. }
      intros [E|E]; [discriminate|]. apply in_app_or in E. destruct E as [E|[E|E]].
      + exact (quote_line k E). + discriminate. + rewrite !in_app_iff in E. cbn in E. intuition discriminate.
  Qed.

  Lemma blank_nil : blank [].
  Proof. constructor. Qed.
  Local Hint Resolve blank_nil : core.

  Lemma marshal_strict : strict_format F fmt_float parse_float ->
    forall v v' d t, line_back F parse_float v v' -> deep F d v -> marshal [] [] [] v = Some t -> stext d v' t.
  Proof.
    intros Hfmt. induction v as [|b|z|f|s|s|l IH|m IH] using gval_ind2; intros v' d t Hb Hd Hm.
    - inversion Hb; subst. cbn in Hm. injection Hm as <-. constructor.
    - inversion Hb; subst. destruct b; cbn in Hm; injection Hm as <-; constructor.
    - inversion Hb; subst. cbn in Hm. injection Hm as <-. constructor; [apply itoa_strict|assumption].
    - inversion Hb; subst. cbn in Hm. destruct (Hfmt f t Hm). constructor; assumption.
    - inversion Hb; subst. cbn in Hm. injection Hm as <-. destruct (quote_schars s s') as [t [-> Ht]]; [assumption|].
      constructor. assumption.
    - inversion Hb as [| | | | |? t0 H64| |]; subst. cbn in Hm. injection Hm as <-. rewrite (b64_base64 _ _ H64). constructor.
      eapply base64_schars; eassumption.
    - inversion Hb as [| | | | | |? l' Hl|]; subst. inversion Hd as [| | | | | |d' ? Hdl|]; subst.
      destruct l as [|v l].
      { inversion Hl; subst. cbn in Hm. injection Hm as <-. apply (st_arr0 _ _ d' []). auto. }
      rewrite marshal_arr in Hm. cbn [app] in Hm. inversion Hl as [|? v1 ? l1 Hv Hl1]; subst. inversion IH as [|? ? IHv IHl]; subst.
      inversion Hdl as [|? ? Hdv Hdl2]; subst.
      destruct (marshal [] [] [] v) as [a|] eqn:Ea; [|discriminate].
      destruct (marshal_tail F fmt_float [] [] [] l) as [b|] eqn:Eb; [|discriminate]. injection Hm as <-.
      change (a ++ b ++ [93%N]) with ([] ++ a ++ b ++ [93%N]). apply st_arr; [auto|eauto|].
      clear Hl Hb Hd Hdl Hv Hdv Ea IHv IH. revert b Eb. induction Hl1 as [|x x' l l' Hx Hl IH2]; intros b Eb.
      + cbn in Eb. injection Eb as <-. constructor. auto.
      + cbn [marshal_tail app] in Eb. inversion IHl as [|? ? IHx IHl2]; subst. inversion Hdl2 as [|? ? Hdx Hdl3]; subst.
        destruct (marshal [] [] [] x) as [a1|] eqn:Ea; [|discriminate].
        destruct (marshal_tail F fmt_float [] [] [] l) as [b1|] eqn:Eb1; [|discriminate]. injection Eb as <-.
        change (44%N :: a1 ++ b1) with ([] ++ 44%N :: [] ++ a1 ++ b1). constructor; eauto.
    - inversion Hb as [| | | | | | |? m' Hl]; subst. inversion Hd as [| | | | | | |d' ? Hdl]; subst.
      destruct m as [|[k v] l].
      { inversion Hl; subst. cbn in Hm. injection Hm as <-. apply (st_obj0 _ _ d' []). auto. }
      rewrite marshal_map in Hm. cbn [app] in Hm. inversion Hl as [|? [k1 v1] ? l1 [Hk Hv] Hl1]; subst. inversion IH as [|? ? IHv IHl]; subst.
      inversion Hdl as [|? ? Hdv Hdl2]; subst. cbn [fst snd] in *.
      destruct (marshal [] [] [] v) as [a|] eqn:Ea; [|discriminate].
      destruct (marshal_ptail F fmt_float [] [] [] l) as [b|] eqn:Eb; [|discriminate]. injection Hm as <-.
      assert (HP : forall k k1 v1 a, cleaned k k1 -> stext d' v1 a -> spair d' (k1, v1) (quote k ++ 58%N :: a)).
      { intros k0 k2 v2 a0 Hc0 Hj0. destruct (quote_schars k0 k2 Hc0) as [kt [-> Hkt]].
        cbn [app]. rewrite <- app_assoc. cbn [app]. apply (spr_intro _ _ d' k2 kt v2 a0 [] []); auto. }
      replace (quote k ++ 58%N :: a ++ b ++ [125%N]) with ([] ++ (quote k ++ 58%N :: a) ++ b ++ [125%N])
        by (cbn [app]; rewrite <- !app_assoc; reflexivity).
      apply st_obj; [auto|apply HP; eauto|].
      clear Hl Hb Hd Hdl Hv Hdv Ea IHv IH Hk. revert b Eb. induction Hl1 as [|[kx x] [kx' x'] l l' [Hkx Hx] Hl IH2]; intros b Eb.
      + cbn in Eb. injection Eb as <-. constructor. auto.
      + cbn [marshal_ptail app] in Eb. inversion IHl as [|? ? IHx IHl2]; subst. inversion Hdl2 as [|? ? Hdx Hdl3]; subst. cbn [fst snd] in *.
        destruct (marshal [] [] [] x) as [a1|] eqn:Ea; [|discriminate].
        destruct (marshal_ptail F fmt_float [] [] [] l) as [b1|] eqn:Eb1; [|discriminate]. injection Eb as <-.
        replace (44%N :: quote kx ++ 58%N :: a1 ++ b1) with ([] ++ 44%N :: [] ++ (quote kx ++ 58%N :: a1) ++ b1)
          by (cbn [app]; rewrite <- !app_assoc; reflexivity).
        constructor; eauto.
  Qed.
End Writer.
