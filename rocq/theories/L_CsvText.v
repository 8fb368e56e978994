(** The records of encoding/csv are those the text says. *)
From Coq Require Import ZArith Lia ZifyN ZifyBool.
From Verif Require Import Base M_Utf8 S_Utf8 L_Utf8 M_Unmarshal M_NDJson L_NDJson M_CsvText S_Csv.
Ltac Zify.zify_post_hook ::= Z.div_mod_to_equations.

Definition is_eof (e : err) : bool := match e with EOF => true | _ => false end.
(** All CR LF pairs replaced; a CR at the end of the text dropped. *)
Fixpoint clean (fin : err) (T : bytes) : bytes :=
  match T with
  | [] => []
  | c :: t =>
      if N.eqb c 13 then
        match t with
        | [] => if is_eof fin then [] else [c]
        | d :: _ => if N.eqb d 10 then clean fin t else c :: clean fin t
        end
      else c :: clean fin t
  end.
(** readLine on a plain list of bytes that ends with error fin. *)
Definition pure_line (fin : err) (T : bytes) : option (bytes * option err) * bytes :=
  match index_byte 10 T with
  | Some i => (Some (finish_line (firstn (S i) T) None), skipn (S i) T)
  | None => (Some (finish_line T (Some fin)), [])
  end.

Lemma drop_last_cr_snoc : forall x c, drop_last_cr (x ++ [c]) = if N.eqb c 13 then x else x ++ [c].
Proof. intros x c. unfold drop_last_cr. rewrite rev_app_distr. cbn [rev app]. rewrite rev_involutive. reflexivity. Qed.
Lemma crlf_lf : forall a, crlf_to_lf (a ++ [10%N]) = drop_last_cr a ++ [10%N].
Proof.
  intros a. destruct (rev a) as [|c r] eqn:E.
  - apply (f_equal (@rev N)) in E. rewrite rev_involutive in E. subst. reflexivity.
  - apply (f_equal (@rev N)) in E. rewrite rev_involutive in E. cbn [rev] in E. subst a. rewrite drop_last_cr_snoc.
    unfold crlf_to_lf. rewrite !rev_app_distr. cbn [rev app]. rewrite rev_involutive. rewrite N.eqb_refl, andb_true_r.
    destruct (N.eqb c 13); reflexivity.
Qed.
Lemma crlf_none : forall a, ~ In 10%N a -> crlf_to_lf a = a.
Proof.
  intros a H. unfold crlf_to_lf. destruct (rev a) as [|c [|d r]] eqn:E; try reflexivity.
  replace (N.eqb c 10) with false; [rewrite andb_false_r; reflexivity|]. symmetry. apply N.eqb_neq. intros ->.
  apply H. apply in_rev. rewrite E. left. reflexivity.
Qed.
Lemma drop_last_cr_cons : forall c a, a <> [] -> drop_last_cr (c :: a) = c :: drop_last_cr a.
Proof.
  intros c a Ha. destruct (rev a) as [|d r] eqn:E.
  - apply (f_equal (@rev N)) in E. rewrite rev_involutive in E. cbn [rev] in E. congruence.
  - apply (f_equal (@rev N)) in E. rewrite rev_involutive in E. cbn [rev] in E. subst a.
    change (c :: rev r ++ [d]) with ((c :: rev r) ++ [d]). rewrite !drop_last_cr_snoc. destruct (N.eqb d 13); reflexivity.
Qed.
Lemma clean_line : forall fin a T, ~ In 10%N a -> clean fin (a ++ 10%N :: T) = drop_last_cr a ++ 10%N :: clean fin T.
Proof.
  intros fin. induction a as [|c a IH]; intros T H.
  - cbn [app clean]. change (N.eqb 10 13) with false. reflexivity.
  - assert (Ha : ~ In 10%N a) by (intros X; apply H; right; assumption). specialize (IH T Ha). cbn [app clean].
    destruct a as [|d a].
    + cbn [app]. destruct (N.eqb_spec c 13) as [->|Hc].
      * rewrite N.eqb_refl. cbn [clean]. change (N.eqb 10 13) with false. reflexivity.
      * change (clean fin (10%N :: T)) with (10%N :: clean fin T). change [c] with ([] ++ [c]). rewrite drop_last_cr_snoc.
        apply N.eqb_neq in Hc. rewrite Hc. reflexivity.
    + rewrite drop_last_cr_cons by discriminate. cbn [app] in IH |- *.
      assert (Hd : N.eqb d 10 = false) by (apply N.eqb_neq; intros ->; apply Ha; left; reflexivity). rewrite Hd, IH.
      destruct (N.eqb c 13); reflexivity.
Qed.
Lemma clean_last : forall a, ~ In 10%N a -> clean EOF a = drop_last_cr a.
Proof.
  induction a as [|c a IH]; intros H; [reflexivity|]. assert (Ha : ~ In 10%N a) by (intros X; apply H; right; assumption).
  specialize (IH Ha). cbn [clean]. destruct a as [|d a].
  - change [c] with ([] ++ [c]) at 2. rewrite drop_last_cr_snoc. destruct (N.eqb c 13); reflexivity.
  - rewrite drop_last_cr_cons by discriminate.
    assert (Hd : N.eqb d 10 = false) by (apply N.eqb_neq; intros ->; apply Ha; left; reflexivity). rewrite Hd, IH.
    destruct (N.eqb c 13); reflexivity.
Qed.
Lemma clean_fails : forall fin a, fin <> EOF -> ~ In 10%N a -> clean fin a = a.
Proof.
  intros fin a Hf. assert (Ef : is_eof fin = false) by (destruct fin; try reflexivity; congruence).
  induction a as [|c a IH]; intros H; [reflexivity|]. assert (Ha : ~ In 10%N a) by (intros X; apply H; right; assumption).
  specialize (IH Ha). cbn [clean]. destruct a as [|d a].
  - rewrite Ef. destruct (N.eqb c 13); reflexivity.
  - assert (Hd : N.eqb d 10 = false) by (apply N.eqb_neq; intros ->; apply Ha; left; reflexivity). rewrite Hd, IH.
    destruct (N.eqb c 13); reflexivity.
Qed.
Lemma drop_last_cr_in : forall a x, In x (drop_last_cr a) -> In x a.
Proof.
  intros a x. destruct (rev a) as [|c r] eqn:E; apply (f_equal (@rev N)) in E; rewrite rev_involutive in E; cbn [rev] in E; subst a; [auto|].
  rewrite drop_last_cr_snoc. destruct (N.eqb c 13); [|auto]. intros H. apply in_app_iff. auto.
Qed.
Lemma drop_last_cr_length : forall a, (length (drop_last_cr a) <= length a)%nat.
Proof.
  intros a. destruct (rev a) as [|c r] eqn:E; apply (f_equal (@rev N)) in E; rewrite rev_involutive in E; cbn [rev] in E; subst a; [auto|].
  rewrite drop_last_cr_snoc. destruct (N.eqb c 13); rewrite ?app_length; cbn [length]; lia.
Qed.
Lemma pure_line_cases : forall fin T,
  (exists a T1, pure_line fin T = (Some (a ++ [10%N], None), T1) /\ ~ In 10%N a /\ clean fin T = a ++ 10%N :: clean fin T1 /\ (length a + length T1 < length T)%nat) \/
  (fin = EOF /\ T <> [] /\ ~ In 10%N (clean fin T) /\ pure_line fin T = (Some (clean fin T, None), []) /\ (length (clean fin T) <= length T)%nat) \/
  (fin = EOF /\ T = [] /\ pure_line fin T = (Some ([], Some EOF), [])) \/
  (fin <> EOF /\ ~ In 10%N T /\ clean fin T = T /\ pure_line fin T = (Some (T, Some fin), [])).
Proof.
  intros fin T. unfold pure_line. destruct (index_byte 10 T) as [i|] eqn:E.
  - left. destruct (index_byte_some _ _ _ E) as [a [T1 [-> [Ha <-]]]]. exists (drop_last_cr a), T1.
    replace (firstn (S (length a)) (a ++ 10%N :: T1)) with (a ++ [10%N]).
    2:{ replace (a ++ 10%N :: T1) with ((a ++ [10%N]) ++ T1) by (rewrite <- app_assoc; reflexivity).
        rewrite firstn_app. rewrite firstn_all2 by (rewrite app_length; cbn [length]; lia).
        replace (S (length a) - length (a ++ [10%N]))%nat with 0%nat by (rewrite app_length; cbn [length]; lia). symmetry. apply app_nil_r. }
    replace (skipn (S (length a)) (a ++ 10%N :: T1)) with T1.
    2:{ replace (a ++ 10%N :: T1) with ((a ++ [10%N]) ++ T1) by (rewrite <- app_assoc; reflexivity).
        rewrite skipn_app. rewrite skipn_all2 by (rewrite app_length; cbn [length]; lia).
        replace (S (length a) - length (a ++ [10%N]))%nat with 0%nat by (rewrite app_length; cbn [length]; lia). reflexivity. }
    split; [unfold finish_line; rewrite crlf_lf; reflexivity|]. split; [intros X; apply Ha, drop_last_cr_in; assumption|].
    split; [apply clean_line; assumption|]. pose proof (drop_last_cr_length a). rewrite app_length. cbn [length]. lia.
  - right. pose proof (index_byte_none _ _ E) as Hn. assert (D : fin = EOF \/ fin <> EOF) by (destruct fin; [left; reflexivity|right; discriminate|right; discriminate]).
    destruct D as [->|Hf].
    + destruct T as [|c t].
      * right. left. auto.
      * left. rewrite (clean_last _ Hn). split; [reflexivity|]. split; [discriminate|]. split; [intros X; apply Hn, drop_last_cr_in; assumption|].
        split; [|apply drop_last_cr_length]. unfold finish_line. rewrite crlf_none; [reflexivity|]. intros X; apply Hn, drop_last_cr_in; assumption.
    + right. right. split; [assumption|]. split; [assumption|]. split; [apply clean_fails; assumption|].
      unfold finish_line. destruct fin; [congruence| |]; rewrite crlf_none by assumption; reflexivity.
Qed.

Lemma prefixb_iff : forall p s, prefixb p s = true <-> begins p s.
Proof.
  induction p as [|x p IH]; intros s.
  - split; [intros _; exists s; reflexivity|reflexivity].
  - destruct s as [|y s]; cbn [prefixb].
    + split; [discriminate|]. intros [r E]. discriminate.
    + rewrite andb_true_iff, N.eqb_eq, IH. split.
      * intros [-> [r ->]]. exists r. reflexivity.
      * intros [r E]. injection E as -> ->. split; [reflexivity|]. exists r. reflexivity.
Qed.
Lemma prefixb_false : forall p s, prefixb p s = false <-> ~ begins p s.
Proof. intros p s. rewrite <- prefixb_iff. destruct (prefixb p s); split; congruence. Qed.
Lemma index_sub_some : forall p s i, p <> [] -> index_sub p s = Some i -> exists a r, s = a ++ p ++ r /\ length a = i /\ ~ occurs p a.
Proof.
  intros p s i Hp. revert i. induction s as [|x s IH]; intros i H; cbn [index_sub] in H.
  - destruct (prefixb p []) eqn:E; [|discriminate]. apply prefixb_iff in E. destruct E as [r E]. symmetry in E. apply app_eq_nil in E. tauto.
  - destruct (prefixb p (x :: s)) eqn:E.
    + injection H as <-. apply prefixb_iff in E. destruct E as [r E]. exists [], r. split; [assumption|]. split; [reflexivity|].
      intros [a [b X]]. symmetry in X. apply app_eq_nil in X. destruct X as [_ X]. apply app_eq_nil in X. tauto.
    + destruct (index_sub p s) as [j|]; [|discriminate]. injection H as <-. destruct (IH j eq_refl) as [a [r [-> [<- Ho]]]].
      exists (x :: a), r. split; [reflexivity|]. split; [reflexivity|]. intros [u [v X]]. destruct u as [|y u].
      * apply prefixb_false in E. apply E. exists (v ++ p ++ r). cbn [app] in X. change (x :: a ++ p ++ r) with ((x :: a) ++ p ++ r). rewrite X, <- app_assoc. reflexivity.
      * injection X as -> X. apply Ho. exists u, v. assumption.
Qed.
Lemma index_sub_none : forall p s, index_sub p s = None -> ~ occurs p s.
Proof.
  intros p. induction s as [|x s IH]; intros H; cbn [index_sub] in H.
  - destruct (prefixb p []) eqn:E; [discriminate|]. apply prefixb_false in E. intros [a [b X]]. symmetry in X. apply app_eq_nil in X. destruct X as [_ X].
    apply E. exists b. auto.
  - destruct (prefixb p (x :: s)) eqn:E; [discriminate|]. destruct (index_sub p s); [discriminate|]. intros [a [b X]]. destruct a as [|y a].
    + apply prefixb_false in E. apply E. exists b. assumption.
    + injection X as -> X. apply IH; [reflexivity|]. exists a, b. assumption.
Qed.

Definition flaw_err (f : flaw) : err := match f with BareQuote => err_bare_quote | StrayQuote => err_quote | Source e => e end.

(** White space at the front. *)
Lemma blank_rune : forall r, is_space_rune r = true -> r = 10%N \/ In r blanks.
Proof.
  intros r H. unfold is_space_rune in H. rewrite !orb_true_iff, !N.eqb_eq, !in_range_spec in H. unfold blanks. cbn [In].
  assert (A : (9 <= r <= 13)%N -> r = 9%N \/ r = 10%N \/ r = 11%N \/ r = 12%N \/ r = 13%N) by lia.
  assert (B : (8192 <= r <= 8202)%N -> r = 8192%N \/ r = 8193%N \/ r = 8194%N \/ r = 8195%N \/ r = 8196%N \/ r = 8197%N \/ r = 8198%N \/ r = 8199%N \/ r = 8200%N \/ r = 8201%N \/ r = 8202%N) by lia.
  intuition (subst; auto 30).
Qed.
Lemma blank_space : forall r, In r blanks -> is_space_rune r = true /\ scalar r /\ r <> 10%N.
Proof.
  intros r H. unfold blanks in H. cbn [In] in H. repeat (destruct H as [<-|H]; [split; [reflexivity|split; [unfold scalar; lia|discriminate]]|]). contradiction.
Qed.
Lemma scalar_lf : forall r, scalar r -> In 10%N (encode_rune r) -> r = 10%N.
Proof.
  intros r _ H. unfold encode_rune in H. destruct (r <? 128)%N; [destruct H as [H|[]]; auto|]. destruct (r <? 2048)%N; [|destruct (r <? 65536)%N]; cbn [In] in H; repeat (destruct H as [H|H]; [lia|]); contradiction.
Qed.
Lemma blank_no_lf : forall p, blank_text p -> ~ In 10%N p.
Proof.
  intros p [rs [H ->]] X. apply in_flat_map in X. destruct X as [r [Hr X]]. rewrite Forall_forall in H. destruct (blank_space r (H r Hr)) as [_ [S D]]. apply D. apply (scalar_lf r S X).
Qed.
Lemma trim_front_ok : forall fuel s, (length s <= fuel)%nat -> exists p, s = p ++ trim_front fuel s /\
  (blank_text p /\ (forall r, is_space_rune r = true -> ~ begins (encode_rune r) (trim_front fuel s)) \/
   exists a b, p = a ++ [10%N] ++ b /\ blank_text a).
Proof.
  assert (N0 : forall r, ~ begins (encode_rune r) []).
  { intros r [t X]. destruct (encode_length r) as [L _]. destruct (encode_rune r); [cbn [length] in L; lia|discriminate]. }
  induction fuel as [|f IH]; intros s HL.
  - destruct s; [|cbn [length] in HL; lia]. exists []. split; [reflexivity|]. left. split; [exists []; split; [constructor|reflexivity]|]. intros r _. apply N0.
  - cbn [trim_front]. destruct (decode_rune s) as [[r k]|] eqn:E.
    + destruct (decode_some s r k E) as [Hr [Ek Es]]. destruct (is_space_rune r) eqn:Es2.
      * destruct (IH (skipn k s)) as [p [P1 P2]]; [rewrite skipn_length; destruct (encode_length r); lia|].
        exists (encode_rune r ++ p). split; [rewrite <- app_assoc, <- P1; exact Es|].
        destruct (blank_rune r Es2) as [->|Hb]; [right; exists [], p; split; [reflexivity|exists []; split; [constructor|reflexivity]]|].
        destruct P2 as [[B1 B2]|[a [b [-> Ha]]]].
        -- left. split; [|assumption]. destruct B1 as [rs [R1 ->]]. exists (r :: rs). split; [constructor; assumption|reflexivity].
        -- right. exists (encode_rune r ++ a), b. rewrite <- !app_assoc. split; [reflexivity|]. destruct Ha as [rs [R1 ->]]. exists (r :: rs). split; [constructor; assumption|reflexivity].
      * exists []. split; [reflexivity|]. left. split; [exists []; split; [constructor|reflexivity]|]. intros r' Hr' [t X].
        assert (scalar r') by (destruct (blank_rune r' Hr') as [->|H]; [unfold scalar; lia|apply blank_space in H; tauto]).
        rewrite X, decode_encode in E by assumption. injection E as -> _. congruence.
    + exists []. split; [reflexivity|]. left. split; [exists []; split; [constructor|reflexivity]|]. intros r' Hr' [t X].
      assert (scalar r') by (destruct (blank_rune r' Hr') as [->|H]; [unfold scalar; lia|apply blank_space in H; tauto]).
      apply (decode_none s r' t E); assumption.
Qed.

Section Exact.
  Variable lazy trim : bool.
  Variable comma : bytes.
  Variable fin : err.
  Hypothesis comma_some : comma <> [].
  Hypothesis comma_lf : ~ In 10%N comma.
  Hypothesis comma_quote : ~ In 34%N comma.
  Notation fields := (fields bytes (pure_line fin) lazy trim comma).
  Notation quoted := (quoted lazy comma).
  Notation cells := (cells lazy trim comma fin).
  Notation record := (record lazy trim comma fin).

  (** What is left of a line, its error, and the text after it. *)
  Definition tail_ok (line : bytes) (er : option err) (T : bytes) : Prop :=
    (exists a, line = a ++ [10%N] /\ ~ In 10%N a /\ er = None) \/
    (~ In 10%N line /\ T = [] /\ (fin = EOF /\ er = None \/ fin <> EOF /\ er = Some fin)).
  Lemma tail_suffix : forall a line er T, ~ In 10%N a -> tail_ok (a ++ line) er T -> tail_ok line er T.
  Proof.
    intros a line er T Ha [[x [E [Hx He]]]|[H [HT He]]].
    - left. revert x E Hx. induction a as [|c a IH]; intros x E Hx; [exists x; auto|].
      destruct x as [|y x]; [injection E as -> E; exfalso; apply Ha; left; reflexivity|]. injection E as -> E. apply (IH (fun X => Ha (or_intror X)) x E). intros X. apply Hx. right. assumption.
    - right. split; [|auto]. intros X. apply H. apply in_app_iff. auto.
  Qed.
  Lemma tail_rest : forall line er T, tail_ok line er T -> line_rest (line ++ clean fin T) (clean fin T).
  Proof.
    intros line er T [[x [-> [Hx He]]]|[H [-> He]]].
    - left. exists x. rewrite <- app_assoc. auto.
    - right. cbn [clean]. rewrite app_nil_r. auto.
  Qed.
  (** What comes before the line break. *)
  Lemma tail_front : forall a line er T, tail_ok (a ++ line) er T -> line <> [] -> ~ In 10%N a.
  Proof.
    intros a line er T [[x [E [Hx He]]]|[H _]] Hl X.
    - destruct (rev line) as [|c r] eqn:R; apply (f_equal (@rev N)) in R; rewrite rev_involutive in R; cbn [rev] in R; [congruence|].
      subst line. rewrite app_assoc in E. apply app_inj_tail in E. destruct E as [<- _]. apply Hx. apply in_app_iff. auto.
    - apply H. apply in_app_iff. auto.
  Qed.
  Lemma tail_comma : forall line er T, tail_ok line er T -> begins comma (line ++ clean fin T) -> begins comma line.
  Proof.
    intros line er T H [r E]. destruct H as [[x [-> [Hx He]]]|[H [-> He]]]; [|exists r; cbn [clean] in E; rewrite app_nil_r in E; assumption].
    assert (G : forall (p a b r : bytes), ~ In 10%N p -> a ++ [10%N] ++ b = p ++ r -> exists r', a ++ [10%N] = p ++ r').
    { clear. induction p as [|y p IH]; intros a b r Hp E; [exists (a ++ [10%N]); reflexivity|].
      destruct a as [|z a]; [injection E as <- _; exfalso; apply Hp; left; reflexivity|]. injection E as -> E.
      destruct (IH a b r (fun X => Hp (or_intror X)) E) as [r' E']. exists r'. cbn [app]. rewrite E'. reflexivity. }
    rewrite <- app_assoc in E. destruct (G _ _ _ _ comma_lf E) as [r' E']. exists r'. assumption.
  Qed.

  Inductive after (V : bytes) : qend -> list bytes -> option flaw -> bytes -> Prop :=
  | af_lf : forall r, after V (Closed (10%N :: r)) [V] None r
  | af_end : forall o, at_end fin o -> after V (Closed []) [V] o []
  | af_next : forall T2 T' fs o r, skips trim T2 T' -> cells T' fs o r -> after V (Closed (comma ++ T2)) (V :: fs) o r
  | af_stray : forall r, after V (Bad r) [] (Some StrayQuote) r
  | af_open : fin = EOF -> lazy = false -> after V Open [] (Some StrayQuote) []
  | af_open_lazy : fin = EOF -> lazy = true -> after V Open [V] None []
  | af_open_fails : forall fs, fin <> EOF -> after V Open fs (Some (Source fin)) [].
  Lemma after_cells : forall T v q fs o r, quoted T v q -> after v q fs o r -> cells (34%N :: T) fs o r.
  Proof.
    intros T v q fs o r H A. destruct A.
    - apply c_quoted. assumption.
    - apply c_quoted_end; assumption.
    - eapply c_quoted_next; eassumption.
    - eapply c_stray; eassumption.
    - eapply c_open; eassumption.
    - eapply c_open_lazy; eassumption.
    - eapply c_open_fails; eassumption.
  Qed.
  Lemma quoted_app : forall a X v q, ~ In 34%N a -> quoted X v q -> quoted (a ++ X) (a ++ v) q.
  Proof.
    induction a as [|c a IH]; intros X v q H HX; [assumption|]. cbn [app]. apply q_char.
    - intros ->. apply H. left. reflexivity.
    - apply IH; [|assumption]. intros Y. apply H. right. assumption.
  Qed.
  Lemma length_nl_iff : forall l, (length_nl l =? length l)%nat = true <-> l = [] \/ l = [10%N].
  Proof.
    intros l. destruct (rev l) as [|c r] eqn:R; apply (f_equal (@rev N)) in R; rewrite rev_involutive in R; cbn [rev] in R; subst l.
    - split; auto.
    - unfold length_nl. rewrite rev_app_distr, app_length. cbn [rev app length]. rewrite Nat.eqb_eq. split.
      + destruct (N.eqb_spec c 10) as [->|]; [|lia]. destruct r as [|d r]; [auto|]. cbn [rev]. rewrite !app_length. cbn [length]. lia.
      + intros [E|E]; [destruct (rev r); discriminate|]. destruct (rev r) as [|d x] eqn:Er; [|destruct x; discriminate].
        injection E as ->. reflexivity.
  Qed.
  Lemma strip_nl_lf : forall a, strip_nl (a ++ [10%N]) = a.
  Proof.
    intros a. unfold strip_nl, length_nl. rewrite rev_app_distr. cbn [rev app]. change (N.eqb 10 10) with true. cbn iota.
    rewrite app_length. cbn [length]. replace (length a + 1 - 1)%nat with (length a) by lia. rewrite firstn_app, firstn_all, Nat.sub_diag. apply app_nil_r.
  Qed.
  Lemma strip_nl_none : forall a, ~ In 10%N a -> strip_nl a = a.
  Proof.
    intros a H. unfold strip_nl, length_nl. destruct (rev a) as [|c r] eqn:R; [rewrite Nat.sub_0_r; apply firstn_all|].
    destruct (N.eqb_spec c 10) as [->|]; [|rewrite Nat.sub_0_r; apply firstn_all]. exfalso. apply H, in_rev. rewrite R. left. reflexivity.
  Qed.
  Lemma occurs_left : forall p a b, occurs p a -> occurs p (a ++ b).
  Proof. intros p a b [u [v ->]]. exists u, (v ++ b). rewrite <- !app_assoc. reflexivity. Qed.

  Lemma tail_begins : forall q line er T, ~ In 10%N q -> tail_ok line er T -> begins q (line ++ clean fin T) -> begins q line.
  Proof.
    intros q line er T Hq H [r E]. destruct H as [[x [-> [Hx He]]]|[H [-> He]]]; [|exists r; cbn [clean] in E; rewrite app_nil_r in E; assumption].
    assert (G : forall (p a b r : bytes), ~ In 10%N p -> a ++ [10%N] ++ b = p ++ r -> exists r', a ++ [10%N] = p ++ r').
    { clear. induction p as [|y p IH]; intros a b r Hp E; [exists (a ++ [10%N]); reflexivity|].
      destruct a as [|z a]; [injection E as <- _; exfalso; apply Hp; left; reflexivity|]. injection E as -> E.
      destruct (IH a b r (fun X => Hp (or_intror X)) E) as [r' E']. exists r'. cbn [app]. rewrite E'. reflexivity. }
    rewrite <- app_assoc in E. destruct (G _ _ _ _ Hq E) as [r' E']. exists r'. assumption.
  Qed.
  Definition start (line : bytes) : bytes := if trim then trim_left line else line.
  Lemma start_ok : forall line er T, tail_ok line er T ->
    (tail_ok (start line) er T /\ (length (start line) <= length line)%nat /\ skips trim (line ++ clean fin T) (start line ++ clean fin T)) \/
    (start line = [] /\ er = None /\ skips trim (line ++ clean fin T) (10%N :: clean fin T)).
  Proof.
    intros line er T H. unfold start, skips. destruct trim; [|left; auto]. unfold trim_left.
    destruct (trim_front_ok (length line) line (le_n _)) as [p [E [[B1 B2]|[a [b [-> Ha]]]]]].
    - left. assert (Ht : tail_ok (trim_front (length line) line) er T) by (apply (tail_suffix p); [apply blank_no_lf; assumption|rewrite <- E; assumption]).
      split; [assumption|]. split; [apply (f_equal (@length N)) in E; rewrite app_length in E; lia|].
      exists p. split; [rewrite E at 1; rewrite <- app_assoc; reflexivity|]. split; [assumption|]. intros b Hb X. destruct (blank_space b Hb) as [S1 [S2 S3]].
      apply (B2 b S1). eapply tail_begins; [|exact Ht|exact X]. intros Y. apply S3. apply (scalar_lf b S2 Y).
    - right. set (m := trim_front (length line) line) in *. rewrite <- !app_assoc in E. cbn [app] in E.
      assert (Em : b ++ m = [] /\ er = None).
      { destruct H as [[x [E2 [Hx He]]]|[Hn _]]; [|exfalso; apply Hn; rewrite E; apply in_app_iff; right; left; reflexivity]. split; [|assumption].
        destruct (b ++ m) as [|c z] eqn:R; [reflexivity|]. exfalso. rewrite E in E2. destruct (@exists_last _ (c :: z) ltac:(discriminate)) as [z' [c' Ez]]. rewrite Ez in E2.
        change (a ++ 10%N :: z' ++ [c']) with (a ++ (10%N :: z') ++ [c']) in E2. rewrite app_assoc in E2. apply app_inj_tail in E2. destruct E2 as [<- _]. apply Hx. apply in_app_iff. right. left. reflexivity. }
      destruct Em as [Em ->]. apply app_eq_nil in Em. destruct Em as [-> Em]. split; [assumption|]. split; [reflexivity|].
      exists a. split; [rewrite E, Em; cbn [app]; rewrite <- app_assoc; reflexivity|]. split; [assumption|]. intros r Hr [t X]. destruct (blank_space r Hr) as [_ [S2 S3]].
      destruct (encode_length r) as [L _]. destruct (encode_rune r) as [|y q] eqn:Er; [cbn [length] in L; lia|]. injection X as <- _. apply S3. apply (scalar_lf r S2). rewrite Er. left. reflexivity.
  Qed.
  Lemma fields_ok : forall fuel line er T, tail_ok line er T -> (length line + length T + 2 <= fuel)%nat ->
    (forall done, exists fs o T', fields fuel false [] done line er T = (Some (done ++ fs, option_map flaw_err o), T') /\
       (exists X, skips trim (line ++ clean fin T) X /\ cells X fs o (clean fin T')) /\ (length T' <= length T)%nat) /\
    (forall cur done, exists v q fs o T', fields fuel true cur done line er T = (Some (done ++ fs, option_map flaw_err o), T') /\
       quoted (line ++ clean fin T) v q /\ after (cur ++ v) q fs o (clean fin T') /\ (length T' <= length T)%nat).
  Proof.
    induction fuel as [|f IH]; intros line er T Hok Hf; [lia|]. split.
    - intros done. cbn [M_CsvText.fields]. fold (start line).
      assert (G : exists fs o T', (if prefixb [34%N] (start line) then fields f true [] done (skipn 1 (start line)) er T
          else let i := index_sub comma (start line) in let field := match i with Some i => firstn i (start line) | None => strip_nl (start line) end in
            if negb lazy && match index_byte 34 field with Some _ => true | None => false end then (Some (done, Some err_bare_quote), T)
            else match i with Some i => fields f false [] (done ++ [field]) (skipn (i + length comma) (start line)) er T | None => (Some (done ++ [field], er), T) end)
          = (Some (done ++ fs, option_map flaw_err o), T') /\ (exists X, skips trim (line ++ clean fin T) X /\ cells X fs o (clean fin T')) /\ (length T' <= length T)%nat); [|exact G].
      destruct (start_ok line er T Hok) as [[Hok2 [Hlen Hsk]]|[Est [-> Hsk]]].
      2:{ rewrite Est. cbn [prefixb]. destruct (index_sub comma []) as [i|] eqn:Ei; [destruct (index_sub_some _ _ _ comma_some Ei) as [a [rest [X _]]]; exfalso; destruct a; destruct comma; cbn in X; congruence|].
          cbn [strip_nl length_nl rev length Nat.sub firstn index_byte]. rewrite andb_false_r. exists [[]], None, T. split; [reflexivity|]. split; [|lia]. exists (10%N :: clean fin T). split; [assumption|].
          change (10%N :: clean fin T) with ([] ++ 10%N :: clean fin T). apply c_last. split; [intros []|]. split; [apply index_sub_none; assumption|]. destruct lazy; [intros [y Y]; discriminate|intros []]. }
      assert (G : exists fs o T', (if prefixb [34%N] (start line) then fields f true [] done (skipn 1 (start line)) er T
          else let i := index_sub comma (start line) in let field := match i with Some i => firstn i (start line) | None => strip_nl (start line) end in
            if negb lazy && match index_byte 34 field with Some _ => true | None => false end then (Some (done, Some err_bare_quote), T)
            else match i with Some i => fields f false [] (done ++ [field]) (skipn (i + length comma) (start line)) er T | None => (Some (done ++ [field], er), T) end)
          = (Some (done ++ fs, option_map flaw_err o), T') /\ cells (start line ++ clean fin T) fs o (clean fin T') /\ (length T' <= length T)%nat);
        [|destruct G as [fs [o [T' [G1 [G2 G3]]]]]; exists fs, o, T'; split; [assumption|]; split; [|assumption]; exists (start line ++ clean fin T); auto].
      assert (Hf2 : (length (start line) + length T + 2 <= S f)%nat) by lia. clear Hf Hok Hlen Hsk. revert Hok2 Hf2. generalize (start line). clear line. intros line Hok Hf. cbv zeta.
      destruct (prefixb [34%N] line) eqn:Eq.
      + apply prefixb_iff in Eq. destruct Eq as [rest ->]. cbn [app] in *. cbn [skipn].
        assert (Hok' : tail_ok rest er T) by (apply (tail_suffix [34%N]); [intros [X|[]]; discriminate|assumption]).
        destruct (proj2 (IH rest er T Hok' ltac:(cbn [length] in Hf; lia)) [] done) as [v [q [fs [o [T' [E1 [E2 [E3 E4]]]]]]]].
        exists fs, o, T'. split; [assumption|]. split; [|assumption]. eapply after_cells; eassumption.
      + apply prefixb_false in Eq. destruct (index_sub comma line) as [i|] eqn:Ei.
        * destruct (index_sub_some _ _ _ comma_some Ei) as [a [rest [-> [<- Ha]]]].
          assert (Hlf : ~ In 10%N (a ++ comma)).
          { destruct rest as [|c0 r0]; [|apply (tail_front _ (c0 :: r0) er T); [rewrite <- app_assoc; assumption|discriminate]].
            destruct Hok as [[x [E [Hx He]]]|[H _]]; [|rewrite !app_nil_r in *; assumption]. exfalso. rewrite app_nil_r in E.
            apply comma_lf. destruct (rev comma) as [|c1 r1] eqn:R; apply (f_equal (@rev N)) in R; rewrite rev_involutive in R; cbn [rev] in R; [congruence|].
            rewrite R in *. rewrite app_assoc in E. apply app_inj_tail in E. destruct E as [_ ->]. apply in_app_iff. right. left. reflexivity. }
          assert (Hok' : tail_ok rest er T) by (apply (tail_suffix (a ++ comma)); [assumption|rewrite <- app_assoc; assumption]).
          replace (firstn (length a) (a ++ comma ++ rest)) with a by (rewrite firstn_app, firstn_all, Nat.sub_diag; cbn [firstn]; rewrite app_nil_r; reflexivity).
          replace (skipn (length a + length comma) (a ++ comma ++ rest)) with rest.
          2:{ rewrite app_assoc, skipn_app. rewrite skipn_all2 by (rewrite app_length; lia). rewrite app_length, Nat.sub_diag. reflexivity. }
          destruct (negb lazy && match index_byte 34 a with Some _ => true | None => false end) eqn:Eb.
          -- apply andb_true_iff in Eb. destruct Eb as [El Eb]. apply negb_true_iff in El. destruct (index_byte 34 a) as [j|] eqn:Ej; [|discriminate].
             destruct (index_byte_some _ _ _ Ej) as [u [w [-> [Hu _]]]].
             exists [], (Some BareQuote), T. rewrite app_nil_r. split; [reflexivity|]. split; [|lia].
             rewrite <- !app_assoc. cbn [app]. apply c_bare; [assumption| | |].
             ++ split; [|split; [|rewrite El; assumption]].
                ** intros X. apply Hlf. rewrite <- app_assoc. apply in_app_iff. auto.
                ** intros X. apply Ha. apply occurs_left. assumption.
             ++ intros ->. apply Eq. eexists. reflexivity.
             ++ replace (w ++ comma ++ rest ++ clean fin T) with ((w ++ comma ++ rest) ++ clean fin T) by (rewrite <- !app_assoc; reflexivity).
                eapply tail_rest. apply (tail_suffix (u ++ [34%N])); [|rewrite <- !app_assoc in Hok |- *; cbn [app] in *; exact Hok].
                intros X. apply Hlf. apply in_app_iff in X. rewrite <- app_assoc. apply in_app_iff. destruct X as [X|[X|[]]]; [auto|discriminate].
          -- destruct (proj1 (IH rest er T Hok' ltac:(rewrite !app_length in Hf; destruct comma; [congruence|]; cbn [length] in *; lia)) (done ++ [a])) as [fs [o [T' [E1 [[Xs [HX E2]] E3]]]]].
             exists (a :: fs), o, T'. split; [rewrite E1; rewrite <- app_assoc; reflexivity|]. split; [|assumption].
             rewrite <- !app_assoc. apply (c_next _ _ _ _ _ _ Xs); [|assumption|assumption]. split; [intros X; apply Hlf, in_app_iff; auto|]. split; [assumption|].
             destruct lazy.
             ++ intros [x ->]. apply Eq. eexists. reflexivity.
             ++ destruct (index_byte 34 a) eqn:Ej; [discriminate|]. apply index_byte_none. assumption.
        * pose proof (index_sub_none _ _ Ei) as Hn.
          destruct Hok as [[x [-> [Hx ->]]]|[Hx [-> He]]].
          -- rewrite strip_nl_lf. destruct (negb lazy && match index_byte 34 x with Some _ => true | None => false end) eqn:Eb.
             ++ apply andb_true_iff in Eb. destruct Eb as [El Eb]. apply negb_true_iff in El. destruct (index_byte 34 x) as [j|] eqn:Ej; [|discriminate].
                destruct (index_byte_some _ _ _ Ej) as [u [w [-> [Hu _]]]].
                exists [], (Some BareQuote), T. rewrite app_nil_r. split; [reflexivity|]. split; [|lia].
                rewrite <- !app_assoc. cbn [app]. apply c_bare; [assumption| | |].
                ** split; [|split; [|rewrite El; assumption]].
                   --- intros X. apply Hx. apply in_app_iff. auto.
                   --- intros X. apply Hn. rewrite <- app_assoc. apply occurs_left. assumption.
                ** intros ->. apply Eq. eexists. reflexivity.
                ** left. exists w. split; [reflexivity|]. intros X. apply Hx. apply in_app_iff. right. right. assumption.
             ++ exists [x], None, T. split; [reflexivity|]. split; [|lia]. rewrite <- app_assoc. apply c_last.
                split; [assumption|]. split; [intros X; apply Hn, occurs_left; assumption|]. destruct lazy.
                ** intros [y ->]. apply Eq. eexists. reflexivity.
                ** destruct (index_byte 34 x) eqn:Ej; [discriminate|]. apply index_byte_none. assumption.
          -- cbn [clean]. rewrite app_nil_r. rewrite strip_nl_none by assumption.
             destruct (negb lazy && match index_byte 34 line with Some _ => true | None => false end) eqn:Eb.
             ++ apply andb_true_iff in Eb. destruct Eb as [El Eb]. apply negb_true_iff in El. destruct (index_byte 34 line) as [j|] eqn:Ej; [|discriminate].
                destruct (index_byte_some _ _ _ Ej) as [u [w [-> [Hu _]]]].
                exists [], (Some BareQuote), []. rewrite app_nil_r. split; [reflexivity|]. split; [|lia].
                apply c_bare; [assumption| | |].
                ** split; [|split; [|rewrite El; assumption]].
                   --- intros X. apply Hx. apply in_app_iff. auto.
                   --- intros X. apply Hn. apply occurs_left. assumption.
                ** intros ->. apply Eq. eexists. reflexivity.
                ** right. split; [|reflexivity]. intros X. apply Hx. apply in_app_iff. right. right. assumption.
             ++ assert (P : plain lazy comma line).
                { split; [assumption|]. split; [assumption|]. destruct lazy; [assumption|]. destruct (index_byte 34 line) eqn:Ej; [discriminate|]. apply index_byte_none. assumption. }
                destruct He as [[Hfin ->]|[Hfin ->]].
                ** exists [line], None, []. split; [reflexivity|]. split; [|lia]. apply c_last_end; [assumption|]. left. auto.
                ** exists [line], (Some (Source fin)), []. split; [reflexivity|]. split; [|lia]. apply c_last_end; [assumption|]. right. auto.
    - intros cur done. cbn [M_CsvText.fields]. destruct (index_byte 34 line) as [i|] eqn:Ei.
      + destruct (index_byte_some _ _ _ Ei) as [a [rest [-> [Ha <-]]]].
        replace (firstn (length a) (a ++ 34%N :: rest)) with a by (rewrite firstn_app, firstn_all, Nat.sub_diag; cbn [firstn]; rewrite app_nil_r; reflexivity).
        replace (skipn (S (length a)) (a ++ 34%N :: rest)) with rest.
        2:{ change (a ++ 34%N :: rest) with (a ++ [34%N] ++ rest). rewrite app_assoc, skipn_app. rewrite skipn_all2 by (rewrite app_length; cbn [length]; lia).
            rewrite app_length. cbn [length]. replace (S (length a) - (length a + 1))%nat with 0%nat by lia. reflexivity. }
        assert (Hlf : ~ In 10%N (a ++ [34%N])).
        { intros X. apply in_app_iff in X. destruct X as [X|[X|[]]]; [|discriminate]. revert X. eapply tail_front; [exact Hok|discriminate]. }
        assert (Hok' : tail_ok rest er T) by (apply (tail_suffix (a ++ [34%N])); [assumption|rewrite <- app_assoc; assumption]).
        replace ((a ++ 34%N :: rest) ++ clean fin T) with (a ++ 34%N :: rest ++ clean fin T) by (rewrite <- app_assoc; reflexivity).
        rewrite app_length in Hf. cbn [length] in Hf.
        destruct (prefixb [34%N] rest) eqn:E1.
        * apply prefixb_iff in E1. destruct E1 as [rest' ->]. cbn [app skipn length] in *.
          assert (Hok2 : tail_ok rest' er T) by (apply (tail_suffix [34%N]); [intros [X|[]]; discriminate|assumption]).
          destruct (proj2 (IH rest' er T Hok2 ltac:(lia)) ((cur ++ a) ++ [34%N]) done) as [v [q [fs [o [T' [F1 [F2 [F3 F4]]]]]]]].
          exists (a ++ 34%N :: v), q, fs, o, T'. split; [assumption|]. split; [apply quoted_app; [assumption|]; apply q_two; assumption|].
          split; [|assumption]. rewrite <- !app_assoc in F3. exact F3.
        * apply prefixb_false in E1. destruct (prefixb comma rest) eqn:E2.
          -- apply prefixb_iff in E2. destruct E2 as [rest' ->].
             assert (Hok2 : tail_ok rest' er T) by (apply (tail_suffix comma); assumption).
             replace (skipn (length comma) (comma ++ rest')) with rest' by (rewrite skipn_app, skipn_all, Nat.sub_diag; reflexivity).
             rewrite app_length in Hf.
             destruct (proj1 (IH rest' er T Hok2 ltac:(lia)) (done ++ [cur ++ a])) as [fs [o [T' [F1 [[Xs [HX F2]] F3]]]]].
             exists (a ++ []), (Closed (comma ++ rest' ++ clean fin T)), ((cur ++ a) :: fs), o, T'.
             split; [rewrite F1, <- app_assoc; reflexivity|]. split.
             ++ apply quoted_app; [assumption|]. rewrite <- app_assoc. apply q_close. right. right. eexists. reflexivity.
             ++ split; [|assumption]. rewrite app_nil_r. eapply af_next; eassumption.
          -- apply prefixb_false in E2.
             destruct (length_nl rest =? length rest)%nat eqn:E3.
             ++ apply length_nl_iff in E3. destruct E3 as [->| ->].
                ** destruct Hok' as [[x [E _]]|[_ [-> He]]]; [destruct x; discriminate|]. cbn [clean app].
                   assert (Q : quoted (a ++ [34%N]) (a ++ []) (Closed [])) by (apply quoted_app; [assumption|]; apply q_close; left; reflexivity).
                   destruct He as [[Hfin ->]|[Hfin ->]].
                   --- exists (a ++ []), (Closed []), [cur ++ a], None, []. split; [reflexivity|]. split; [assumption|]. split; [|lia].
                       rewrite app_nil_r. apply af_end. left. auto.
                   --- exists (a ++ []), (Closed []), [cur ++ a], (Some (Source fin)), []. split; [reflexivity|]. split; [assumption|]. split; [|lia].
                       rewrite app_nil_r. apply af_end. right. auto.
                ** destruct Hok' as [[x [E [Hx ->]]]|[X _]]; [|exfalso; apply X; left; reflexivity].
                   exists (a ++ []), (Closed (10%N :: clean fin T)), [cur ++ a], None, T. split; [reflexivity|]. split.
                   --- apply quoted_app; [assumption|]. cbn [app]. apply q_close. right. left. eexists. reflexivity.
                   --- split; [|lia]. rewrite app_nil_r. apply af_lf.
             ++ assert (NS : ~ stops comma (rest ++ clean fin T)).
                { assert (X : rest <> [] /\ rest <> [10%N]) by (split; intros ->; discriminate). destruct X as [X1 X2]. intros [X|[X|X]].
                  - apply app_eq_nil in X. tauto.
                  - destruct X as [y X]. destruct rest as [|z rest]; [congruence|]. injection X as -> X.
                    destruct rest as [|z2 rest]; [congruence|]. apply (tail_front [10%N] (z2 :: rest) er T); [assumption|discriminate|left; reflexivity].
                  - apply E2. eapply tail_comma; eassumption. }
                assert (NQ : ~ begins [34%N] (rest ++ clean fin T)).
                { intros [y X]. destruct rest as [|z rest]; [discriminate|]. injection X as -> X. apply E1. eexists. reflexivity. }
                assert (D : lazy = true \/ lazy = false) by (destruct lazy; auto). destruct D as [El|El].
                ** match goal with |- context [if lazy then ?A else ?B] => replace (if lazy then A else B) with A by (rewrite El; reflexivity) end.
                   destruct (proj2 (IH rest er T Hok' ltac:(lia)) ((cur ++ a) ++ [34%N]) done) as [v [q [fs [o [T' [F1 [F2 [F3 F4]]]]]]]].
                   exists (a ++ 34%N :: v), q, fs, o, T'. split; [assumption|]. split; [apply quoted_app; [assumption|]; apply q_stray; auto|].
                   split; [|assumption]. rewrite <- !app_assoc in F3. exact F3.
                ** match goal with |- context [if lazy then ?A else ?B] => replace (if lazy then A else B) with B by (rewrite El; reflexivity) end.
                   exists (a ++ []), (Bad (clean fin T)), [], (Some StrayQuote), T. split; [rewrite app_nil_r; reflexivity|]. split.
                   --- apply quoted_app; [assumption|]. apply q_bad; auto. eapply tail_rest; eassumption.
                   --- split; [apply af_stray|lia].
      + pose proof (index_byte_none _ _ Ei) as Hn. destruct line as [|c line].
        * destruct Hok as [[x [E _]]|[_ [-> He]]]; [destruct x; discriminate|]. cbn [clean app].
          destruct He as [[Hfin ->]|[Hfin ->]].
          -- rewrite andb_true_r. assert (D : lazy = true \/ lazy = false) by (destruct lazy; auto). destruct D as [El|El].
             ++ replace (negb lazy) with false by (rewrite El; reflexivity). exists [], Open, [cur], None, []. split; [reflexivity|]. split; [apply q_open|]. split; [|lia]. rewrite app_nil_r. apply af_open_lazy; assumption.
             ++ replace (negb lazy) with true by (rewrite El; reflexivity). exists [], Open, [], (Some StrayQuote), []. split; [rewrite app_nil_r; reflexivity|]. split; [apply q_open|]. split; [|lia]. apply af_open; assumption.
          -- rewrite andb_false_r. exists [], Open, [cur], (Some (Source fin)), []. split; [reflexivity|]. split; [apply q_open|]. split; [|lia]. apply af_open_fails. assumption.
        * set (L := c :: line) in *. destruct er as [e|].
          -- destruct Hok as [[x [_ [_ E]]]|[HL [-> [[_ E]|[Hfin E]]]]]; try discriminate. injection E as ->.
             exists (L ++ []), Open, [], (Some (Source fin)), []. split; [rewrite app_nil_r; reflexivity|]. split; [|split; [apply af_open_fails; assumption|lia]].
             cbn [clean]. apply quoted_app; [assumption|apply q_open].
          -- destruct (pure_line_cases fin T) as [[a [T1 [P1 [P2 [P3 P4]]]]]|[[P0 [P1 [P2 [P3 P4]]]]|[[P0 [-> P1]]|[P0 [P1 [P2 P3]]]]]].
             ++ rewrite P1. assert (Hok2 : tail_ok (a ++ [10%N]) None T1) by (left; exists a; auto).
                destruct (proj2 (IH _ _ _ Hok2 ltac:(rewrite app_length; cbn [length]; subst L; cbn [length] in Hf; lia)) (cur ++ L) done) as [v [q [fs [o [T' [F1 [F2 [F3 F4]]]]]]]].
                exists (L ++ v), q, fs, o, T'. split; [assumption|]. split.
                ** apply quoted_app; [assumption|]. rewrite P3. rewrite <- app_assoc in F2. exact F2.
                ** split; [rewrite <- app_assoc in F3; assumption|lia].
             ++ rewrite P3. assert (Hok2 : tail_ok (clean fin T) None []) by (right; auto).
                destruct (proj2 (IH _ _ _ Hok2 ltac:(subst L; cbn [length] in *; lia)) (cur ++ L) done) as [v [q [fs [o [T' [F1 [F2 [F3 F4]]]]]]]].
                exists (L ++ v), q, fs, o, T'. split; [assumption|]. split.
                ** apply quoted_app; [assumption|]. change (clean fin []) with (@nil N) in F2. rewrite app_nil_r in F2. exact F2.
                ** split; [rewrite <- app_assoc in F3; assumption|cbn [length] in F4; lia].
             ++ rewrite P1. assert (Hok2 : tail_ok [] None []) by (right; auto).
                destruct (proj2 (IH _ _ _ Hok2 ltac:(subst L; cbn [length] in *; lia)) (cur ++ L) done) as [v [q [fs [o [T' [F1 [F2 [F3 F4]]]]]]]].
                exists (L ++ v), q, fs, o, T'. split; [assumption|]. split.
                ** apply quoted_app; [assumption|]. exact F2.
                ** split; [rewrite <- app_assoc in F3; assumption|lia].
             ++ rewrite P3. assert (Hok2 : tail_ok T (Some fin) []) by (right; auto).
                replace (match fin with EOF => None | _ => Some fin end) with (Some fin) by (destruct fin; [congruence|reflexivity|reflexivity]).
                destruct (proj2 (IH _ _ _ Hok2 ltac:(subst L; cbn [length] in *; lia)) (cur ++ L) done) as [v [q [fs [o [T' [F1 [F2 [F3 F4]]]]]]]].
                exists (L ++ v), q, fs, o, T'. split; [assumption|]. split.
                ** apply quoted_app; [assumption|]. rewrite P2. change (clean fin []) with (@nil N) in F2. rewrite app_nil_r in F2. exact F2.
                ** split; [rewrite <- app_assoc in F3; assumption|cbn [length] in F4; lia].
  Qed.

  Lemma first_ok : forall fuel T, (length T + 2 <= fuel)%nat -> exists line er T1,
    first_line bytes (pure_line fin) fuel T = (Some (line, er), T1) /\ (length line + length T1 <= length T)%nat /\
    ((er = Some EOF /\ fin = EOF /\ record (clean fin T) None (clean fin T1)) \/
     (tail_ok line er T1 /\ er <> Some EOF /\ ~ (line = [] /\ fin = EOF) /\ ~ begins [10%N] line /\
      forall o r, record (line ++ clean fin T1) o r -> record (clean fin T) o r)).
  Proof.
    induction fuel as [|f IH]; intros T Hf; [lia|]. cbn [first_line].
    destruct (pure_line_cases fin T) as [[a [T1 [P1 [P2 [P3 P4]]]]]|[[P0 [P1 [P2 [P3 P4]]]]|[[P0 [-> P1]]|[P0 [P1 [P2 P3]]]]]].
    - rewrite P1. rewrite Nat.eqb_sym. destruct (length_nl (a ++ [10%N]) =? length (a ++ [10%N]))%nat eqn:El.
      + apply length_nl_iff in El. destruct El as [El|El]; [destruct a; discriminate|]. destruct a as [|x a]; [|destruct a; discriminate].
        destruct (IH T1 ltac:(cbn [length] in P4; lia)) as [line [er [T2 [F1 [F2 F3]]]]]. exists line, er, T2. split; [assumption|]. split; [lia|].
        rewrite P3. cbn [app]. destruct F3 as [[G1 [G2 G3]]|[G1 [G2 [G3 [G4 G5]]]]].
        * left. split; [assumption|]. split; [assumption|]. apply r_blank. assumption.
        * right. split; [assumption|]. split; [assumption|]. split; [assumption|]. split; [assumption|]. intros o r H. apply r_blank. auto.
      + exists (a ++ [10%N]), None, T1. split; [reflexivity|]. split; [rewrite app_length; cbn [length]; lia|]. right.
        split; [left; exists a; auto|]. split; [discriminate|]. split; [intros [X _]; destruct a; discriminate|].
        assert (Ha : a <> []) by (intros ->; discriminate). split.
        * intros [r X]. destruct a as [|x a]; [congruence|]. injection X as -> _. apply P2. left. reflexivity.
        * intros o r H. rewrite P3. rewrite <- app_assoc in H. assumption.
    - rewrite P3. rewrite Nat.eqb_sym. destruct (length_nl (clean fin T) =? length (clean fin T))%nat eqn:El.
      + apply length_nl_iff in El. destruct El as [El|El]; [|rewrite El in P2; exfalso; apply P2; left; reflexivity].
        destruct f as [|f]; [destruct T; [congruence|cbn [length] in Hf; lia]|]. cbn [first_line].
        assert (EL : pure_line fin [] = (Some (@nil N, Some EOF), @nil N)) by (rewrite P0; reflexivity). rewrite EL. exists [], (Some EOF), [].
        split; [reflexivity|]. split; [cbn [length]; lia|]. left. split; [reflexivity|]. split; [assumption|]. rewrite El. apply r_eof. assumption.
      + exists (clean fin T), None, []. split; [reflexivity|]. split; [cbn [length]; lia|]. right.
        split; [right; auto|]. split; [discriminate|]. split; [intros [X _]; rewrite X in El; discriminate|]. split.
        * intros [r X]. rewrite X in P2. apply P2. left. reflexivity.
        * intros o r H. change (clean fin []) with (@nil N) in H. rewrite app_nil_r in H. assumption.
    - rewrite P1. exists [], (Some EOF), []. split; [reflexivity|]. split; [cbn [length]; lia|]. left. split; [reflexivity|]. split; [assumption|]. apply r_eof. assumption.
    - rewrite P3. exists T, (Some fin), []. split; [reflexivity|]. split; [cbn [length]; lia|]. right. split; [right; auto|]. split; [congruence|].
      split; [intros [_ X]; congruence|]. split; [intros [r X]; rewrite X in P1; apply P1; left; reflexivity|].
      intros o r H. rewrite P2. change (clean fin []) with (@nil N) in H. rewrite app_nil_r in H. assumption.
  Qed.
  Lemma raw_ok : forall fuel T, (length T + 2 <= fuel)%nat -> exists o T', (length T' <= length T)%nat /\
    raw_record bytes (pure_line fin) lazy trim comma fuel T =
      (Some (match o with None => (None, Some EOF) | Some (fs, x) => (Some fs, option_map flaw_err x) end), T') /\
    record (clean fin T) o (clean fin T').
  Proof.
    intros fuel T Hf. unfold raw_record. destruct (first_ok fuel T Hf) as [line [er [T1 [-> [Hl [[-> [Hfin Hr]]|[Hok [He [Hne [Hlf Hr]]]]]]]]]].
    - exists None, T1. split; [lia|]. auto.
    - destruct (proj1 (fields_ok fuel line er T1 Hok ltac:(lia)) []) as [fs [o [T' [F1 [[Xs [HX F2]] F3]]]]].
      exists (Some (fs, o)), T'. split; [lia|]. split.
      + replace (match er with Some EOF => (Some (None, Some EOF), T1) | _ => match fields fuel false [] [] line er T1 with (Some (fs, e), st2) => (Some (Some fs, e), st2) | (None, st2) => (None, st2) end end)
          with (match fields fuel false [] [] line er T1 with (Some (fs, e), st2) => (Some (Some fs, e), st2) | (None, st2) => (None, st2) end) by (destruct er as [[| |]|]; try reflexivity; congruence).
        rewrite F1. reflexivity.
      + apply Hr. apply (r_cells _ _ _ _ _ Xs); [| |assumption|assumption].
        * intros [X1 X2]. apply app_eq_nil in X1. destruct X1 as [X1 _]. auto.
        * intros [r Y]. destruct line as [|c line].
          -- destruct Hok as [[x [E _]]|[_ [-> _]]]; [destruct x; discriminate|discriminate].
          -- injection Y as -> _. apply Hlf. eexists. reflexivity.
  Qed.
End Exact.

(** The results the answers stand for. *)
Definition answer_res (a : answer) : res (list bytes) :=
  match a with Row fs => Ok fs | End => Err EOF | Flaw f => Err (flaw_err f) | Count => Err err_field_count end.
Lemma valid_comma : forall c, valid_delim c = true -> encode_rune c <> [] /\ ~ In 10%N (encode_rune c) /\ ~ In 34%N (encode_rune c) /\
  exists h t, encode_rune c = h :: t /\ ~ In h t.
Proof.
  intros c H. unfold valid_delim in H. rewrite !andb_true_iff, !negb_true_iff, !N.eqb_neq, N.leb_le in H.
  destruct H as [[[[[[H0 Hq] Hcr] Hlf] _] Hmax] _]. unfold encode_rune. 
  destruct (N.ltb_spec c 128); [|destruct (N.ltb_spec c 2048); [|destruct (N.ltb_spec c 65536)]].
  - repeat split; try discriminate; try (intros [X|[]]; congruence). exists c, []. split; [reflexivity|intros []].
  - repeat split; try discriminate; try (intros X; repeat destruct X as [X|X]; try lia; contradiction). eexists _, _. split; [reflexivity|].
    intros X; repeat destruct X as [X|X]; try lia; contradiction.
  - repeat split; try discriminate; try (intros X; repeat destruct X as [X|X]; try lia; contradiction). eexists _, _. split; [reflexivity|].
    intros X; repeat destruct X as [X|X]; try lia; contradiction.
  - repeat split; try discriminate; try (intros X; repeat destruct X as [X|X]; try lia; contradiction). eexists _, _. split; [reflexivity|].
    intros X; repeat destruct X as [X|X]; try lia; contradiction.
Qed.
Lemma pure_read_ok : forall lazy trim c fin fuel w T, valid_delim c = true -> (length T + 2 <= fuel)%nat ->
  exists a w' T', csv_read (pure_line fin) lazy trim c fuel (mkCr w T) = (answer_res a, mkCr w' T') /\ (length T' <= length T)%nat /\
    forall l, answers lazy trim (encode_rune c) fin w' (clean fin T') l -> answers lazy trim (encode_rune c) fin w (clean fin T) (a :: l).
Proof.
  intros lazy trim c fin fuel w T Hc Hf. destruct (valid_comma c Hc) as [C1 [C2 [C3 _]]].
  destruct (raw_ok lazy trim (encode_rune c) fin C1 C2 C3 fuel T Hf) as [o [T' [HT [E R]]]].
  unfold csv_read. rewrite Hc. cbn [r_st r_width]. rewrite E. destruct o as [[fs x]|].
  - unfold check_width. destruct x as [fl|]; cbn [option_map].
    + exists (Flaw fl), (if (w =? 0)%Z then Z.of_nat (length fs) else w), T'. split; [|split; [assumption|intros l Hl; eapply an_flaw; eassumption]].
      destruct (Z.ltb_spec 0 w); [|destruct (Z.eqb_spec w 0)]; try reflexivity. replace (w =? 0)%Z with false by (symmetry; apply Z.eqb_neq; lia). reflexivity.
    + destruct (Z.ltb_spec 0 w).
      * destruct (Z.eqb_spec (Z.of_nat (length fs)) w) as [<-|Hn].
        -- exists (Row fs), (Z.of_nat (length fs)), T'. split; [reflexivity|]. split; [assumption|]. intros l Hl. eapply an_row; [eassumption|right; reflexivity|].
           replace (Z.of_nat (length fs) =? 0)%Z with false by (symmetry; apply Z.eqb_neq; lia). assumption.
        -- exists Count, w, T'. split; [reflexivity|]. split; [assumption|]. intros l Hl. eapply an_count; eauto.
      * destruct (Z.eqb_spec w 0) as [->|].
        -- exists (Row fs), (Z.of_nat (length fs)), T'. split; [reflexivity|]. split; [assumption|]. intros l Hl. eapply an_row; [eassumption|left; lia|assumption].
        -- exists (Row fs), w, T'. split; [reflexivity|]. split; [assumption|]. intros l Hl. eapply an_row; [eassumption|left; lia|].
           replace (w =? 0)%Z with false by (symmetry; apply Z.eqb_neq; lia). assumption.
  - exists End, w, T'. split; [reflexivity|]. split; [assumption|]. intros l Hl. eapply an_end; eassumption.
Qed.
