(** Lemmas about Meta.Set: key normalisation and value readings. *)
From Verif Require Import Base M_Doc M_Components M_MetaSet S_MetaSet.

(** ** ASCII keys *)
Lemma to_lower_ascii : forall s, ascii s -> to_lower s = map lower_byte s.
Proof.
  induction s as [|c s IH]; intros H; [reflexivity|]. inversion H as [|? ? Hc Hs]; subst.
  specialize (IH Hs).
  assert (E1 : N.eqb c 196 = false) by (apply N.eqb_neq; lia).
  assert (E2 : N.eqb c 226 = false) by (apply N.eqb_neq; lia).
  cbn [to_lower map]. rewrite E1, E2, IH. destruct s as [|d [|e s]]; reflexivity.
Qed.

Definition blankb (c : byte) : bool := ((9 <=? c) && (c <=? 13) || (c =? 32))%N.
Lemma blankb_spec : forall c, blankb c = true <-> blank c.
Proof. intros. unfold blankb, blank. rewrite orb_true_iff, andb_true_iff, !N.leb_le, N.eqb_eq. reflexivity. Qed.

Definition strip_front (s : bytes) : bytes := (fix go s := match s with [] => [] | c :: s' => if blankb c then go s' else s end) s.

Lemma drop_prefix_long : forall x y p c s, ascii (c :: s) -> (x >= 128)%N -> drop_prefix (x :: y :: p) (c :: s) = None.
Proof. intros x y p c s H Hx. inversion H; subst. simpl. destruct (N.eqb_spec x c); [lia|reflexivity]. Qed.

Lemma first_prefix_ascii : forall sp c s, (c < 128)%N ->
  (forall p, In p sp -> (exists x, p = [x] /\ blank x) \/ (exists x q, p = x :: q /\ (x >= 128)%N)) ->
  (forall x, blank x -> In [x] sp) ->
  first_prefix sp (c :: s) = if blankb c then Some s else None.
Proof.
  intros sp c s Hc Hp Hb. destruct (blankb c) eqn:E.
  - apply blankb_spec in E. apply Hb in E. revert E Hp. clear Hb.
    induction sp as [|p sp IH]; intros Hin Hp; [contradiction|]. cbn [first_prefix].
    destruct (Hp p (or_introl eq_refl)) as [(x & -> & Hx)|(x & q & -> & Hx)].
    + simpl. destruct (N.eqb_spec x c); [reflexivity|]. apply IH; [|intros; apply Hp; now right].
      destruct Hin as [E|E]; [congruence|assumption].
    + simpl. destruct (N.eqb_spec x c); [lia|]. apply IH; [|intros; apply Hp; now right].
      destruct Hin as [E|E]; [injection E; intros; subst; lia|assumption].
  - clear Hb. induction sp as [|p sp IH]; [reflexivity|]. cbn [first_prefix].
    destruct (Hp p (or_introl eq_refl)) as [(x & -> & Hx)|(x & q & -> & Hx)]; simpl.
    + destruct (N.eqb_spec x c); [subst; apply blankb_spec in Hx; congruence|]. apply IH. intros; apply Hp; now right.
    + destruct (N.eqb_spec x c); [lia|]. apply IH. intros; apply Hp; now right.
Qed.

Lemma trim_front_ascii : forall sp,
  (forall p, In p sp -> (exists x, p = [x] /\ blank x) \/ (exists x q, p = x :: q /\ (x >= 128)%N)) ->
  (forall x, blank x -> In [x] sp) ->
  forall s n, ascii s -> length s <= n -> trim_front sp n s = strip_front s.
Proof.
  intros sp H1 H2. induction s as [|c s IH]; intros n Ha Hn.
  - destruct n; simpl; [reflexivity|].
    assert (E : first_prefix sp [] = None).
    { clear H2. induction sp as [|p sp IH]; [reflexivity|]. cbn [first_prefix].
      destruct (H1 p (or_introl eq_refl)) as [(x & -> & _)|(x & q & -> & _)]; simpl; apply IH; intros; apply H1; now right. }
    now rewrite E.
  - destruct n; [simpl in Hn; lia|]. inversion Ha; subst. cbn [trim_front].
    rewrite (first_prefix_ascii sp) by assumption. cbn [strip_front]. fold (strip_front s).
    destruct (blankb c); [|reflexivity]. apply IH; [assumption|]. simpl in Hn. lia.
Qed.

Lemma spaces_front : (forall p, In p spaces -> (exists x, p = [x] /\ blank x) \/ (exists x q, p = x :: q /\ (x >= 128)%N)) /\
  (forall x, blank x -> In [x] spaces).
Proof.
  split.
  - intros p H. unfold spaces in H. repeat (destruct H as [<-|H]; [first [left; eexists; split; [reflexivity|unfold blank; lia]|right; eexists _, _; split; [reflexivity|lia]]|]). contradiction.
  - intros x [H| ->]; [|simpl; tauto].
    assert (x = 9 \/ x = 10 \/ x = 11 \/ x = 12 \/ x = 13)%N by lia. unfold spaces. simpl. intuition congruence.
Qed.
Lemma spaces_back : (forall p, In p (map (@rev N) spaces) -> (exists x, p = [x] /\ blank x) \/ (exists x q, p = x :: q /\ (x >= 128)%N)) /\
  (forall x, blank x -> In [x] (map (@rev N) spaces)).
Proof.
  split.
  - intros p H. cbv [spaces map rev app] in H. repeat (destruct H as [<-|H]; [first [left; eexists; split; [reflexivity|unfold blank; lia]|right; eexists _, _; split; [reflexivity|lia]]|]). contradiction.
  - intros x H. apply spaces_front in H. apply (in_map (@rev N)) in H. exact H.
Qed.

Lemma strip_front_ascii : forall s, ascii s -> ascii (strip_front s).
Proof. induction s as [|c s IH]; intros H; [assumption|]. cbn [strip_front]. fold (strip_front s). destruct (blankb c); [apply IH; now inversion H|assumption]. Qed.
Lemma rev_ascii : forall s, ascii s -> ascii (rev s). Proof. intros. now apply Forall_rev. Qed.
Lemma trim_space_ascii : forall s, ascii s -> trim_space s = rev (strip_front (rev (strip_front s))).
Proof.
  intros s H. unfold trim_space. destruct spaces_front as [F1 F2]. destruct spaces_back as [B1 B2].
  rewrite (trim_front_ascii spaces F1 F2 s) by (auto; lia).
  rewrite (trim_front_ascii _ B1 B2); [reflexivity|now apply rev_ascii, strip_front_ascii|now rewrite rev_length].
Qed.

Lemma strip_front_split : forall s, exists pre, s = pre ++ strip_front s /\ Forall blank pre.
Proof.
  induction s as [|c s IH]; [exists []; simpl; auto|]. cbn [strip_front]. fold (strip_front s). destruct (blankb c) eqn:E.
  - destruct IH as (pre & E1 & E2). exists (c :: pre). split; [simpl; congruence|]. constructor; [now apply blankb_spec|assumption].
  - exists []. auto.
Qed.
Lemma strip_front_blanks : forall pre s, Forall blank pre -> strip_front (pre ++ s) = strip_front s.
Proof.
  induction pre as [|c pre IH]; intros s H; [reflexivity|]. inversion H; subst. cbn [app strip_front]. fold (strip_front (pre ++ s)).
  apply blankb_spec in H2. rewrite H2. now apply IH.
Qed.
Definition starts_solid (s : bytes) : Prop := match s with [] => True | c :: _ => ~ blank c end.
Lemma strip_front_solid : forall s, starts_solid s -> strip_front s = s.
Proof. intros [|c s] H; [reflexivity|]. cbn [strip_front]. destruct (blankb c) eqn:E; [apply blankb_spec in E; contradiction|reflexivity]. Qed.

Lemma lower_blank : forall c, blank (lower_byte c) <-> blank c.
Proof.
  intros c. unfold lower_byte, blank. destruct (N.leb_spec 65 c); destruct (N.leb_spec c 90); simpl; lia.
Qed.
Lemma lower_ascii : forall s, ascii s -> ascii (map lower_byte s).
Proof.
  intros s H. apply Forall_map. eapply Forall_impl; [|exact H]. intros c Hc. cbv beta in *. unfold lower_byte.
  destruct (N.leb_spec 65 c); destruct (N.leb_spec c 90); simpl; lia.
Qed.

Lemma same_letter_lower : forall a b, same_letter a b <-> lower_byte a = lower_byte b.
Proof.
  intros a b. unfold same_letter, lower_byte.
  destruct (N.leb_spec 65 a); destruct (N.leb_spec a 90); destruct (N.leb_spec 65 b); destruct (N.leb_spec b 90); simpl; lia.
Qed.
Lemma same_letters_lower : forall s t, Forall2 same_letter s t <-> map lower_byte s = map lower_byte t.
Proof.
  induction s as [|a s IH]; intros [|b t]; simpl; split; intros H; try (inversion H; fail); auto.
  - inversion H; subst. f_equal; [now apply same_letter_lower|now apply IH].
  - constructor; [apply same_letter_lower|apply IH]; congruence.
Qed.

Lemma solid_of_lower : forall s, starts_solid (map lower_byte s) <-> starts_solid s.
Proof. intros [|c s]; simpl; [tauto|]. rewrite lower_blank. tauto. Qed.
Lemma blanks_lower : forall s, Forall blank (map lower_byte s) <-> Forall blank s.
Proof. intros s. rewrite Forall_map. split; apply Forall_impl; intros; now apply lower_blank. Qed.

(** The normal form of an ASCII key is the lower case of a name iff the key is that name in any case between blanks. *)
Lemma key_normal : forall key name, ascii key -> starts_solid name -> starts_solid (rev name) ->
  (trim_space (to_lower key) = map lower_byte name <-> addresses key name).
Proof.
  intros key name Ha S1 S2. rewrite to_lower_ascii, trim_space_ascii by (auto using lower_ascii).
  split.
  - intros E. set (k := map lower_byte key) in *.
    destruct (strip_front_split k) as (pre & E1 & B1).
    destruct (strip_front_split (rev (strip_front k))) as (post & E2 & B2).
    assert (K : k = pre ++ map lower_byte name ++ rev post).
    { rewrite E1 at 1. f_equal. rewrite <- (rev_involutive (strip_front k)), E2, rev_app_distr. now rewrite E. }
    unfold k in K. apply map_eq_app in K as (p & r & -> & Ep & Er). apply map_eq_app in Er as (m & q & -> & Em & Eq).
    exists p, m, q. repeat split.
    + apply blanks_lower. now rewrite Ep.
    + apply blanks_lower. rewrite Eq. now apply Forall_rev.
    + now apply same_letters_lower.
  - intros (pre & mid & post & -> & B1 & B2 & F). apply same_letters_lower in F.
    rewrite !map_app, F. rewrite strip_front_blanks by now apply blanks_lower.
    destruct name as [|n name'].
    { simpl. rewrite <- (app_nil_r (map lower_byte post)). rewrite strip_front_blanks by now apply blanks_lower. reflexivity. }
    set (w := map lower_byte (n :: name')) in *.
    assert (W : strip_front (w ++ map lower_byte post) = w ++ map lower_byte post).
    { apply strip_front_solid. unfold w. simpl. rewrite lower_blank. exact S1. }
    rewrite W, rev_app_distr, strip_front_blanks by (apply Forall_rev; now apply blanks_lower).
    rewrite strip_front_solid; [apply rev_involutive|]. unfold w. rewrite <- map_rev. now apply solid_of_lower.
Qed.

(** ** Values *)
Lemma str_val_spec : forall v,
  (snd (str_val v) = None /\ reads_str v (fst (str_val v))) \/ (snd (str_val v) <> None /\ fst (str_val v) = [] /\ forall s, ~ reads_str v s).
Proof.
  unfold reads_str. intros []; simpl; try (right; repeat split; try discriminate; intros s [H|[H ?]]; discriminate).
  - left; auto. - left; auto.
Qed.
Lemma reads_str_fun : forall v s t, reads_str v s -> reads_str v t -> s = t.
Proof. unfold reads_str. intros v s t [->|[-> ->]] [H|[H1 H2]]; congruence. Qed.

Lemma str_slice_go_spec : forall l,
  (snd (str_slice_go l) = None /\ Forall2 reads_str l (fst (str_slice_go l))) \/
  (snd (str_slice_go l) <> None /\ forall ss, ~ Forall2 reads_str l ss).
Proof.
  induction l as [|v l IH]; [left; split; [reflexivity|constructor]|]. cbn [str_slice_go].
  destruct (str_val_spec v) as [[E R]|(E & _ & R)]; destruct (str_val v) as [s [e|]]; simpl in *; try congruence.
  - destruct IH as [[E2 R2]|[E2 R2]]; destruct (str_slice_go l) as [r [e|]]; simpl in *; try congruence.
    + left. split; auto.
    + right. split; [discriminate|]. intros ss F. inversion F; subst. now apply (R2 l').
  - right. split; [discriminate|]. intros ss F. inversion F; subst. now apply (R y).
Qed.

Lemma str_slice_val_spec : forall v,
  let ok x := (v = JNull /\ x = VL None) \/ exists l ss, v = JArr l /\ Forall2 reads_str l ss /\ x = VL (slice_of ss) in
  (snd (str_slice_val v) = None /\ ok (VL (fst (str_slice_val v)))) \/
  (snd (str_slice_val v) <> None /\ (forall x, ~ ok x) /\ fst (str_slice_val v) = None).
Proof.
  intros v ok. unfold ok.
  destruct v; simpl; try (right; repeat split; [discriminate|intros x [[H ?]|(l & ss & H & ?)]; discriminate]).
  - left. auto.
  - destruct (str_slice_go_spec l) as [[E R]|[E R]]; destruct (str_slice_go l) as [r [e|]]; simpl in *; try congruence.
    + left. destruct r; simpl; (split; [reflexivity|right; eexists _, _; split; [reflexivity|split; [exact R|reflexivity]]]).
    + right. destruct r; simpl; (split; [discriminate|split; [|reflexivity]]; intros x [[H ?]|(l' & ss & H & F & ?)]; [discriminate|];
        injection H as <-; now apply (R ss)).
Qed.

Lemma member_at : forall m k,
  (snd (str_val (member k m)) = None /\ at_key m (bs k) (fst (str_val (member k m)))) \/
  (snd (str_val (member k m)) <> None /\ forall s, ~ at_key m (bs k) s).
Proof.
  intros m k. unfold member, at_key. destruct (map_get (bs k) m) as [v|].
  - destruct (str_val_spec v) as [?|(? & _ & ?)]; auto.
  - left. auto.
Qed.

Ltac member_case m k := destruct (member_at m k) as [[?E ?R]|[?E ?R]]; destruct (str_val (member k m)) as [? [?|]]; simpl in *; try congruence.

Lemma user_decode_spec : forall v,
  (snd (user_decode v) = None /\ reads_user v (fst (user_decode v))) \/ (snd (user_decode v) <> None /\ forall u, ~ reads_user v u).
Proof.
  unfold reads_user. intros [|?|?|?|?|?|?|?|l]; try (right; split; [discriminate|intros u (m & H & ?); discriminate]). simpl.
  member_case l "id"%string; [|right; split; [discriminate|]; intros u (m & H & R1 & ?); injection H as <-; eapply R; eassumption].
  member_case l "name"%string; [|right; split; [discriminate|]; intros u (m & H & R1 & R2 & ?); injection H as <-; eapply R0; eassumption].
  member_case l "email"%string; [|right; split; [discriminate|]; intros u (m & H & R2 & R3 & R4); injection H as <-; eapply R1; eassumption].
  left. split; [reflexivity|]. exists l. auto.
Qed.
Lemma citation_decode_spec : forall v,
  (snd (citation_decode v) = None /\ reads_citation v (fst (citation_decode v))) \/ (snd (citation_decode v) <> None /\ forall u, ~ reads_citation v u).
Proof.
  unfold reads_citation. intros [|?|?|?|?|?|?|?|l]; try (right; split; [discriminate|intros u (m & H & ?); discriminate]). simpl.
  member_case l "name"%string; [|right; split; [discriminate|]; intros u (m & H & R1 & ?); injection H as <-; eapply R; eassumption].
  member_case l "url"%string; [|right; split; [discriminate|]; intros u (m & H & R1 & R2 & ?); injection H as <-; eapply R0; eassumption].
  member_case l "email"%string; [|right; split; [discriminate|]; intros u (m & H & R2 & R3 & R4); injection H as <-; eapply R1; eassumption].
  left. split; [reflexivity|]. exists l. auto.
Qed.
Lemma license_decode_spec : forall v,
  (snd (license_decode v) = None /\ reads_license v (fst (license_decode v))) \/
  (snd (license_decode v) <> None /\ (forall u, ~ reads_license v u) /\ exists t, fst (license_decode v) = mkLicense t []).
Proof.
  unfold reads_license. intros [|?|?|?|?|?|?|?|l]; try (right; split; [discriminate|split; [intros u (m & H & ?); discriminate|eexists; reflexivity]]). simpl.
  member_case l "type"%string; [|right; split; [discriminate|split]; [intros u (m & H & R1 & ?); injection H as <-; eapply R; eassumption|eexists; reflexivity]].
  destruct (str_val_spec (member "url" l)) as [[X1 X2]|(X1 & X2 & X3)];
  member_case l "url"%string; subst.
  - left. split; [reflexivity|]. exists l. auto.
  - right. split; [discriminate|split]; [intros u (m & H & R1 & R2); injection H as <-; eapply R0; eassumption|].
    eexists. simpl. reflexivity.
Qed.

Lemma decode_all_spec : forall A (dec : jdoc -> A * option err) (rd : jdoc -> A -> Prop),
  (forall v, (snd (dec v) = None /\ rd v (fst (dec v))) \/ (snd (dec v) <> None /\ forall a, ~ rd v a)) ->
  forall l,
  (snd (decode_all dec l) = None /\ exists cs, Forall2 rd l cs /\ fst (decode_all dec l) = map Some cs) \/
  (snd (decode_all dec l) <> None /\ (forall cs, ~ Forall2 rd l cs) /\
   exists good bad cs, l = good ++ bad /\ bad <> [] /\ Forall2 rd good cs /\ fst (decode_all dec l) = map Some cs ++ repeat None (length bad)).
Proof.
  intros A dec rd Hd. induction l as [|v l IH].
  - left. split; [reflexivity|]. exists []. split; [constructor|reflexivity].
  - cbn [decode_all]. destruct (Hd v) as [[E R]|[E R]]; destruct (dec v) as [a [e|]]; simpl in *; try congruence.
    + destruct (decode_all dec l) as [r e] eqn:D. simpl in *. destruct IH as [[E2 (cs & F & ->)]|(E2 & N & good & bad & cs & -> & Hb & F & ->)].
      * left. split; [assumption|]. exists (a :: cs). split; [constructor; assumption|reflexivity].
      * right. split; [assumption|]. split.
        -- intros cs' F'. inversion F'; subst. eapply N; eassumption.
        -- exists (v :: good), bad, (a :: cs). repeat split; auto.
    + right. split; [discriminate|]. split.
      * intros cs F. inversion F; subst. eapply R; eassumption.
      * exists [], (v :: l), []. repeat split; [discriminate|constructor].
Qed.
