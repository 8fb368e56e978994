(** C60: Meta.Set *)
From Verif Require Import Base M_Doc M_Components M_MetaSet S_Components S_MetaSet L_Components L_MetaSet.

Lemma settable_names : forall name f, In (name, f) settable -> ascii name /\ starts_solid name /\ starts_solid (rev name).
Proof.
  intros name f H. unfold settable in H.
  repeat (destruct H as [H|H]; [injection H as <- <-; split; [repeat constructor|split; simpl; unfold blank; lia]|]). contradiction.
Qed.

Lemma addresses_ascii : forall key name, ascii name -> addresses key name -> ascii key.
Proof.
  intros key name Hn (pre & mid & post & -> & B1 & B2 & F). unfold ascii in *.
  assert (B : forall l, Forall blank l -> Forall (fun c => c < 128)%N l) by (intros l; apply Forall_impl; unfold blank; lia).
  rewrite !Forall_app. repeat split; auto.
  clear B B1 B2. revert Hn. induction F; intros Hn; constructor; inversion Hn; subst; auto. unfold same_letter in H. lia.
Qed.

(** What Set does to a field it addresses. *)
Definition sets_field (m m' : meta) (f : mfield) (v : jdoc) (e : option err) : Prop :=
  (forall g, g <> f -> get g m' = get g m) /\
  ((e = None /\ reads f v (get f m')) \/
   (e <> None /\ (forall x, ~ reads f v x) /\ after_error f v (get f m) (get f m'))).

Ltac others := let g := fresh in let Hg := fresh in intros g Hg; destruct g; first [reflexivity | exfalso; apply Hg; reflexivity].

Lemma set_by_normal : forall m key v name f, In (name, f) settable -> trim_space (to_lower key) = map lower_byte name ->
  sets_field m (fst (meta_set m key v)) f v (snd (meta_set m key v)).
Proof.
  intros m key v name f Hin E.
  assert (STR : forall m' e g, (exists h : bytes -> meta, m' = h (fst (str_val v)) /\ (forall s, get g (h s) = VS s) /\
            (forall s k, k <> g -> get k (h s) = get k m)) -> e = snd (str_val v) ->
            (forall x, reads g v x <-> exists s, reads_str v s /\ x = VS s) -> (forall a b, after_error g v a b <-> b = VS []) ->
            sets_field m m' g v e).
  { intros m' e g (h & -> & H1 & H2) -> HR HA. split; [intros k Hk; now apply H2|]. rewrite H1.
    destruct (str_val_spec v) as [[X1 X2]|(X1 & X2 & X3)]; [left|right].
    - split; [assumption|]. apply HR. eauto.
    - split; [assumption|]. split; [|apply HA; now rewrite X2]. intros x Hx. apply HR in Hx as (s & Hs & _). now apply (X3 s). }
  assert (SLI : forall m' e g, (exists h : goslice bytes -> meta, m' = h (fst (str_slice_val v)) /\ (forall s, get g (h s) = VL s) /\
            (forall s k, k <> g -> get k (h s) = get k m)) -> e = snd (str_slice_val v) ->
            (forall x, reads g v x <-> (v = JNull /\ x = VL None) \/ exists l ss, v = JArr l /\ Forall2 reads_str l ss /\ x = VL (slice_of ss)) ->
            (forall a b, after_error g v a b <-> b = VL None) ->
            sets_field m m' g v e).
  { intros m' e g (h & -> & H1 & H2) -> HR HA. split; [intros k Hk; now apply H2|]. rewrite H1.
    destruct (str_slice_val_spec v) as [[X1 X2]|(X1 & X2 & X3)]; [left|right].
    - split; [assumption|]. apply HR. exact X2.
    - split; [assumption|]. split; [|apply HA; now rewrite X3]. intros x Hx. apply HR in Hx. now apply (X2 x). }
  unfold meta_set. destruct m as [mm au ac ci co de dn ho id kw la li pa qr re ti th ve]. rewrite E. clear E.
  unfold settable in Hin.
  repeat (destruct Hin as [Hin|Hin]; [injection Hin as <- <-;
    match goal with |- context[map lower_byte ?s] => let n := eval vm_compute in (map lower_byte s) in change (map lower_byte s) with n end;
    simpl beqb; cbv iota|]); [..|contradiction].
  - apply STR; simpl; try tauto. exists (fun s => mkMeta mm s ac ci co de dn ho id kw la li pa qr re ti th ve). repeat split; try reflexivity. intros s. others.
  - apply STR; simpl; try tauto. exists (fun s => mkMeta mm au s ci co de dn ho id kw la li pa qr re ti th ve). repeat split; try reflexivity. intros s. others.
  - destruct v as [|?|?|?|?|?|?|l|?]; try (split; [others|]; right; split; [discriminate|]; split; [intros x (l & cs & H & ?); discriminate|reflexivity]).
    destruct (decode_all_spec _ citation_decode reads_citation citation_decode_spec l) as [[D1 (cs & F & D2)]|(D1 & D2 & good & bad & cs & -> & Hb & F & D3)];
    destruct (decode_all citation_decode _) as [r e]; simpl in *; subst; (split; [others|]).
    + left. split; [reflexivity|]. exists l, cs. auto.
    + right. split; [assumption|]. split; [intros x (l & cs' & H & F' & ?); injection H as <-; now apply (D2 cs')|].
      exists good, bad, cs. auto.
  - destruct v as [|?|?|?|?|?|?|l|?]; try (split; [others|]; right; split; [discriminate|]; split; [intros x (l & cs & H & ?); discriminate|reflexivity]).
    destruct (decode_all_spec _ user_decode reads_user user_decode_spec l) as [[D1 (cs & F & D2)]|(D1 & D2 & good & bad & cs & -> & Hb & F & D3)];
    destruct (decode_all user_decode _) as [r e]; simpl in *; subst; (split; [others|]).
    + left. split; [reflexivity|]. exists l, cs. auto.
    + right. split; [assumption|]. split; [intros x (l & cs' & H & F' & ?); injection H as <-; now apply (D2 cs')|].
      exists good, bad, cs. auto.
  - apply STR; simpl; try tauto. exists (fun s => mkMeta mm au ac ci co s dn ho id kw la li pa qr re ti th ve). repeat split; try reflexivity. intros s. others.
  - apply STR; simpl; try tauto. exists (fun s => mkMeta mm au ac ci co de s ho id kw la li pa qr re ti th ve). repeat split; try reflexivity. intros s. others.
  - apply STR; simpl; try tauto. exists (fun s => mkMeta mm au ac ci co de dn s id kw la li pa qr re ti th ve). repeat split; try reflexivity. intros s. others.
  - apply STR; simpl; try tauto. exists (fun s => mkMeta mm au ac ci co de dn ho s kw la li pa qr re ti th ve). repeat split; try reflexivity. intros s. others.
  - apply SLI; simpl; try tauto. exists (fun s => mkMeta mm au ac ci co de dn ho id s la li pa qr re ti th ve). repeat split; try reflexivity. intros s. others.
  - apply SLI; simpl; try tauto. exists (fun s => mkMeta mm au ac ci co de dn ho id kw s li pa qr re ti th ve). repeat split; try reflexivity. intros s. others.
  - destruct (license_decode_spec v) as [[D1 D2]|(D1 & D2 & t & D3)]; destruct (license_decode v) as [l e]; simpl in *; subst; (split; [others|]).
    + left. split; [reflexivity|]. exists l. auto.
    + right. split; [assumption|]. split; [intros x (l' & H & ?); now apply (D2 l')|]. exists t. reflexivity.
  - apply STR; simpl; try tauto. exists (fun s => mkMeta mm au ac ci co de dn ho id kw la li pa s re ti th ve). repeat split; try reflexivity. intros s. others.
  - apply STR; simpl; try tauto. exists (fun s => mkMeta mm au ac ci co de dn ho id kw la li pa qr s ti th ve). repeat split; try reflexivity. intros s. others.
  - apply STR; simpl; try tauto. exists (fun s => mkMeta mm au ac ci co de dn ho id kw la li pa qr re s th ve). repeat split; try reflexivity. intros s. others.
  - apply SLI; simpl; try tauto. exists (fun s => mkMeta mm au ac ci co de dn ho id kw la li pa qr re ti s ve). repeat split; try reflexivity. intros s. others.
  - apply STR; simpl; try tauto. exists (fun s => mkMeta mm au ac ci co de dn ho id kw la li pa qr re ti th s). repeat split; try reflexivity. intros s. others.
Qed.

(** A key that is the name of a field in any case, between blanks, changes that field only: to the value read, or on an
    ill-typed value with an error to the cleared field. *)
Theorem meta_set_known_key : forall m key v name f, In (name, f) settable -> addresses key name ->
  sets_field m (fst (meta_set m key v)) f v (snd (meta_set m key v)).
Proof.
  intros m key v name f Hin Ha. destruct (settable_names name f Hin) as (N1 & N2 & N3).
  apply set_by_normal with (name := name); [assumption|]. apply key_normal; auto. now apply addresses_ascii with (name := name).
Qed.
Print Assumptions meta_set_known_key.

Definition binds_key (m m' : meta) (key : bytes) (v : jdoc) : Prop :=
  (forall g, g <> FMeta -> get g m' = get g m) /\
  forall k, gomap_get k (md_meta m') = if beqb k key then Some v else gomap_get k (md_meta m).

Lemma set_default : forall m key v, (forall name f, In (name, f) settable -> trim_space (to_lower key) <> map lower_byte name) ->
  snd (meta_set m key v) = None /\ binds_key m (fst (meta_set m key v)) key v.
Proof.
  intros m key v H. unfold meta_set. destruct m as [mm au ac ci co de dn ho id kw la li pa qr re ti th ve].
  set (k := trim_space (to_lower key)) in *. cbv zeta.
  assert (F : forall name f lname, In (name, f) settable -> lname = map lower_byte name -> beqb k lname = false).
  { intros name f lname Hin ->. apply beqb_neq. now apply (H name f). }
  rewrite (F (bs "accessURL") FAccessURL (bs "accessurl")) by (first [reflexivity | unfold settable; repeat (try (left; reflexivity); right)]).
  rewrite (F (bs "accrualPeriodicity") FAccrual (bs "accrualperiodicity")) by (first [reflexivity | unfold settable; repeat (try (left; reflexivity); right)]).
  rewrite (F (bs "citations") FCitations (bs "citations")) by (first [reflexivity | unfold settable; repeat (try (left; reflexivity); right)]).
  rewrite (F (bs "contributors") FContributors (bs "contributors")) by (first [reflexivity | unfold settable; repeat (try (left; reflexivity); right)]).
  rewrite (F (bs "description") FDescription (bs "description")) by (first [reflexivity | unfold settable; repeat (try (left; reflexivity); right)]).
  rewrite (F (bs "downloadURL") FDownloadURL (bs "downloadurl")) by (first [reflexivity | unfold settable; repeat (try (left; reflexivity); right)]).
  rewrite (F (bs "homeURL") FHomeURL (bs "homeurl")) by (first [reflexivity | unfold settable; repeat (try (left; reflexivity); right)]).
  rewrite (F (bs "identifier") FIdentifier (bs "identifier")) by (first [reflexivity | unfold settable; repeat (try (left; reflexivity); right)]).
  rewrite (F (bs "keywords") FKeywords (bs "keywords")) by (first [reflexivity | unfold settable; repeat (try (left; reflexivity); right)]).
  rewrite (F (bs "language") FLanguage (bs "language")) by (first [reflexivity | unfold settable; repeat (try (left; reflexivity); right)]).
  rewrite (F (bs "license") FLicense (bs "license")) by (first [reflexivity | unfold settable; repeat (try (left; reflexivity); right)]).
  rewrite (F (bs "qri") FQri (bs "qri")) by (first [reflexivity | unfold settable; repeat (try (left; reflexivity); right)]).
  rewrite (F (bs "readmeURL") FReadmeURL (bs "readmeurl")) by (first [reflexivity | unfold settable; repeat (try (left; reflexivity); right)]).
  rewrite (F (bs "title") FTitle (bs "title")) by (first [reflexivity | unfold settable; repeat (try (left; reflexivity); right)]).
  rewrite (F (bs "theme") FTheme (bs "theme")) by (first [reflexivity | unfold settable; repeat (try (left; reflexivity); right)]).
  rewrite (F (bs "version") FVersion (bs "version")) by (first [reflexivity | unfold settable; repeat (try (left; reflexivity); right)]).
  split; [reflexivity|]. split; [others|]. intros j. simpl.
  destruct (beqb_spec j key) as [->|Hn]; [apply map_get_set_eq|]. rewrite map_get_set_neq by assumption. now destruct mm.
Qed.

(** Any other ASCII key only binds that key, exactly as written, in the arbitrary metadata. *)
Theorem meta_set_other_key : forall m key v, ascii key -> (forall name f, In (name, f) settable -> ~ addresses key name) ->
  snd (meta_set m key v) = None /\ binds_key m (fst (meta_set m key v)) key v.
Proof.
  intros m key v Ha H. apply set_default. intros name f Hin E. apply (H name f Hin).
  destruct (settable_names name f Hin) as (N1 & N2 & N3). now apply key_normal.
Qed.
Print Assumptions meta_set_other_key.

(** For every key whatsoever one of the two happens; in particular Path is never set. *)
Theorem meta_set_one_change : forall m key v,
  (exists name f, In (name, f) settable /\ sets_field m (fst (meta_set m key v)) f v (snd (meta_set m key v))) \/
  (snd (meta_set m key v) = None /\ binds_key m (fst (meta_set m key v)) key v).
Proof.
  intros m key v.
  destruct (existsb (fun nf => beqb (trim_space (to_lower key)) (map lower_byte (fst nf))) settable) eqn:E.
  - left. apply existsb_exists in E as ((name & f) & Hin & E). apply beqb_eq in E. exists name, f. split; [assumption|].
    now apply set_by_normal with (name := name).
  - right. apply set_default. intros name f Hin F. assert (existsb (fun nf => beqb (trim_space (to_lower key)) (map lower_byte (fst nf))) settable = true); [|congruence].
    apply existsb_exists. exists (name, f). split; [assumption|]. now apply beqb_eq.
Qed.
Print Assumptions meta_set_one_change.
Theorem meta_set_never_path : forall m key v, md_path (fst (meta_set m key v)) = md_path m.
Proof.
  intros m key v. destruct (meta_set_one_change m key v) as [(name & f & Hin & [O _])|[_ [O _]]].
  - assert (P : FPath <> f).
    { intros <-. unfold settable in Hin. repeat (destruct Hin as [Hin|Hin]; [discriminate|]). contradiction. }
    specialize (O FPath P). simpl in O. now injection O.
  - specialize (O FPath ltac:(discriminate)). simpl in O. now injection O.
Qed.
Print Assumptions meta_set_never_path.

(** An error therefore does not mean the metadata is unchanged. *)
Theorem meta_set_error_keeps_value_refuted : ~ (forall m key v, snd (meta_set m key v) <> None -> fst (meta_set m key v) = m).
Proof.
  intros H. specialize (H (mkMeta None [] [] None None [] [] [] [] None None None [] [] [] (bs "t") None []) (bs "Title") (JInt 4)).
  vm_compute in H. specialize (H ltac:(discriminate)). discriminate.
Qed.
Print Assumptions meta_set_error_keeps_value_refuted.

(** SetArbitrary always binds the key in the arbitrary metadata; Meta() shows it. *)
Theorem meta_set_arbitrary_binds : forall m key v, binds_key m (meta_set_arbitrary m key v) key v /\
  forall k, map_get k (meta_meta (meta_set_arbitrary m key v)) = if beqb k key then Some v else map_get k (meta_meta m).
Proof.
  intros m key v. unfold meta_set_arbitrary, binds_key, meta_meta. split; [split; [others|]|]; intros k; simpl;
  (destruct (beqb_spec k key) as [->|Hn]; [apply map_get_set_eq|]); rewrite map_get_set_neq by assumption; now destruct (md_meta m).
Qed.
Print Assumptions meta_set_arbitrary_binds.

Example meta_set_ex : addresses (bs "  TITLE ") (bs "title") /\
  meta_set (meta_ref []) (bs "  TITLE ") (JStr (bs "x")) = (mkMeta None [] [] None None [] [] [] [] None None None [] [] [] (bs "x") None [], None).
Proof.
  split; [|reflexivity]. exists (bs "  "), (bs "TITLE"), (bs " "). split; [reflexivity|].
  repeat split; repeat constructor; unfold blank, same_letter; simpl; lia.
Qed.
Example meta_set_ex2 : meta_set (meta_ref []) (bs "citations") (JArr [JObj [(bs "name", JStr (bs "n"))]; JInt 1; JObj []]) =
  (mkMeta None [] [] (Some [Some (mkCitation (bs "n") [] []); None; None]) None [] [] [] [] None None None [] [] [] [] None [], Some (EMsg "parsing index")).
Proof. reflexivity. Qed.
(** The Kelvin sign lower-cases to k. *)
Example meta_set_ex3 : meta_set (meta_ref []) ([226; 132; 170]%N ++ bs "eywords") (JArr [JStr (bs "a")]) =
  (mkMeta None [] [] None None [] [] [] [] (Some [bs "a"]) None None [] [] [] [] None [], None).
Proof. reflexivity. Qed.
Example meta_set_ex4 : meta_set (meta_ref (bs "p")) (bs "path") (JStr (bs "q")) =
  (mkMeta (Some [(bs "path", JStr (bs "q"))]) [] [] None None [] [] [] [] None None None (bs "p") [] [] [] None [], None).
Proof. reflexivity. Qed.
