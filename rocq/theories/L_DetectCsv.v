(** Detecting the columns of a CSV text. *)
From Coq Require Import ZArith Lia Sorted.
From Verif Require Import Base M_Bufio M_Decimal M_Utf8 M_Doc M_Formats M_Components M_Vals M_MetaSet M_JsonWrite M_Unmarshal M_ReplaceCR M_NDJson M_CsvText M_Detect
  S_Utf8 S_JsonText S_JsonBack S_NDJson S_Vals S_ReplaceCR S_Csv S_Detect L_Utf8 L_Vals L_JsonMarshal L_NDJson L_Unmarshal L_UnmarshalInv L_CsvText L_CsvSpec L_CsvIn L_Csv L_Detect P_Vals.

(** ** The most frequent type *)
Lemma times_tally : forall l t, tally_of l t = times t l.
Proof.
  induction l as [|x l IH]; intros t; [reflexivity|]. unfold tally_of in *. cbn [filter times]. rewrite (N.eqb_sym t x).
  destruct (N.eqb x t); cbn [length]; rewrite IH; reflexivity.
Qed.
Lemma times_zero : forall l t, ~ In t l -> times t l = 0%nat.
Proof.
  induction l as [|x l IH]; intros t H; [reflexivity|]. cbn [times]. destruct (N.eqb_spec x t) as [->|]; [exfalso; apply H; left; reflexivity|].
  rewrite IH; [reflexivity|]. intros I. apply H. right. assumption.
Qed.
Lemma times_pos : forall l t, (0 < times t l)%nat -> In t l.
Proof. intros l t H. destruct (in_dec N.eq_dec t l) as [|X]; [assumption|]. rewrite times_zero in H by assumption. lia. Qed.
Lemma pick_fold : forall (f : N -> nat) ks best, StronglySorted N.lt (best :: ks) ->
  let r := fold_left (fun best t => if (f best <? f t)%nat then t else best) ks best in
  In r (best :: ks) /\ forall k, In k (best :: ks) -> (f k <= f r)%nat /\ (f k = f r -> (r <= k)%N).
Proof.
  intros f. induction ks as [|k ks IH]; intros best Hs r.
  - subst r. cbn [fold_left]. split; [left; reflexivity|]. intros k [<-|[]]. split; [reflexivity|lia].
  - subst r. cbn [fold_left]. inversion Hs as [|? ? Hs1 Hb]; subst. inversion Hs1 as [|? ? Hs2 Hk]; subst. inversion Hb as [|? ? Hbk Hbks]; subst.
    destruct (f best <? f k)%nat eqn:E.
    + apply Nat.ltb_lt in E. destruct (IH k Hs1) as [I1 I2]. split; [right; assumption|]. intros x [<-|Hx]; [|apply I2; assumption].
      destruct (I2 k) as [L _]; [left; reflexivity|]. split; lia.
    + apply Nat.ltb_ge in E. destruct (IH best) as [I1 I2]; [constructor; assumption|]. split; [destruct I1 as [<-|]; [left; reflexivity|right; right; assumption]|].
      intros x [<-|[<-|Hx]]; [apply I2; left; reflexivity| |apply I2; right; assumption].
      destruct (I2 best) as [L1 L2]; [left; reflexivity|]. split; [lia|]. intros X. lia.
Qed.
Lemma sorted_filter : forall p ks, StronglySorted N.lt ks -> StronglySorted N.lt (filter p ks).
Proof.
  intros p. induction 1 as [|k ks H IH Hk]; [constructor|]. cbn [filter]. destruct (p k); [|assumption]. constructor; [assumption|].
  rewrite Forall_forall in *. intros x Hx. apply filter_In in Hx. apply Hk. apply Hx.
Qed.
Lemma pick_commonest : forall l, Forall (fun t => 1 <= t <= 8)%N l ->
  match l with [] => pick_type l = tUnknown | _ => commonest l (pick_type l) end.
Proof.
  intros l Hl. destruct l as [|x l0]; [reflexivity|]. remember (x :: l0) as l. assert (Hne : In x l) by (subst l; left; reflexivity). clear Heql.
  unfold pick_type.
  assert (Hk : forall t, In t (get_keys l) <-> In t l).
  { intros t. unfold get_keys. rewrite filter_In, Nat.ltb_lt, times_tally. split; [intros [_ H]; apply times_pos; assumption|].
    intros H. split.
    - rewrite Forall_forall in Hl. specialize (Hl _ H). unfold type_keys, tUnknown, tNull, tInteger, tNumber, tBoolean, tString, tObject, tArray, tBytes.
      cbn [In]. lia.
    - clear - H. induction l as [|y l IH]; [destruct H|]. cbn [times]. destruct (N.eqb_spec y t); [lia|]. destruct H as [->|H]; [congruence|]. specialize (IH H). lia. }
  assert (Hs : StronglySorted N.lt (tUnknown :: get_keys l)).
  { constructor.
    - apply sorted_filter. unfold type_keys. repeat (constructor; [|repeat (constructor; [reflexivity|]); constructor]). constructor.
    - apply Forall_forall. intros t Ht. apply Hk in Ht. rewrite Forall_forall in Hl. specialize (Hl _ Ht). unfold tUnknown. lia. }
  destruct (pick_fold (tally_of l) (get_keys l) tUnknown Hs) as [I1 I2]. set (r := fold_left _ _ _) in *. clearbody r.
  assert (Hx : (1 <= times x l)%nat).
  { clear - Hne. induction l as [|y l IH]; [destruct Hne|]. cbn [times]. destruct (N.eqb_spec y x); [lia|]. destruct Hne as [->|H]; [congruence|]. specialize (IH H). lia. }
  assert (Hr : In r l).
  { destruct I1 as [<-|I1]; [|apply Hk; assumption]. exfalso. destruct (I2 x) as [L _]; [right; apply Hk; assumption|].
    rewrite !times_tally in L. rewrite (times_zero l tUnknown) in L by (intros X; rewrite Forall_forall in Hl; specialize (Hl _ X); unfold tUnknown in Hl; lia). lia. }
  split; [assumption|]. intros u. destruct (in_dec N.eq_dec u l) as [Hu|Hu].
  - destruct (I2 u) as [L1 L2]; [right; apply Hk; assumption|]. rewrite !times_tally in *. auto.
  - rewrite (times_zero l u) by assumption. assert (0 < times r l)%nat; [|lia].
    destruct (I2 x) as [L _]; [right; apply Hk; assumption|]. rewrite !times_tally in L. lia.
Qed.

(** ** Space around a cell *)
Lemma drop_prefix_spec : forall p s r, drop_prefix p s = Some r <-> s = p ++ r.
Proof.
  induction p as [|x p IH]; intros s r; cbn [drop_prefix app]; [split; congruence|]. destruct s as [|y s]; [split; discriminate|].
  destruct (N.eqb_spec x y) as [->|Hn]; [rewrite IH; split; congruence|]. split; [discriminate|congruence].
Qed.
Lemma first_prefix_spec : forall ps s, match first_prefix ps s with
  | Some r => exists p, In p ps /\ s = p ++ r
  | None => forall p r, In p ps -> s <> p ++ r end.
Proof.
  induction ps as [|p ps IH]; intros s; cbn [first_prefix]; [intros p r []|]. destruct (drop_prefix p s) as [r|] eqn:E.
  - apply drop_prefix_spec in E. exists p. split; [left; reflexivity|assumption].
  - specialize (IH s). destruct (first_prefix ps s) as [r|].
    + destruct IH as [q [I1 I2]]. exists q. split; [right; assumption|assumption].
    + intros q r [<-|I]; [|apply IH; assumption]. intros X. apply drop_prefix_spec in X. congruence.
Qed.
Lemma trim_front_spec : forall sp, (forall p, In p sp -> p <> []) -> forall f s, (length s <= f)%nat -> exists ps,
  Forall (fun p => In p sp) ps /\ s = concat ps ++ M_MetaSet.trim_front sp f s /\
  forall p r, In p sp -> M_MetaSet.trim_front sp f s <> p ++ r.
Proof.
  intros sp Hsp. induction f as [|f IH]; intros s Hf; cbn [M_MetaSet.trim_front].
  - exists []. split; [constructor|]. split; [reflexivity|]. intros p r Hp. destruct s; [|cbn in Hf; lia]. destruct p; [destruct (Hsp _ Hp); reflexivity|discriminate].
  - pose proof (first_prefix_spec sp s) as P. destruct (first_prefix sp s) as [r|].
    + destruct P as [p [I ->]]. assert (p <> []) by (apply Hsp; assumption). rewrite app_length in Hf. destruct (IH r) as [ps [P1 [P2 P3]]]; [destruct p; [congruence|cbn [length] in Hf; lia]|].
      exists (p :: ps). split; [constructor; assumption|]. split; [cbn [concat]; rewrite <- app_assoc; congruence|assumption].
    + exists []. split; [constructor|]. split; [reflexivity|]. intros p r Hp. apply P. assumption.
Qed.
Lemma spaces_are : forall p, In p spaces <-> exists b, In b all_blanks /\ p = encode_rune b.
Proof.
  intros p. split.
  - intros H. assert (X : forallb (fun q => existsb (fun b => beqb q (encode_rune b)) all_blanks) spaces = true) by (vm_compute; reflexivity).
    rewrite forallb_forall in X. specialize (X _ H). apply existsb_exists in X. destruct X as [b [I E]]. apply beqb_eq in E. eauto.
  - intros [b [I ->]]. assert (X : forallb (fun b => existsb (beqb (encode_rune b)) spaces) all_blanks = true) by (vm_compute; reflexivity).
    rewrite forallb_forall in X. specialize (X _ I). apply existsb_exists in X. destruct X as [q [J E]]. apply beqb_eq in E. subst q. assumption.
Qed.
Lemma spaces_text_of : forall ps, Forall (fun p => In p spaces) ps -> spaces_text (concat ps).
Proof.
  induction 1 as [|p ps Hp H [rs [R1 R2]]]; [exists []; split; [constructor|reflexivity]|]. apply spaces_are in Hp. destruct Hp as [b [I ->]].
  exists (b :: rs). split; [constructor; assumption|]. cbn [concat flat_map]. congruence.
Qed.
Lemma trim_space_trims : forall s, trims s (trim_space s).
Proof.
  intros s. unfold trim_space. set (s1 := M_MetaSet.trim_front spaces (length s) s).
  assert (N1 : forall p, In p spaces -> p <> []) by (intros p Hp; apply (proj1 (Forall_forall (fun p => p <> []) spaces)); [repeat (constructor; [discriminate|]); constructor|assumption]).
  assert (N2 : forall p, In p (map (@rev N) spaces) -> p <> []).
  { intros p Hp. apply in_map_iff in Hp. destruct Hp as [q [<- Hq]]. intros X. apply (N1 q Hq). apply (f_equal (@rev N)) in X. rewrite rev_involutive in X. assumption. }
  destruct (trim_front_spec spaces N1 (length s) s) as [ps [P1 [P2 P3]]]; [lia|]. fold s1 in P2, P3.
  destruct (trim_front_spec (map (@rev N) spaces) N2 (length s1) (rev s1)) as [qs [Q1 [Q2 Q3]]]; [rewrite rev_length; lia|].
  set (t := M_MetaSet.trim_front (map (@rev N) spaces) (length s1) (rev s1)) in *.
  assert (E1 : s1 = rev t ++ rev (concat qs)) by (rewrite <- rev_app_distr, <- Q2, rev_involutive; reflexivity).
  assert (Eq : exists qs', Forall (fun p => In p spaces) qs' /\ rev (concat qs) = concat qs').
  { clear - Q1. induction Q1 as [|q qs Hq H [qs' [I1 I2]]]; [exists []; split; [constructor|reflexivity]|]. apply in_map_iff in Hq. destruct Hq as [p [<- Hp]].
    exists (qs' ++ [p]). split; [apply Forall_app; auto|]. cbn [concat]. rewrite rev_app_distr, I2, rev_involutive, concat_app. cbn [concat]. rewrite app_nil_r. reflexivity. }
  destruct Eq as [qs' [Q1' Eq]]. rewrite Eq in E1.
  exists (concat ps), (concat qs'). split; [rewrite P2 at 1; rewrite E1; reflexivity|].
  split; [apply spaces_text_of; assumption|]. split; [apply spaces_text_of; assumption|].
  intros b Hb. assert (Hs : In (encode_rune b) spaces) by (apply spaces_are; eauto). split; intros [x Ex].
  - apply (P3 (encode_rune b) (x ++ concat qs') Hs). rewrite E1, Ex, app_assoc. reflexivity.
  - apply (Q3 (rev (encode_rune b)) (rev x)); [apply in_map; assumption|]. rewrite <- rev_app_distr, <- Ex, rev_involutive. reflexivity.
Qed.

Section Csv.
  Variable F : Type.
  Variable parse_float : bytes -> option F.
  Variable float32_ok : bytes -> bool.
  Variable depth : nat.
  Variable var_name : bytes -> bytes.
  Notation gval := (gval F).
  Definition int64_text (s : bytes) : Prop := exists z, integer_text s z /\ int64 z.

  Lemma possible_header_guess : forall h, header_guess F parse_float int64_text h (possible_header F parse_float h).
  Proof.
    induction h as [|raw h IH]; [left; split; [reflexivity|constructor]|]. cbn [possible_header].
    assert (Bad : ~ name_like F parse_float int64_text (trim_space raw) -> header_guess F parse_float int64_text (raw :: h) false).
    { intros X. right. split; [reflexivity|]. left. exists (trim_space raw). split; [apply trim_space_trims|assumption]. }
    destruct (parse_int64 (trim_space raw)) as [z|] eqn:E1.
    { apply Bad. intros [_ [_ [_ [X _]]]]. apply X. exists z. apply int64_parse. assumption. }
    destruct (parse_float (trim_space raw)) as [z|] eqn:E2; [apply Bad; intros [_ [_ [_ [_ X]]]]; congruence|].
    destruct (beqb (trim_space raw) []) eqn:E3; [apply beqb_eq in E3; apply Bad; intros [X _]; contradiction|].
    destruct (beqb (trim_space raw) (bs "true")) eqn:E4; [apply beqb_eq in E4; apply Bad; intros [_ [X _]]; contradiction|].
    destruct (beqb (trim_space raw) (bs "false")) eqn:E5; [apply beqb_eq in E5; apply Bad; intros [_ [_ [X _]]]; contradiction|].
    cbn [orb]. destruct IH as [[-> IH]|[-> IH]]; [left|right; split; [reflexivity|]; right; assumption].
    split; [reflexivity|]. constructor; [|assumption]. exists (trim_space raw). split; [apply trim_space_trims|].
    assert (Q : forall t, beqb (trim_space raw) t = false -> trim_space raw <> t) by (intros t Hf X; apply beqb_eq in X; congruence).
    repeat split; [apply Q; assumption..| |assumption]. intros [z Hz]. apply int64_parse in Hz. congruence.
  Qed.

  (** ** The document *)
  Definition field_back (title : bytes) (ty : option N) : gval :=
    VMap ((match title with [] => [] | _ => [(bs "title", VStr title)] end) ++
          (match ty with None => [] | Some t => [(bs "type", VStr (type_name t))] end)).
  Definition type_opt (t : N) : option N := if N.eqb t tUnknown then None else Some t.
  Lemma type_names_ok : forall t, (t <= 7)%N -> type_string t = type_name t /\ well_formed (type_name t).
  Proof.
    intros t Ht. assert (W : forall s, forallb (fun c => (c <? 128)%N) s = true -> well_formed s).
    { intros s H. exists s. rewrite forallb_forall in H. split.
      - apply Forall_forall. intros c Hc. specialize (H _ Hc). apply N.ltb_lt in H. split; lia.
      - induction s as [|c s IH]; [reflexivity|]. cbn [flat_map]. rewrite <- IH by (intros x Hx; apply H; right; assumption).
        assert (c < 128)%N by (apply N.ltb_lt; apply H; left; reflexivity). unfold encode_rune. replace (c <? 128)%N with true by (symmetry; apply N.ltb_lt; assumption). reflexivity. }
    assert (X : (t = 0 \/ t = 1 \/ t = 2 \/ t = 3 \/ t = 4 \/ t = 5 \/ t = 6 \/ t = 7)%N) by lia.
    repeat destruct X as [->|X]; [..|subst t]; (split; [reflexivity|apply W; reflexivity]).
  Qed.
  Lemma cleaned_empty : forall s s', cleaned s s' -> s' = [] <-> s = [].
  Proof.
    intros s s' H. destruct H as [|r s s' Hr H|c s s' Hc H]; [tauto| |].
    - assert (N : encode_rune r <> []) by (unfold encode_rune; repeat destruct (_ <? _)%N; discriminate). destruct (encode_rune r); [congruence|]. split; discriminate.
    - split; discriminate.
  Qed.
  Lemma ascii_cleaned : forall s, forallb (fun c => (c <? 128)%N) s = true -> cleaned s s.
  Proof.
    intros s H. apply cleaned_well_formed. exists s. rewrite forallb_forall in H. split.
    - apply Forall_forall. intros c Hc. specialize (H _ Hc). apply N.ltb_lt in H. split; lia.
    - induction s as [|c s IH]; [reflexivity|]. cbn [flat_map]. rewrite <- IH by (intros x Hx; apply H; right; assumption).
      assert (c < 128)%N by (apply N.ltb_lt; apply H; left; reflexivity). unfold encode_rune. replace (c <? 128)%N with true by (symmetry; apply N.ltb_lt; assumption). reflexivity.
  Qed.
  Lemma field_line_back : forall title title' t, cleaned title title' -> (t <= 7)%N ->
    line_back F parse_float (field_doc F title t) (field_back title' (type_opt t)).
  Proof.
    intros title title' t Hc Ht. unfold field_doc, field_back, type_opt. destruct (type_names_ok t Ht) as [-> Hw]. pose proof (cleaned_empty _ _ Hc) as Hz.
    assert (K1 : cleaned (bs "title") (bs "title")) by (apply ascii_cleaned; reflexivity).
    assert (K2 : cleaned (bs "type") (bs "type")) by (apply ascii_cleaned; reflexivity).
    assert (K3 : cleaned (type_name t) (type_name t)) by (apply cleaned_well_formed; assumption).
    destruct title' as [|x r].
    - destruct Hz as [Hz _]. rewrite Hz by reflexivity. cbn [beqb app]. destruct (N.eqb t tUnknown).
      + apply (lb_map F parse_float [] []). constructor.
      + apply (lb_map F parse_float _ [(bs "type", VStr (type_name t))]). repeat constructor; assumption.
    - destruct (beqb title []) eqn:E; [apply beqb_eq in E; destruct Hz as [_ Hz]; specialize (Hz E); discriminate|].
      destruct (N.eqb t tUnknown).
      + apply (lb_map F parse_float _ [(bs "title", VStr (x :: r))]). repeat constructor; assumption.
      + apply (lb_map F parse_float [(bs "title", VStr title); (bs "type", VStr (type_name t))] [(bs "title", VStr (x :: r)); (bs "type", VStr (type_name t))]).
        repeat constructor; assumption.
  Qed.
  Lemma field_deep : forall title t d, deep F (S d) (field_doc F title t).
  Proof. intros title t d. unfold field_doc. constructor. apply Forall_app. split; [destruct (beqb title [])|destruct (N.eqb t tUnknown)]; repeat constructor. Qed.
  Lemma marshal_some : forall v, ~ refused F (fun _ => None) v -> exists t, marshal F (fun _ => None) [] [] [] v = Some t.
  Proof.
    intros v H. destruct (marshal F (fun _ => None) [] [] [] v) as [t|] eqn:E; [eauto|]. exfalso. apply H.
    apply (marshal_refused F (fun _ => None) v [] [] []). assumption.
  Qed.
  Lemma field_not_refused : forall title t, ~ refused F (fun _ => None) (field_doc F title t).
  Proof.
    intros title t H. unfold field_doc in H. inversion H as [| |? k v I R E]; subst. apply in_app_or in I.
    assert (X : exists s, v = VStr s) by (destruct I as [I|I]; [destruct (beqb title [])|destruct (N.eqb t tUnknown)]; cbn in I; intuition; match goal with E : (_, _) = (_, _) |- _ => injection E as _ <-; eauto end).
    destruct X as [s0 ->]. inversion R.
  Qed.
  Lemma schars_plain : forall s, forallb (fun c => (32 <=? c)%N && (c <? 128)%N && negb (N.eqb c 34) && negb (N.eqb c 92)) s = true -> schars s s.
  Proof.
    induction s as [|c s IH]; intros H; [constructor|]. cbn [forallb] in H. rewrite !andb_true_iff, !negb_true_iff, !N.eqb_neq, N.leb_le, N.ltb_lt in H.
    destruct H as [[[[H1 H2] H3] H4] H]. apply schars_ascii; auto.
  Qed.
  Definition jfield (title : bytes) (t : option N) : jdoc :=
    JObj (member (bs "title") (match title with [] => None | _ => Some title end) ++ member (bs "type") (option_map type_name t)).
  Lemma field_back_doc : forall title t, doc_of F (field_back title t) = jfield title t.
  Proof. intros [|c title] [t|]; reflexivity. Qed.
  Lemma schema_of_fields : (4 <= depth)%nat -> forall (fs : list (bytes * N)) titles', Forall (fun p => (snd p <= 7)%N) fs ->
    Forall2 cleaned (map fst fs) titles' ->
    schema_of F parse_float depth (map (fun p => field_doc F (fst p) (snd p)) fs) =
      Ok (csv_doc (map (fun p => jfield (fst p) (snd p)) (combine titles' (map (fun p => type_opt (snd p)) fs)))).
  Proof.
    intros Hd fs titles' Ht Hc.
    set (back := map (fun p => field_back (fst p) (snd p)) (combine titles' (map (fun p => type_opt (snd p)) fs))).
    assert (LB : line_back F parse_float (VArr (map (fun p => field_doc F (fst p) (snd p)) fs)) (VArr back)).
    { constructor. subst back. revert titles' Hc. induction Ht as [|[title t] fs Ht Hfs IH]; intros titles' Hc; inversion Hc; subst; [constructor|].
      cbn [map fst snd combine] in *. constructor; [apply field_line_back; assumption|apply IH; assumption]. }
    destruct (marshal_some (VArr (map (fun p => field_doc F (fst p) (snd p)) fs))) as [items Hi].
    { intros H. inversion H as [|? v I R|]; subst. apply in_map_iff in I. destruct I as [p [<- _]]. eapply field_not_refused. eassumption. }
    unfold schema_of. rewrite Hi. destruct depth as [|[|[|[|d]]]]; try lia.
    assert (ST : stext F parse_float (S (S d)) (VArr back) items).
    { apply (marshal_strict F (fun _ => None) parse_float) with (v := VArr (map (fun p => field_doc F (fst p) (snd p)) fs)); [|assumption| |assumption].
      - intros f t X. discriminate.
      - constructor. apply Forall_forall. intros v I. apply in_map_iff in I. destruct I as [p [<- _]]. apply field_deep. }
    assert (B0 : blank []) by constructor.
    assert (ARR : forall n, spair F parse_float n (bs "type", VStr (bs "array")) (bs """type"":""array""")).
    { intros n. apply (spr_intro F parse_float n (bs "type") (bs "type") (VStr (bs "array")) (bs """array""") [] []); [apply schars_plain; reflexivity|assumption|assumption|].
      apply (st_str F parse_float n (bs "array") (bs "array")). apply schars_plain. reflexivity. }
    assert (ITEMS : forall n v t, stext F parse_float n v t -> spair F parse_float n (bs "items", v) (bs """items"":" ++ t)).
    { intros n v t H. apply (spr_intro F parse_float n (bs "items") (bs "items") v t [] []); [apply schars_plain; reflexivity|assumption|assumption|assumption]. }
    assert (OBJ : forall n v t, stext F parse_float n v t -> stext F parse_float (S n) (VMap [(bs "items", v); (bs "type", VStr (bs "array"))]) (bs "{""type"":""array"",""items"":" ++ t ++ bs "}")).
    { intros n v t H. pose proof (st_obj F parse_float n (bs "type", VStr (bs "array")) [(bs "items", v)] [] (bs """type"":""array""") (bs "," ++ (bs """items"":" ++ t) ++ []) B0 (ARR n)
        (spl_cons F parse_float n _ [] [] [] _ [] B0 B0 (ITEMS n v t H) (spl_nil F parse_float n [] B0))) as X.
      rewrite app_nil_r in X. rewrite <- !app_assoc in X. exact X. }
    assert (U : unmarshal F parse_float (S (S (S (S d)))) (bs "{""type"":""array"",""items"":{""type"":""array"",""items"":" ++ items ++ bs "}}") =
       Ok (VMap [(bs "items", VMap [(bs "items", VArr back); (bs "type", VStr (bs "array"))]); (bs "type", VStr (bs "array"))])).
    { apply unmarshal_exact. eexists [], _, []. split; [assumption|]. split; [assumption|]. split; [apply OBJ; apply OBJ; exact ST|].
      rewrite app_nil_r. cbn [app]. rewrite <- !app_assoc. reflexivity. }
    rewrite U. cbn [doc_of map fst snd]. unfold csv_doc. do 7 f_equal. subst back. rewrite map_map. apply map_ext. intros [title t]. apply field_back_doc.
  Qed.
End Csv.

(** ** Rows *)
Section Rows.
  Variable lazy trim : bool.
  Variable h : N.
  Variable u : bytes.
  Variable fin : err.
  Notation comma := (h :: u).
  Lemma cells_shorter : forall T fs o r, cells lazy trim comma fin T fs o r -> o = None -> (length r <= length T)%nat /\ (T <> [] -> (length r < length T)%nat).
  Proof.
    induction 1; intros Ho; subst; try discriminate.
    - rewrite app_length. cbn [length]. split; [lia|intros _; lia].
    - cbn [length]. split; [lia|]. intros Hn. destruct f; [congruence|cbn [length]; lia].
    - destruct (IHcells eq_refl) as [L _]. apply skips_length in H0. rewrite !app_length. cbn [length]. split; [lia|intros _; lia].
    - apply quoted_shorter with (X := 10%N :: r) in H; [|reflexivity]. cbn [length] in *. split; [lia|intros _; lia].
    - cbn [length]. split; [lia|intros _; lia].
    - destruct (IHcells eq_refl) as [L _]. apply skips_length in H0. apply quoted_shorter with (X := comma ++ T2) in H; [|reflexivity].
      rewrite app_length in H. cbn [length] in *. split; [lia|intros _; lia].
    - cbn [length]. split; [lia|intros _; lia].
  Qed.
  Lemma record_shorter : forall T o r, record lazy trim comma fin T o r -> forall fs, o = Some (fs, None) -> (length r < length T)%nat.
  Proof.
    induction 1 as [|T o r H IH|T T' fs o r H1 H2 H3 H4]; intros fs0 Ho; [discriminate|specialize (IH _ Ho); cbn [length]; lia|].
    injection Ho as -> ->. pose proof (skips_length _ _ _ H3) as HL. destruct (cells_shorter _ _ _ _ H4 eq_refl) as [L1 L2].
    destruct T as [|c T]; [exfalso; destruct T'; [|cbn in HL; lia]; destruct (cells_nil lazy trim h u fin _ _ _ _ H4 eq_refl) as [[[X _]|[_ X]] _]; [auto|discriminate]|].
    destruct T' as [|c' T']; [cbn [length] in *; lia|]. assert (X : c' :: T' <> []) by discriminate. specialize (L2 X). lia.
  Qed.
  Lemma rows_bound : forall rows w T l, answers lazy trim comma fin w T l -> l = map Row rows -> (length l <= length T)%nat.
  Proof.
    induction rows as [|row rows IH]; intros w T l H ->; [cbn; lia|]. cbn [map] in H. inversion H; subst.
    match goal with R : record _ _ _ _ _ _ _ |- _ => pose proof (record_shorter _ _ _ R _ eq_refl) end.
    match goal with A : answers _ _ _ _ _ _ (map Row rows) |- _ => specialize (IH _ _ _ A eq_refl) end. cbn [map length]. lia.
  Qed.
  Lemma no_bad : forall T v q, quoted true comma T v q -> forall r, q <> Bad r.
  Proof. induction 1; intros r0; try discriminate; auto. Qed.
  Lemma cells_flaw : forall T fs o r, cells true trim comma fin T fs o r -> o = None \/ (o = Some (Source fin) /\ fin <> EOF).
  Proof.
    assert (A : forall o, at_end fin o -> o = None \/ (o = Some (Source fin) /\ fin <> EOF)) by (intros o [[_ ->]|[H ->]]; auto).
    induction 1; auto; try discriminate. exfalso. eapply no_bad; [eassumption|reflexivity].
  Qed.
  Lemma answers_only : forall w T l, answers true trim comma fin w T l -> (w < 0)%Z -> forall a, In a l ->
    (exists fs, a = Row fs) \/ (a = End /\ fin = EOF) \/ (a = Flaw (Source fin) /\ fin <> EOF).
  Proof.
    assert (R : forall T o r, record true trim comma fin T o r -> match o with None => fin = EOF | Some (_, x) => x = None \/ (x = Some (Source fin) /\ fin <> EOF) end).
    { induction 1; [assumption|assumption|]. eapply cells_flaw. eassumption. }
    assert (W : forall w n, (w < 0)%Z -> ((if (w =? 0)%Z then n else w) < 0)%Z) by (intros w n Hw; replace (w =? 0)%Z with false by (symmetry; apply Z.eqb_neq; lia); assumption).
    induction 1; intros Hw a I; [destruct I|..]; match goal with H : record _ _ _ _ _ _ _ |- _ => apply R in H end.
    - destruct I as [<-|I]; [auto|apply IHanswers; auto].
    - destruct I as [<-|I]; [|apply IHanswers; auto]. destruct H as [|[E ?]]; [discriminate|]. injection E as ->. auto.
    - destruct I as [<-|I]; [eauto|apply IHanswers; auto].
    - lia.
  Qed.
End Rows.

(** The loop, on the answers. *)
Fixpoint proc (l : list (res (list bytes))) (width count : nat) (rows : list (list bytes)) (variadic : bool) : res (list (list bytes)) * bool :=
  match l with
  | [] => (OutOfFuel, variadic)
  | x :: l =>
      if (2000 <? count)%nat then (Ok (rev rows), variadic)
      else match x with
           | Err EOF => (Ok (rev rows), variadic)
           | Err _ => (Err (EMsg "error reading csv file"), variadic)
           | Ok rec => if (length rec =? width)%nat then proc l width (S count) (rec :: rows) variadic
                       else proc l width count rows true
           | Panic => (Panic, variadic)
           | OutOfFuel => (OutOfFuel, variadic)
           end
  end.
Lemma csv_loop_proc : forall fuel width count rows variadic r, exists r',
  csv_loop fuel width count rows variadic r = (proc (fst (in_reads bufsize true true 44 fuel r)) width count rows variadic, r') /\
  adv (in_src (r_st r)) (in_src (r_st r')).
Proof.
  induction fuel as [|fuel IH]; intros width count rows variadic r; [exists r; split; [reflexivity|apply adv_refl]|]. cbn [csv_loop in_reads].
  destruct (in_read bufsize true true 44 r) as [x r1] eqn:E. apply in_read_adv in E. destruct (in_reads bufsize true true 44 fuel r1) as [xs r2] eqn:E2.
  cbn [fst proc]. destruct (2000 <? count)%nat; [exists r1; split; [reflexivity|assumption]|].
  destruct x as [rec|[| |]| |]; try (exists r1; split; [reflexivity|assumption]).
  destruct (length rec =? width)%nat.
  - destruct (IH width (S count) (rec :: rows) variadic r1) as [r' [I1 I2]]. rewrite E2 in I1. exists r'. split; [exact I1|eapply adv_trans; eassumption].
  - destruct (IH width count rows true r1) as [r' [I1 I2]]. rewrite E2 in I1. exists r'. split; [exact I1|eapply adv_trans; eassumption].
Qed.
Lemma proc_sampled : forall fin l width count acc variadic, (count <= 2001)%nat ->
  (forall a, In a l -> (exists fs, a = Row fs) \/ (a = End /\ fin = EOF) \/ (a = Flaw (Source fin) /\ fin <> EOF)) ->
  (exists a, In a l /\ forall fs, a <> Row fs) ->
  exists rows a l' o, l = map Row rows ++ a :: l' /\
    ((a = End /\ o = None /\ (count + length (filter (fits width) rows) <= 2000)%nat) \/
     (o = Some (Source fin) /\ a = Flaw (Source fin) /\ (count + length (filter (fits width) rows) <= 2000)%nat) \/
     (o = None /\ ((rows = [] /\ count = 2001%nat) \/ exists rows0 row, rows = rows0 ++ [row] /\ (count + length (filter (fits width) rows0) = 2000)%nat /\ length row = width))) /\
    proc (map answer_res l) width count acc variadic =
      (match o with None => Ok (rev acc ++ filter (fits width) rows) | Some _ => Err (EMsg "error reading csv file") end,
       variadic || existsb (fun r => negb (fits width r)) rows).
Proof.
  intros fin. induction l as [|a l IH]; intros width count acc variadic Hc Ho [x [I X]]; [destruct I|]. cbn [map proc].
  destruct (2000 <? count)%nat eqn:Ec.
  - apply Nat.ltb_lt in Ec. exists [], a, l, None. split; [reflexivity|]. split; [right; right; split; [reflexivity|left; split; [reflexivity|lia]]|].
    cbn [filter existsb]. rewrite app_nil_r, orb_false_r. reflexivity.
  - apply Nat.ltb_ge in Ec. destruct (Ho a) as [[fs ->]|[[-> Hfin]|[-> Hfin]]]; [left; reflexivity| | |].
    + assert (Hex : exists a, In a l /\ forall fs, a <> Row fs) by (destruct I as [<-|I]; [exfalso; eapply X; reflexivity|eauto]).
      assert (Ho' : forall a, In a l -> (exists fs, a = Row fs) \/ (a = End /\ fin = EOF) \/ (a = Flaw (Source fin) /\ fin <> EOF)) by (intros a' Ha; apply Ho; right; assumption).
      cbn [answer_res]. destruct (length fs =? width)%nat eqn:Ew.
      * destruct (IH width (S count) (fs :: acc) variadic) as [rows [a [l' [o [E1 [E2 E3]]]]]]; [lia|assumption|assumption|].
        exists (fs :: rows), a, l', o. split; [cbn [map app]; congruence|].
        assert (Ef : filter (fits width) (fs :: rows) = fs :: filter (fits width) rows) by (cbn [filter]; unfold fits at 1; rewrite Ew; reflexivity).
        rewrite Ef. cbn [length]. split.
        -- destruct E2 as [[? [? ?]]|[[? [? ?]]|[? E2]]]; [left; repeat split; try assumption; lia|right; left; repeat split; try assumption; lia|right; right].
           split; [assumption|right]. destruct E2 as [[-> E2]|[rows0 [row [-> [E2 E4]]]]].
           ++ exists [], fs. apply Nat.eqb_eq in Ew. cbn [filter length]. split; [reflexivity|]. split; [lia|assumption].
           ++ exists (fs :: rows0), row. split; [reflexivity|]. split; [|assumption]. cbn [filter]. unfold fits at 1. rewrite Ew. cbn [length]. lia.
        -- rewrite E3. cbn [rev existsb]. assert (Ef1 : fits width fs = true) by exact Ew. rewrite Ef1. cbn [negb orb]. rewrite <- app_assoc. reflexivity.
      * destruct (IH width count acc true) as [rows [a [l' [o [E1 [E2 E3]]]]]]; [lia|assumption|assumption|].
        exists (fs :: rows), a, l', o. split; [cbn [map app]; congruence|].
        assert (Ef : forall rs, filter (fits width) (fs :: rs) = filter (fits width) rs) by (intros rs; cbn [filter]; unfold fits at 1; rewrite Ew; reflexivity).
        rewrite Ef. split.
        -- destruct E2 as [?|[?|[? E2]]]; [left; assumption|right; left; assumption|right; right]. split; [assumption|].
           destruct E2 as [[-> E2]|[rows0 [row [-> [E2 E4]]]]]; [lia|]. right. exists (fs :: rows0), row. rewrite Ef. split; [reflexivity|]. auto.
        -- rewrite E3. cbn [existsb]. assert (Ef1 : fits width fs = false) by exact Ew. rewrite Ef1. cbn [negb orb]. rewrite orb_true_r. reflexivity.
    + exists [], End, l, None. split; [reflexivity|]. cbn [filter length existsb answer_res]. rewrite app_nil_r, orb_false_r. split; [left; repeat split; lia|reflexivity].
    + exists [], (Flaw (Source fin)), l, (Some (Source fin)). split; [reflexivity|]. cbn [filter length existsb answer_res flaw_err]. rewrite orb_false_r. split; [right; left; repeat split; lia|].
      destruct fin; [congruence|reflexivity|reflexivity].
Qed.

Lemma forall2_len : forall (A B : Type) (R : A -> B -> Prop) xs ys, Forall2 R xs ys -> length xs = length ys.
Proof. induction 1; cbn [length]; congruence. Qed.
Lemma all_rows : forall l, (exists rows, l = map Row rows) \/ exists a, In a l /\ forall fs, a <> Row fs.
Proof.
  induction l as [|a l [[rows ->]|[x [I X]]]]; [left; exists []; reflexivity| |right; exists x; split; [right; assumption|assumption]].
  destruct a as [fs| | |]; [left; exists (fs :: rows); reflexivity| | |]; right; eexists; (split; [left; reflexivity|discriminate]).
Qed.
Lemma clean_length : forall fin T, (length (clean fin T) <= length T)%nat.
Proof.
  intros fin T. induction T as [|c t IH]; [cbn; lia|]. cbn [clean length]. destruct (N.eqb c 13); [|cbn [length]; lia].
  destruct t as [|d t]; [destruct (is_eof fin); cbn [length]; lia|]. destruct (N.eqb d 10); cbn [length] in *; lia.
Qed.
Lemma not_row_res : forall l1 l2, map answer_res l1 = map answer_res l2 -> (exists a, In a l1 /\ forall fs, a <> Row fs) -> exists a, In a l2 /\ forall fs, a <> Row fs.
Proof.
  induction l1 as [|a l1 IH]; intros [|b l2] E [x [I X]]; try discriminate; [destruct I|]. injection E as E1 E2. destruct I as [->|I].
  - exists b. split; [left; reflexivity|]. intros fs ->. destruct x; try discriminate. eapply X. reflexivity.
  - destruct (IH l2 E2) as [y [Iy Y]]; [eauto|]. exists y. split; [right; assumption|assumption].
Qed.
Lemma in_reads_len : forall osize lazy trim c n r, length (fst (in_reads osize lazy trim c n r)) = n.
Proof.
  induction n as [|n IH]; intros r; [reflexivity|]. cbn [in_reads]. destruct (in_read _ _ _ _ _) as [x r1]. specialize (IH r1).
  destruct (in_reads _ _ _ _ _ r1) as [xs r2]. cbn [fst length] in *. congruence.
Qed.

Section CsvSchema.
  Variable F : Type.
  Variable parse_float : bytes -> option F.
  Variable float32_ok : bytes -> bool.
  Variable depth : nat.
  Variable var_name : bytes -> bytes.
  Hypothesis deep_enough : (4 <= depth)%nat.
  Notation looks := (class float32_ok).

  Lemma parse_type_range : forall s, (1 <= parse_type float32_ok s <= 7)%N.
  Proof.
    intros s. unfold parse_type. destruct (is_boolean s); [unfold tBoolean; lia|]. destruct (beqb s (bs "null")); [unfold tNull; lia|].
    assert (G : forall v rest, (1 <= parse_type_loop float32_ok v rest <= 7)%N); [|apply G].
    intros v. induction rest as [|c rest IH]; cbn [parse_type_loop]; [unfold tString; lia|].
    repeat match goal with |- context [if ?b then _ else _] => destruct b end; unfold tString, tObject, tArray, tInteger, tNumber in *; try lia; assumption.
  Qed.
  Lemma column_of_column : forall i rows, Forall (fun r => (i < length r)%nat) rows -> column i rows (column_of i rows).
  Proof. intros i rows H. induction H as [|r rows Hr H IH]; cbn; constructor; [apply nth_error_nth'; assumption|assumption]. Qed.
  Lemma column_type_pick : forall cells, column_type looks cells (type_opt (pick_type (map (parse_type float32_ok) cells))) /\
    (pick_type (map (parse_type float32_ok) cells) <= 7)%N.
  Proof.
    intros cells. assert (H : Forall (fun t => 1 <= t <= 8)%N (map (parse_type float32_ok) cells)).
    { apply Forall_forall. intros t I. apply in_map_iff in I. destruct I as [s [<- _]]. pose proof (parse_type_range s). lia. }
    pose proof (pick_commonest _ H) as P. unfold column_type.
    assert (F2 : Forall2 looks cells (map (parse_type float32_ok) cells)) by (clear - F parse_float; induction cells as [|c cells IH]; cbn [map]; [exact (Forall2_nil _)|apply Forall2_cons; [eapply (parse_type_exact F); try exact parse_float; try exact (fun _ _ => true); reflexivity|exact IH]]).
    destruct cells as [|c cells]; [cbn [map] in *; rewrite P; split; [exists []; split; [constructor|reflexivity]|unfold tUnknown; lia]|].
    remember (map (parse_type float32_ok) (c :: cells)) as l eqn:El. destruct l as [|x l]; [discriminate|]. set (p := pick_type (x :: l)) in *.
    assert (R : (1 <= p <= 7)%N).
    { destruct P as [P _]. rewrite El in P. apply in_map_iff in P. destruct P as [s [<- _]]. apply parse_type_range. }
    split; [|lia]. exists (x :: l). split; [assumption|]. unfold type_opt. replace (N.eqb p tUnknown) with false; [assumption|].
    symmetry. apply N.eqb_neq. unfold tUnknown. lia.
  Qed.

  Lemma csv_config_set : forall b v : bool,
    (let opt := [(bs "lazyQuotes", JBool true)] in
     let opt := if b then map_set (bs "headerRow") (JBool true) opt else opt in
     if v then map_set (bs "variadicFields") (JBool true) opt else opt) = csv_config b v.
  Proof. intros [|] [|]; reflexivity. Qed.

  Theorem csv_schema_says : forall s, exists t l y n s' cfg,
    csv_schema F parse_float float32_ok depth var_name s = ((y, Z.of_nat n, s'), Some cfg) /\
    adv s s' /\ n = (length (s_rem s) - length (s_rem s'))%nat /\
    tidy (s_fin s) (s_rem s) t /\ answers true true [44%N] (s_fin s) (-1) t l /\
    csv_found F parse_float var_name looks int64_text l y cfg.
  Proof.
    intros s. unfold csv_schema. destruct (start_ok bufsize bufsize s) as [S1 S2].
    set (r0 := mkCr (-1)%Z (mkIn [] None (new_bufr bufsize s))). assert (A0 : in_src (r_st r0) = s) by reflexivity.
    assert (W0 : r_width r0 = (-1)%Z) by reflexivity. assert (I0 : in_ok bufsize (s_fin s) (r_st r0)) by exact S1.
    assert (T0 : forall T, stands (r_st r0) T -> inserts (s_rem s) T []) by exact S2. clearbody r0. clear S1 S2.
    assert (Hv : valid_delim 44 = true) by reflexivity. assert (Hs : (0 < bufsize)%nat) by (unfold bufsize; lia).
    destruct (in_read bufsize true true 44 r0) as [x r1] eqn:E0. pose proof (in_read_adv _ _ _ _ _ _ _ E0) as A1. rewrite A0 in A1.
    assert (I1 : in_ok bufsize (s_fin s) (r_st r1)).
    { pose proof (proj1 (in_reads_answers bufsize (s_fin s) Hs true true 44 1 r0 Hv I0)) as X. cbn [in_reads] in X. rewrite E0 in X. exact X. }
    set (fuel := S (S (in_left (r_st r1)))).
    destruct (in_reads_answers bufsize (s_fin s) Hs true true 44 (S fuel) r0 Hv I0) as [_ [T [l [B1 [B2 B3]]]]].
    rewrite W0 in B2. change (encode_rune 44) with [44%N] in B2. cbn [in_reads] in B3. rewrite E0 in B3.
    destruct (in_reads bufsize true true 44 fuel r1) as [xs r3] eqn:E1. cbn [fst] in B3. destruct l as [|a l]; [discriminate|]. injection B3 as B3 B4.
    pose proof (inserts_tidy (s_fin s) _ _ (T0 _ B1)) as Tidy.
    pose proof (answers_only true 44 [] (s_fin s) _ _ _ B2 ltac:(lia)) as Only.
    assert (NR : exists a, In a l /\ forall fs, a <> Row fs).
    { destruct (in_reads_answers bufsize (s_fin s) Hs true true 44 fuel r1 Hv I1) as [_ [T1 [l1 [C1 [C2 C3]]]]].
      pose proof (in_reads_len bufsize true true 44 fuel r1) as Ln. rewrite E1 in C3, Ln. cbn [fst] in C3, Ln.
      apply (not_row_res l1); [congruence|]. destruct (all_rows l1) as [[rows Er]|]; [exfalso|assumption].
      pose proof (rows_bound true true 44 [] (s_fin s) rows _ _ _ C2 Er) as L1. pose proof (clean_length (s_fin s) T1) as L2. pose proof (stands_length bufsize Hs _ _ C1) as L3.
      rewrite C3, map_length in Ln. subst fuel. lia. }
    exists (clean (s_fin s) T), (a :: l). destruct (Only a) as [[h ->]|[[-> Hf]|[-> Hf]]]; [left; reflexivity| | |]; cbn [answer_res flaw_err] in B3; subst x.
    - destruct (csv_loop_proc fuel (length h) 0 [] false r1) as [r2 [L1 L2]]. rewrite L1, E1. cbn [fst]. rewrite B4.
      destruct (proc_sampled (s_fin s) l (length h) 0 [] false) as [rows [a [l' [o [P1 [P2 P3]]]]]]; [lia|intros z Hz; apply Only; right; assumption|assumption|].
      rewrite P3. cbn [rev app orb]. cbn [plus] in P2. pose proof (possible_header_guess F parse_float h) as HG. set (b := possible_header F parse_float h) in *. clearbody b.
      pose proof (adv_trans _ _ _ A1 L2) as A2. set (v := existsb (fun r => negb (fits (length h) r)) rows).
      pose proof (csv_config_set b v) as CC. cbn zeta in CC.
      assert (SA : sampled (length h) l rows o).
      { rewrite P1. destruct P2 as [[-> [-> P2]]|[[-> [-> P2]]|[-> P2]]]; [apply sa_all; assumption|apply sa_flaw; assumption|].
        destruct P2 as [[_ P2]|[rows0 [row [-> [P2 P4]]]]]; [discriminate|]. apply sa_full; assumption. }
      destruct o as [f|].
      + do 4 eexists. split; [rewrite CC; reflexivity|]. split; [exact A2|]. split; [reflexivity|]. split; [assumption|]. split; [assumption|].
        eapply cf_breaks; eassumption.
      + set (counted := if b then filter (fits (length h)) rows else h :: filter (fits (length h)) rows).
        set (title := fun i => if b then var_name (nth i h []) else field_number i).
        set (tp := fun i => pick_type (map (parse_type float32_ok) (column_of i counted))).
        set (titles := map title (seq 0 (length h))).
        assert (CT : exists titles', Forall2 cleaned titles titles').
        { clearbody titles. clear. induction titles as [|t ts [ts' IH]]; [exists []; constructor|]. destruct (cleaned_total t) as [t' Ht]. exists (t' :: ts'). constructor; assumption. }
        destruct CT as [titles' CT]. set (fs := map (fun i => (title i, tp i)) (seq 0 (length h))).
        assert (SF : schema_of F parse_float depth (map (fun i => field_doc F (title i) (tp i)) (seq 0 (length h))) =
          Ok (csv_doc (map (fun p => jfield (fst p) (snd p)) (combine titles' (map (fun p => type_opt (snd p)) fs))))).
        { rewrite <- (schema_of_fields F parse_float float32_ok depth var_name deep_enough fs titles').
          - f_equal. subst fs. rewrite map_map. reflexivity.
          - apply Forall_forall. intros p I. apply in_map_iff in I. destruct I as [i [<- _]]. apply column_type_pick.
          - subst fs. rewrite map_map. exact CT. }
        do 4 eexists. split; [rewrite CC; cbv zeta; match goal with |- context [schema_of F parse_float depth ?x] => change (schema_of F parse_float depth x) with (schema_of F parse_float depth (map (fun i => field_doc F (title i) (tp i)) (seq 0 (length h)))) end; rewrite SF; reflexivity|]. split; [exact A2|]. split; [reflexivity|]. split; [assumption|]. split; [assumption|].
        assert (Lt : length titles' = length h).
        { rewrite <- (forall2_len _ _ _ _ _ CT). subst titles. rewrite map_length, seq_length. reflexivity. }
        apply cf_table; [assumption|assumption| |].
        * rewrite map_length, combine_length, map_length. subst fs. rewrite map_length, seq_length. lia.
        * intros i s0 Hi. assert (Li : (i < length h)%nat) by (apply nth_error_Some; congruence).
          exists (column_of i counted), (jfield (nth i titles' []) (type_opt (tp i))). split; [|split].
          -- replace ((if b then [] else [h]) ++ filter (fits (length h)) rows) with counted by (subst counted; destruct b; reflexivity).
             apply column_of_column. assert (X : Forall (fun r => (i < length r)%nat) (filter (fits (length h)) rows)).
             { apply Forall_forall. intros r I. apply filter_In in I. destruct I as [_ I]. unfold fits in I. apply Nat.eqb_eq in I. lia. }
             subst counted. destruct b; [assumption|constructor; assumption].
          -- assert (Cl : cleaned (title i) (nth i titles' [])).
             { assert (G : forall (xs ys : list bytes), Forall2 cleaned xs ys -> forall j, (j < length xs)%nat -> cleaned (nth j xs []) (nth j ys [])).
               { induction 1; intros [|j] Hj; cbn [length nth] in *; try lia; [assumption|apply IHForall2; lia]. }
               replace (title i) with (nth i titles []); [apply G; [assumption|subst titles; rewrite map_length, seq_length; assumption]|].
               subst titles. rewrite (nth_indep _ [] (title 0)) by (rewrite map_length, seq_length; assumption). rewrite map_nth, seq_nth by assumption. reflexivity. }
             replace (titled var_name b i s0) with (title i); [|subst title; cbn beta; unfold titled; rewrite (nth_error_nth h i [] Hi); reflexivity].
             apply fs_intro; [assumption|apply column_type_pick].
          -- rewrite nth_error_map. assert (G : nth_error (combine titles' (map (fun p => type_opt (snd p)) fs)) i = Some (nth i titles' [], type_opt (tp i))).
             { rewrite nth_error_nth' with (d := ([], type_opt (tp 0))).
               - f_equal. rewrite combine_nth by (subst fs; rewrite !map_length, seq_length; assumption). f_equal.
                 subst fs. rewrite map_map. cbn [snd]. change (type_opt (tp 0)) with ((fun i => type_opt (tp i)) 0%nat). rewrite map_nth, seq_nth by assumption. reflexivity.
               - rewrite combine_length, map_length. subst fs. rewrite map_length, seq_length. lia. }
             rewrite G. reflexivity.
    - do 4 eexists. split; [reflexivity|]. split; [exact A1|]. split; [reflexivity|]. split; [assumption|]. split; [assumption|]. apply cf_none.
    - do 4 eexists. split; [reflexivity|]. split; [exact A1|]. split; [reflexivity|]. split; [assumption|]. split; [assumption|]. apply cf_fails.
  Qed.
End CsvSchema.
