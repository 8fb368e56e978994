(** C62: diffs of datasets. *)
From Coq Require Import ZArith Lia.
From Verif Require Import Base M_Decimal M_Components M_Diff S_Diff.
From Verif Require M_Doc.
Notation length := List.length.

Section Diff.
  Variable D : Type.
  Variable modified : D -> bool.
  Variable deltas : D -> list bytes.
  Variable compare : bytes -> bytes -> res D.
  Variable ascii_format : bool -> bytes -> D -> res bytes.
  Variable delta_format : D -> res bytes.
  Notation sub_diff := (sub_diff D).
  Notation summarize := (summarize D modified deltas ascii_format delta_format).
  Notation map_diffs_to_string := (map_diffs_to_string D modified deltas ascii_format delta_format).
  Notation first_summary := (first_summary D modified deltas ascii_format delta_format).

  (** What a component says in a map of diffs: nothing if it is not there. *)
  Definition says (m : list (bytes * option sub_diff)) (how k text : bytes) : Prop :=
    (map_get k m = None \/ map_get k m = Some None) /\ text = [] \/
    exists sd, map_get k m = Some (Some sd) /\ summarize (Some sd) how = Ok text.
  Lemma says_fun : forall m how k x y, says m how k x -> says m how k y -> x = y.
  Proof.
    intros m how k x y [[H1 ->]|[sd [H1 H2]]] [[H3 ->]|[sd' [H3 H4]]]; [reflexivity|destruct H1; congruence|destruct H3; congruence|]. congruence.
  Qed.
  Lemma first_step : forall k r m how text, first_summary (k :: r) m how = Ok text <->
    text <> [] /\ says m how k text \/ says m how k [] /\ first_summary r m how = Ok text.
  Proof.
    intros k r m how text. cbn [M_Diff.first_summary].
    assert (S0 : says m how k [] -> forall sd, map_get k m = Some (Some sd) -> summarize (Some sd) how = Ok []).
    { intros [[[H|H] _]|[sd [H1 H2]]] sd' E; [congruence|congruence|]. rewrite H1 in E. injection E as <-. exact H2. }
    destruct (map_get k m) as [[sd|]|] eqn:E.
    - destruct (summarize (Some sd) how) as [[|c t]|e| |] eqn:Es.
      + split; [intros H; right; split; [right; exists sd; auto|exact H]|]. intros [[H1 [[[H|H] _]|[sd' [H2 H3]]]]|[_ H]]; [congruence|congruence| |exact H].
        rewrite E in H2. injection H2 as <-. congruence.
      + split; [intros [= <-]; left; split; [discriminate|right; exists sd; auto]|].
        intros [[H1 [[[H|H] _]|[sd' [H2 H3]]]]|[H _]]; [congruence|congruence| |].
        * rewrite E in H2. injection H2 as <-. congruence.
        * specialize (S0 H sd eq_refl). congruence.
      + split; [discriminate|]. intros [[H1 [[[H|H] _]|[sd' [H2 H3]]]]|[H _]]; [congruence|congruence| |].
        * rewrite E in H2. injection H2 as <-. congruence.
        * specialize (S0 H sd eq_refl). congruence.
      + split; [discriminate|]. intros [[H1 [[[H|H] _]|[sd' [H2 H3]]]]|[H _]]; [congruence|congruence| |].
        * rewrite E in H2. injection H2 as <-. congruence.
        * specialize (S0 H sd eq_refl). congruence.
      + split; [discriminate|]. intros [[H1 [[[H|H] _]|[sd' [H2 H3]]]]|[H _]]; [congruence|congruence| |].
        * rewrite E in H2. injection H2 as <-. congruence.
        * specialize (S0 H sd eq_refl). congruence.
    - split; [intros H; right; split; [left; auto|exact H]|]. intros [[H1 [[_ ->]|[sd' [H2 H3]]]]|[_ H]]; [congruence|congruence|exact H].
    - split; [intros H; right; split; [left; auto|exact H]|]. intros [[H1 [[_ ->]|[sd' [H2 H3]]]]|[_ H]]; [congruence|congruence|exact H].
  Qed.
  Lemma first_all : forall keys m how text, first_summary keys m how = Ok text <->
    (exists before k after, keys = before ++ k :: after /\ text <> [] /\ says m how k text /\ forall j, In j before -> says m how j []) \/
    (text = [] /\ forall j, In j keys -> says m how j []).
  Proof.
    induction keys as [|k r IH]; intros m how text.
    - cbn [M_Diff.first_summary]. split; [intros [= <-]; right; split; [reflexivity|intros j []]|]. intros [[[|? ?] [k [a [H _]]]]|[-> _]]; [discriminate|discriminate|reflexivity].
    - rewrite first_step, IH. split.
      + intros [[H1 H2]|[H1 [[b [k' [a [-> [H3 [H4 H5]]]]]]|[-> H3]]]].
        * left. exists [], k, r. split; [reflexivity|]. split; [exact H1|]. split; [exact H2|]. intros j [].
        * left. exists (k :: b), k', a. split; [reflexivity|]. split; [exact H3|]. split; [exact H4|]. intros j [<-|Hj]; auto.
        * right. split; [reflexivity|]. intros j [<-|Hj]; auto.
      + intros [[b [k' [a [E [H3 [H4 H5]]]]]]|[-> H]].
        * destruct b as [|k0 b]; cbn [app] in E; injection E as -> ->; [left; auto|]. right. split; [apply H5; left; reflexivity|]. left. exists b, k', a.
          split; [reflexivity|]. split; [exact H3|]. split; [exact H4|]. intros j Hj. apply H5. right. exact Hj.
        * right. split; [apply H; left; reflexivity|]. right. split; [reflexivity|]. intros j Hj. apply H. right. exact Hj.
  Qed.
  (** The text of a map of diffs is that of the first component, in the fixed order, that has one. *)
  Theorem diffs_text : forall m how text, map_diffs_to_string m how = Ok text <-> speaks_first (says m how) text.
  Proof. intros m how text. exact (first_all priority m how text). Qed.

  (** What one diff says. *)
  Definition modes : list bytes := [bs "simple"; bs "listKeys"; bs "plusMinusColor"; bs "plusMinus"; bs "delta"].
  Lemma known_iff : forall how, existsb (beqb how) modes = true <-> In how modes.
  Proof.
    intros how. rewrite existsb_exists. split; [intros [x [H1 H2]]; apply beqb_eq in H2; subst; exact H1|]. intros H. exists how. split; [exact H|apply beqb_refl].
  Qed.
  Theorem diff_says : forall x kind name a b, capital kind name ->
    let sd := mkSub D (Some x) kind a b in
    (modified x = false -> forall how, summarize (Some sd) how = Ok []) /\
    (forall how, ~ In how modes -> summarize (Some sd) how = Ok []) /\
    (modified x = true ->
       summarize (Some sd) (bs "simple") = Ok (name ++ bs " Changed. (" ++ changes (length (deltas x)) ++ bs ")") /\
       summarize (Some sd) (bs "listKeys") =
         Ok (name ++ bs ": " ++ changes (length (deltas x)) ++ concat (map (fun d => [10; 9]%N ++ bs "- modified " ++ d) (deltas x))) /\
       (forall t, delta_format x = Ok t -> summarize (Some sd) (bs "delta") = Ok t) /\
       (forall t, ascii_format false a x = Ok t -> summarize (Some sd) (bs "plusMinus") = Ok t) /\
       (forall t, ascii_format true a x = Ok t -> summarize (Some sd) (bs "plusMinusColor") = Ok t)).
  Proof.
    intros x kind name a b Hc sd.
    assert (TI : title kind = name) by (cbn in Hc; destruct Hc as [H|[H|[H|[H|[H|[]]]]]]; inversion H; reflexivity).
    assert (PL : forall n, dec (N.of_nat n) ++ bs " change" ++ (if Nat.ltb 1 n then bs "s" else []) = changes n).
    { intros n. unfold changes. f_equal. destruct (Nat.leb_spec n 1), (Nat.ltb_spec 1 n); try lia; reflexivity. }
    assert (FO : forall ds acc, fold_left (fun acc del => acc ++ [10; 9]%N ++ bs "- modified " ++ del) ds acc = acc ++ concat (map (fun d => [10; 9]%N ++ bs "- modified " ++ d) ds)).
    { induction ds as [|d ds IH]; intros acc; cbn [fold_left map concat]; [rewrite app_nil_r; reflexivity|]. rewrite IH, <- app_assoc. reflexivity. }
    unfold M_Diff.summarize. cbn [sd_diff sd sd_kind sd_a]. fold modes. rewrite TI. split; [|split].
    - intros -> how. rewrite andb_false_r. reflexivity.
    - intros how H. destruct (existsb (beqb how) modes) eqn:E; [apply known_iff in E; contradiction|]. reflexivity.
    - intros ->. split; [|split; [|split; [|split]]].
      + change (negb (existsb (beqb (bs "simple")) modes && true)) with false. change (beqb (bs "simple") (bs "simple")) with true. cbv iota.
        rewrite <- PL, <- !app_assoc. reflexivity.
      + change (negb (existsb (beqb (bs "listKeys")) modes && true)) with false. change (beqb (bs "listKeys") (bs "simple")) with false. change (beqb (bs "listKeys") (bs "listKeys")) with true. cbv iota zeta.
        rewrite FO, <- PL, <- !app_assoc. reflexivity.
      + intros t H. cbn - [app]. rewrite H. reflexivity.
      + intros t H. cbn - [app]. rewrite H. reflexivity.
      + intros t H. cbn - [app]. rewrite H. reflexivity.
  Qed.

  Variable enc_structure : structure -> res bytes.
  Variable enc_transform : transform -> res bytes.
  Variable enc_meta : meta -> res bytes.
  Variable enc_viz : script_component -> res bytes.
  Notation diff_datasets := (diff_datasets D compare enc_structure enc_transform enc_meta enc_viz).
  (** The diff of two encodings is in the map under the name of the component. *)
  Definition compared (kind : bytes) (a b : res bytes) (entry : option (option sub_diff)) : Prop :=
    exists x y d, a = Ok x /\ b = Ok y /\ compare x y = Ok d /\ entry = Some (Some (mkSub D (Some d) kind x y)).
  Definition both_nil {A : Type} (x y : option A) : Prop := x = None /\ y = None.

  Lemma and_then_ok : forall A B (x : res A) (f : A -> res B) y, and_then x f = Ok y -> exists a, x = Ok a /\ f a = Ok y.
  Proof. intros A B [a|e| |] f y H; try discriminate. eauto. Qed.
  Lemma some_or : forall A (x y : option A), some x || some y = false <-> both_nil x y.
  Proof. intros A [x|] [y|]; unfold both_nil; cbn; intuition congruence. Qed.
  Lemma or_new_filled : forall A (new : A) x, filled new x (or_new new x).
  Proof. intros A new [x|]; unfold filled; cbn; auto. Qed.
  (** One part. *)
  Lemma add_part_ok : forall present always d m m' kind, add_part D present always d m = Ok m' -> (forall sd, d = Ok sd -> sd_kind D sd = kind) ->
    (forall k, k <> kind -> map_get k m' = map_get k m) /\
    (present = false -> map_get kind m' = map_get kind m) /\
    (present = true -> exists sd, d = Ok sd /\ (sd_diff D sd <> None -> map_get kind m' = Some (Some sd)) /\ (sd_diff D sd = None -> always = false -> map_get kind m' = map_get kind m)).
  Proof.
    intros present always d m m' kind H Hk. unfold add_part in H. destruct present; [|injection H as <-; repeat split; auto; discriminate].
    destruct d as [sd|e| |]; try discriminate. specialize (Hk sd eq_refl).
    destruct (sd_diff D sd) as [x|] eqn:E.
    - injection H as <-. rewrite Hk. split; [intros k Hn; apply map_get_set_neq; exact Hn|]. split; [discriminate|]. intros _. exists sd. split; [reflexivity|]. split; [intros _; apply map_get_set_eq|congruence].
    - destruct always; injection H as <-.
      + rewrite Hk. split; [intros k Hn; apply map_get_set_neq; exact Hn|]. split; [discriminate|]. intros _. exists sd. split; [reflexivity|]. rewrite E. split; [congruence|discriminate].
      + split; [auto|]. split; [discriminate|]. intros _. exists sd. split; [reflexivity|]. rewrite E. split; [congruence|auto].
  Qed.
  Lemma encoded_ok : forall a b kind sd, diff_encoded D compare a b kind = Ok sd -> sd_kind D sd = kind /\ exists x y d, a = Ok x /\ b = Ok y /\ compare x y = Ok d /\ sd = mkSub D (Some d) kind x y.
  Proof.
    intros a b kind sd H. unfold diff_encoded, diff_json in H. destruct a as [x|e| |]; try discriminate. destruct b as [y|e| |]; try discriminate.
    destruct (compare x y) as [d|e| |] eqn:E; try discriminate. injection H as <-. split; [reflexivity|]. exists x, y, d. auto.
  Qed.
  Lemma same_long_iff : forall p q, same_long p q = true <-> same_place p q.
  Proof.
    intros p q. unfold same_long, same_place. rewrite !andb_true_iff, !Nat.ltb_lt, beqb_eq. split; [intros [[H1 H2] ->]; split; [lia|reflexivity]|].
    intros [H ->]. split; [split; lia|reflexivity].
  Qed.
  Lemma bempty_iff : forall b : bytes, bempty b = true <-> b = [].
  Proof. intros [|c b]; cbn; split; congruence. Qed.

  (** The map has an entry for exactly the components that were compared: a structure if either side has one;
      the data only if it is handed over; a meta unless both are stored at the same place, or both are empty;
      a transform and a viz unless both are stored at the same place. *)
  Theorem diff_exact : forall a b data m, diff_datasets a b data = Ok m ->
    (forall k, ~ In k priority -> map_get k m = None) /\
    (both_nil (ds_structure a) (ds_structure b) /\ map_get (bs "structure") m = None \/
     ~ both_nil (ds_structure a) (ds_structure b) /\ exists x y, filled (structure_ref []) (ds_structure a) x /\ filled (structure_ref []) (ds_structure b) y /\
       compared (bs "structure") (enc_structure x) (enc_structure y) (map_get (bs "structure") m)) /\
    match data with
    | None => map_get (bs "data") m = None
    | Some (x, y) => compared (bs "data") (Ok x) (Ok y) (map_get (bs "data") m)
    end /\
    (both_nil (ds_meta a) (ds_meta b) /\ map_get (bs "meta") m = None \/
     ~ both_nil (ds_meta a) (ds_meta b) /\ exists x y, filled (meta_ref []) (ds_meta a) x /\ filled (meta_ref []) (ds_meta b) y /\
       let quiet := same_place (md_path x) (md_path y) \/
         (((length (md_path x) < 2)%nat \/ (length (md_path y) < 2)%nat) /\ meta_is_empty x = true /\ meta_is_empty y = true) in
       (quiet /\ map_get (bs "meta") m = None \/ ~ quiet /\ compared (bs "meta") (enc_meta x) (enc_meta y) (map_get (bs "meta") m))) /\
    (both_nil (ds_transform a) (ds_transform b) /\ map_get (bs "transform") m = None \/
     ~ both_nil (ds_transform a) (ds_transform b) /\ exists x y y', filled (transform_ref []) (ds_transform a) x /\ filled (transform_ref []) (ds_transform b) y /\ right_transform x y y' /\
       (same_place (tf_path x) (tf_path y) /\ map_get (bs "transform") m = None \/
        ~ same_place (tf_path x) (tf_path y) /\ compared (bs "transform") (enc_transform x) (enc_transform y') (map_get (bs "transform") m))) /\
    (both_nil (ds_viz a) (ds_viz b) /\ map_get (bs "viz") m = None \/
     ~ both_nil (ds_viz a) (ds_viz b) /\ exists x y, filled (sc_ref []) (ds_viz a) x /\ filled (sc_ref []) (ds_viz b) y /\
       (same_place (sc_path x) (sc_path y) /\ map_get (bs "viz") m = None \/
        ~ same_place (sc_path x) (sc_path y) /\ compared (bs "viz") (enc_viz x) (enc_viz y) (map_get (bs "viz") m))).
  Proof.
    intros a b data m H. unfold M_Diff.diff_datasets in H.
    apply and_then_ok in H. destruct H as [m1 [E1 H]]. apply and_then_ok in H. destruct H as [m2 [E2 H]]. apply and_then_ok in H. destruct H as [m3 [E3 H]]. apply and_then_ok in H. destruct H as [m4 [E4 E5]].
    (* kinds *)
    assert (K1 : forall sd, diff_structure D compare enc_structure (ds_structure a) (ds_structure b) = Ok sd -> sd_kind D sd = bs "structure") by (intros sd X; apply encoded_ok in X; tauto).
    assert (K3 : forall sd, diff_meta D compare enc_meta (ds_meta a) (ds_meta b) = Ok sd -> sd_kind D sd = bs "meta").
    { intros sd X. unfold diff_meta in X. match type of X with (if ?c then _ else _) = _ => destruct c end; [injection X as <-; reflexivity|apply encoded_ok in X; tauto]. }
    assert (K4 : forall sd, diff_transform D compare enc_transform (ds_transform a) (ds_transform b) = Ok sd -> sd_kind D sd = bs "transform").
    { intros sd X. unfold diff_transform in X. match type of X with (if same_long ?p ?q then _ else _) = _ => destruct (same_long p q) end; [injection X as <-; reflexivity|apply encoded_ok in X; tauto]. }
    assert (K5 : forall sd, diff_viz D compare enc_viz (ds_viz a) (ds_viz b) = Ok sd -> sd_kind D sd = bs "viz").
    { intros sd X. unfold diff_viz in X. match type of X with (if ?c then _ else _) = _ => destruct c end; [injection X as <-; reflexivity|apply encoded_ok in X; tauto]. }
    destruct (add_part_ok _ _ _ _ _ _ E1 K1) as [A1 [B1 C1]].
    destruct (add_part_ok _ _ _ _ _ _ E3 K3) as [A3 [B3 C3]].
    destruct (add_part_ok _ _ _ _ _ _ E4 K4) as [A4 [B4 C4]].
    destruct (add_part_ok _ _ _ _ _ _ E5 K5) as [A5 [B5 C5]].
    assert (P2 : (forall k, k <> bs "data" -> map_get k m2 = map_get k m1) /\ match data with
      | None => map_get (bs "data") m2 = map_get (bs "data") m1
      | Some (x, y) => compared (bs "data") (Ok x) (Ok y) (map_get (bs "data") m2) end).
    { destruct data as [[x y]|].
      - assert (K2 : forall sd, diff_json D compare x y (bs "data") = Ok sd -> sd_kind D sd = bs "data") by (intros sd X; apply (encoded_ok (Ok x) (Ok y)) in X; tauto).
        destruct (add_part_ok _ _ _ _ _ _ E2 K2) as [A2 [_ C2]]. split; [exact A2|]. destruct (C2 eq_refl) as [sd [X [Y _]]].
        apply (encoded_ok (Ok x) (Ok y)) in X. destruct X as [_ [x' [y' [d [Z1 [Z2 [Z3 ->]]]]]]]. exists x', y', d. split; [exact Z1|]. split; [exact Z2|]. split; [exact Z3|]. apply Y. cbn. discriminate.
      - cbn in E2. injection E2 as <-. auto. }
    destruct P2 as [A2 D2].
    split; [|split; [|split; [|split; [|split]]]].
    - intros k Hk. assert (N : forall j, In j priority -> k <> j) by (intros j Hj ->; contradiction).
      rewrite A5, A4, A3, A2, A1; [reflexivity| | | | |]; apply N; cbn; tauto.
    - rewrite A5, A4, A3, A2 by discriminate. destruct (some (ds_structure a) || some (ds_structure b)) eqn:ES.
      + right. split; [intros X; apply some_or in X; congruence|]. do 2 eexists. split; [apply or_new_filled|]. split; [apply or_new_filled|].
        destruct (C1 eq_refl) as [sd [X [Y _]]]. apply encoded_ok in X. destruct X as [_ [x [y [d [Z1 [Z2 [Z3 ->]]]]]]]. exists x, y, d. split; [exact Z1|]. split; [exact Z2|]. split; [exact Z3|]. apply Y. cbn. discriminate.
      + left. split; [apply some_or; exact ES|]. rewrite (B1 eq_refl). reflexivity.
    - rewrite A5, A4, A3 by discriminate. destruct data as [[x y]|]; [exact D2|]. rewrite D2, A1 by discriminate. reflexivity.
    - rewrite A5, A4 by discriminate. assert (M0 : map_get (bs "meta") m2 = None) by (rewrite A2, A1 by discriminate; reflexivity). destruct (some (ds_meta a) || some (ds_meta b)) eqn:ES.
      + right. split; [intros X; apply some_or in X; congruence|]. do 2 eexists. split; [apply or_new_filled|]. split; [apply or_new_filled|].
        destruct (C3 eq_refl) as [sd [X [Y1 Y2]]]. unfold diff_meta in X. set (x := or_new (meta_ref []) (ds_meta a)) in *. set (y := or_new (meta_ref []) (ds_meta b)) in *.
        assert (Q : (if Nat.ltb 1 (length (md_path x)) && Nat.ltb 1 (length (md_path y)) then beqb (md_path x) (md_path y) else meta_is_empty x && meta_is_empty y) = true <->
          (same_place (md_path x) (md_path y) \/ (((length (md_path x) < 2)%nat \/ (length (md_path y) < 2)%nat) /\ meta_is_empty x = true /\ meta_is_empty y = true))).
        { unfold same_place. destruct (Nat.ltb_spec 1 (length (md_path x))) as [L1|L1], (Nat.ltb_spec 1 (length (md_path y))) as [L2|L2]; cbn [andb].
          - rewrite beqb_eq. split; [intros E; left; split; [lia|exact E]|]. intros [[_ E]|[[L|L] _]]; [exact E|lia|lia].
          - rewrite andb_true_iff. split; [intros E; right; split; [lia|exact E]|]. intros [[L E]|[_ E]]; [rewrite E in L; lia|exact E].
          - rewrite andb_true_iff. split; [intros E; right; split; [lia|exact E]|]. intros [[L E]|[_ E]]; [lia|exact E].
          - rewrite andb_true_iff. split; [intros E; right; split; [lia|exact E]|]. intros [[L E]|[_ E]]; [lia|exact E]. }
        match type of X with (if ?c then _ else _) = _ => destruct c end.
        * left. split; [apply Q; reflexivity|]. injection X as <-. rewrite (Y2 eq_refl eq_refl). exact M0.
        * right. split; [intros Z; apply Q in Z; discriminate|]. apply encoded_ok in X. destruct X as [_ [x' [y' [d [Z1 [Z2 [Z3 ->]]]]]]]. exists x', y', d. split; [exact Z1|]. split; [exact Z2|]. split; [exact Z3|]. apply Y1. cbn. discriminate.
      + left. split; [apply some_or; exact ES|]. rewrite (B3 eq_refl). exact M0.
    - rewrite A5 by discriminate. assert (M0 : map_get (bs "transform") m3 = None) by (rewrite A3, A2, A1 by discriminate; reflexivity). destruct (some (ds_transform a) || some (ds_transform b)) eqn:ES.
      + right. split; [intros X; apply some_or in X; congruence|]. destruct (C4 eq_refl) as [sd [X [Y1 Y2]]]. unfold diff_transform in X.
        set (x := or_new (transform_ref []) (ds_transform a)) in *. set (y := or_new (transform_ref []) (ds_transform b)) in *.
        set (y' := if negb (bempty (tf_script_path x)) && negb (bempty (tf_script_path y)) then set_script_path (tf_script_path x) y else y) in *.
        exists x, y, y'. split; [apply or_new_filled|]. split; [apply or_new_filled|].
        assert (RT : right_transform x y y').
        { unfold y', right_transform. destruct (bempty (tf_script_path x)) eqn:X1; cbn [negb andb].
          - apply bempty_iff in X1. split; [reflexivity|]. left. auto.
          - destruct (bempty (tf_script_path y)) eqn:X2; cbn [negb].
            + apply bempty_iff in X2. split; [reflexivity|]. left. auto.
            + split; [reflexivity|]. right. split; [intros Z; apply bempty_iff in Z; congruence|]. split; [intros Z; apply bempty_iff in Z; congruence|]. reflexivity. }
        assert (PA : tf_path y' = tf_path y) by (unfold y'; destruct (negb (bempty (tf_script_path x)) && negb (bempty (tf_script_path y))); reflexivity).
        split; [exact RT|]. rewrite PA in X. destruct (same_long (tf_path x) (tf_path y)) eqn:SL.
        * left. split; [apply same_long_iff; exact SL|]. injection X as <-. rewrite (Y2 eq_refl eq_refl). exact M0.
        * right. split; [intros Z; apply same_long_iff in Z; congruence|]. apply encoded_ok in X. destruct X as [_ [x' [y2 [d [Z1 [Z2 [Z3 ->]]]]]]]. exists x', y2, d. split; [exact Z1|]. split; [exact Z2|]. split; [exact Z3|]. apply Y1. cbn. discriminate.
      + left. split; [apply some_or; exact ES|]. rewrite (B4 eq_refl). exact M0.
    - assert (M0 : map_get (bs "viz") m4 = None) by (rewrite A4, A3, A2, A1 by discriminate; reflexivity). destruct (some (ds_viz a) || some (ds_viz b)) eqn:ES.
      + right. split; [intros X; apply some_or in X; congruence|]. do 2 eexists. split; [apply or_new_filled|]. split; [apply or_new_filled|].
        destruct (C5 eq_refl) as [sd [X [Y1 Y2]]]. unfold diff_viz in X. destruct (same_long _ _) eqn:SL.
        * left. split; [apply same_long_iff; exact SL|]. injection X as <-. rewrite (Y2 eq_refl eq_refl). exact M0.
        * right. split; [intros Z; apply same_long_iff in Z; congruence|]. apply encoded_ok in X. destruct X as [_ [x' [y' [d [Z1 [Z2 [Z3 ->]]]]]]]. exists x', y', d. split; [exact Z1|]. split; [exact Z2|]. split; [exact Z3|]. apply Y1. cbn. discriminate.
      + left. split; [apply some_or; exact ES|]. rewrite (B5 eq_refl). exact M0.
  Qed.

  (** Diffing fails only if encoding or comparing fails. *)
  Definition all_ok {A B : Type} (f : A -> res B) : Prop := forall x, exists y, f x = Ok y.
  Theorem diff_succeeds : forall a b data, all_ok enc_structure -> all_ok enc_transform -> all_ok enc_meta -> all_ok enc_viz -> (forall x y, exists d, compare x y = Ok d) ->
    exists m, diff_datasets a b data = Ok m.
  Proof.
    intros a b data H1 H2 H3 H4 H5.
    assert (EN : forall x y kind, (exists u, x = Ok u) -> (exists u, y = Ok u) -> exists sd, diff_encoded D compare x y kind = Ok sd).
    { intros x y kind [u ->] [v ->]. unfold diff_encoded, diff_json. destruct (H5 u v) as [d ->]. eauto. }
    assert (AP : forall present always d m, (exists sd, d = Ok sd) -> exists m', add_part D present always d m = Ok m').
    { intros present always d m [sd ->]. unfold add_part. destruct present; [|eauto]. destruct (sd_diff D sd), always; eauto. }
    unfold M_Diff.diff_datasets. destruct (AP (some (ds_structure a) || some (ds_structure b)) false (diff_structure D compare enc_structure (ds_structure a) (ds_structure b)) []) as [m1 ->].
    { apply EN; apply H1. }
    cbn [and_then].
    assert (X : exists m2, match data with Some (x, y) => add_part D true true (diff_json D compare x y (bs "data")) m1 | None => add_part D true false (diff_data D a b) m1 end = Ok m2).
    { destruct data as [[x y]|]; apply AP; [|eexists; reflexivity]. apply (EN (Ok x) (Ok y)); eauto. }
    destruct X as [m2 ->]. cbn [and_then].
    destruct (AP (some (ds_meta a) || some (ds_meta b)) false (diff_meta D compare enc_meta (ds_meta a) (ds_meta b)) m2) as [m3 ->].
    { unfold diff_meta. match goal with |- context [if ?c then Ok _ else _] => destruct c end; [eauto|apply EN; apply H3]. }
    cbn [and_then]. destruct (AP (some (ds_transform a) || some (ds_transform b)) false (diff_transform D compare enc_transform (ds_transform a) (ds_transform b)) m3) as [m4 ->].
    { unfold diff_transform. match goal with |- context [if ?c then Ok _ else _] => destruct c end; [eauto|apply EN; apply H2]. }
    cbn [and_then]. apply AP. unfold diff_viz. destruct (same_long _ _); [eauto|apply EN; apply H4].
  Qed.

  (** A dataset does not differ from itself, if a text does not differ from itself. *)
  Hypothesis unchanged : forall x d, compare x x = Ok d -> modified d = false.
  Theorem diff_same : forall a data m, diff_datasets a a data = Ok m -> (forall x y, data = Some (x, y) -> x = y) ->
    forall how, map_diffs_to_string m how = Ok [].
  Proof.
    intros a data m H Hdata how. destruct (diff_exact _ _ _ _ H) as [_ [H1 [H2 [H3 [H4 H5]]]]]. apply diffs_text. right. split; [reflexivity|].
    assert (Q : forall k x y e, compared k x y e -> x = y -> (forall sd, e = Some (Some sd) -> summarize (Some sd) how = Ok []) /\ exists sd, e = Some (Some sd)).
    { intros k x y e [u [v [d [-> [-> [E ->]]]]]] X. injection X as ->. split; [|eauto]. intros sd [= <-]. unfold M_Diff.summarize. cbn [sd_diff]. rewrite (unchanged _ _ E), andb_false_r. reflexivity. }
    assert (S0 : forall k x y, compared k x y (map_get k m) -> x = y -> says m how k []).
    { intros k x y C E. destruct (Q _ _ _ _ C E) as [Q1 [sd Q2]]. right. exists sd. auto. }
    assert (F : forall A (new : A) o x y, filled new o x -> filled new o y -> x = y) by (intros A new o x y [X|[X ->]] [Y|[Y ->]]; congruence).
    assert (N0 : forall k, map_get k m = None -> says m how k []) by (intros k E; left; auto).
    intros j Hj. cbn in Hj. destruct Hj as [<-|[<-|[<-|[<-|[<-|[]]]]]].
    - destruct H1 as [[_ E]|[_ [x [y [X [Y C]]]]]]; [auto|]. eapply S0; [exact C|]. rewrite (F _ _ _ _ _ X Y). reflexivity.
    - destruct data as [[x y]|]; [|auto]. eapply S0; [exact H2|]. rewrite (Hdata x y eq_refl). reflexivity.
    - destruct H4 as [[_ E]|[_ [x [y [y' [X [Y [R [[_ E]|[_ C]]]]]]]]]]; [auto|auto|]. eapply S0; [exact C|]. f_equal. rewrite (F _ _ _ _ _ X Y) in *. clear -R.
      destruct R as [R1 R2]. assert (tf_script_path y' = tf_script_path y) as R3 by tauto. clear R2. destruct y, y'. unfold transform_rest in R1. cbn in *. congruence.
    - destruct H3 as [[_ E]|[_ [x [y [X [Y [[_ E]|[_ C]]]]]]]]; [auto|auto|]. eapply S0; [exact C|]. rewrite (F _ _ _ _ _ X Y). reflexivity.
    - destruct H5 as [[_ E]|[_ [x [y [X [Y [[_ E]|[_ C]]]]]]]]; [auto|auto|]. eapply S0; [exact C|]. rewrite (F _ _ _ _ _ X Y). reflexivity.
  Qed.
End Diff.
Print Assumptions diffs_text.
Print Assumptions diff_says.
Print Assumptions diff_exact.
Print Assumptions diff_succeeds.
Print Assumptions diff_same.

(** Changes that a diff of datasets does not show, whatever the comparison of texts: another body; metas that
    differ only in fields of the user; metas, transforms and visualisations stored at the same path. *)
Definition body_at (p : bytes) : dataset := mkDataset None M_Doc.JNull None p None [] None [] [] [] [] [] None 0 [] None None None None.
Definition with_meta (m : meta) : dataset := mkDataset None M_Doc.JNull None [] None [] (Some m) [] [] [] [] [] None 0 [] None None None None.
Definition own_meta (v : M_Doc.jdoc) : meta := mkMeta (Some [(bs "mine", v)]) [] [] None None [] [] [] [] None None None [] [] [] [] None [].
Theorem diff_sees_body_refuted : forall D compare es et em ev, exists a b, ds_body_path a <> ds_body_path b /\ diff_datasets D compare es et em ev a b None = Ok [].
Proof. intros. exists (body_at (bs "/mem/one")), (body_at (bs "/mem/two")). split; [discriminate|reflexivity]. Qed.
Theorem diff_sees_meta_refuted : forall D compare es et em ev, exists a b, ds_meta a <> ds_meta b /\ diff_datasets D compare es et em ev a b None = Ok [].
Proof. intros. exists (with_meta (own_meta (M_Doc.JStr (bs "x")))), (with_meta (own_meta (M_Doc.JStr (bs "y")))). split; [discriminate|reflexivity]. Qed.
Print Assumptions diff_sees_body_refuted.
Print Assumptions diff_sees_meta_refuted.
(** The diff of data that DiffData returns cannot be summarised. *)
Theorem data_diff_summary_panics : forall D modified deltas ascii delta a b how, exists sd, diff_data D a b = Ok sd /\ summarize D modified deltas ascii delta (Some sd) how = Panic.
Proof. intros. eexists. split; reflexivity. Qed.
Print Assumptions data_diff_summary_panics.

(** Example: a comparison that says whether two texts are equal. *)
Definition eq_compare (x y : bytes) : res bool := Ok (negb (beqb x y)).
Definition ex_diff := diff_datasets bool eq_compare (fun s => Ok (st_format s)) (fun t => Ok (tf_text t)) (fun m => Ok (md_title m)) (fun v => Ok (sc_format v)).
Definition ex_ds (format title : string) : dataset :=
  mkDataset None M_Doc.JNull None [] None [] (Some (mkMeta None [] [] None None [] [] [] [] None None None [] [] [] (bs title) None [])) [] [] [] [] [] None 0 []
    (Some (mkStructure [] [] 0 [] 0 0 (bs format) None 0 [] [] None false)) None None None.
Definition ex_text (m : res (list (bytes * option (sub_diff bool)))) (how : string) :=
  match m with Ok m => map_diffs_to_string bool (fun d => d) (fun d => if d then [bs "format"; bs "x"] else []) (fun _ _ _ => Ok []) (fun _ => Ok []) m (bs how) | _ => Panic end.
Example diff_ex : ex_text (ex_diff (ex_ds "csv" "a") (ex_ds "json" "b") None) "simple" = Ok (bs "Structure Changed. (2 changes)") /\
  ex_text (ex_diff (ex_ds "csv" "a") (ex_ds "csv" "b") None) "simple" = Ok (bs "Meta Changed. (2 changes)") /\
  ex_text (ex_diff (ex_ds "csv" "a") (ex_ds "csv" "b") (Some (bs "1", bs "2"))) "simple" = Ok (bs "Data Changed. (2 changes)") /\
  ex_text (ex_diff (ex_ds "csv" "a") (ex_ds "csv" "a") None) "simple" = Ok [].
Proof. repeat split; vm_compute; reflexivity. Qed.
Example unchanged_ex : forall x d, eq_compare x x = Ok d -> d = false.
Proof. intros x d [= <-]. rewrite beqb_refl. reflexivity. Qed.
