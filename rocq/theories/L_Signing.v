(** Lemmas on signing bytes. *)
From Verif Require Import Base M_Strings M_Decimal L_Decimal M_Time L_Time M_Formats M_Doc M_Components M_Signing S_Signing.

Lemma strings_join_lines : forall ls, strings_join [cLF] ls = lines_text ls.
Proof. induction ls as [|l [|l' r] IH]; [reflexivity|reflexivity|]. cbn [strings_join lines_text] in *. now rewrite IH. Qed.

Lemma cut_at_lf : forall a b r s : bytes, ~ In cLF a -> ~ In cLF b -> a ++ [cLF] ++ r = b ++ [cLF] ++ s -> a = b /\ r = s.
Proof.
  induction a as [|x a IH]; intros [|y b] r s A B E; cbn in E.
  - injection E as ->. auto.
  - injection E as <- _. exfalso. apply B. now left.
  - injection E as -> _. exfalso. apply A. now left.
  - injection E as -> E. destruct (IH b r s) as [-> ->]; [intros H; apply A; now right|intros H; apply B; now right|exact E|auto].
Qed.
Lemma no_lf_app : forall a b r : bytes, ~ In cLF a -> a <> b ++ [cLF] ++ r.
Proof. intros a b r A ->. apply A. apply in_or_app. right. now left. Qed.
Lemma lines_text_nil : forall ls, Forall (fun l => l <> []) ls -> lines_text ls = [] -> ls = [].
Proof.
  intros [|l [|l' r]] F H; [reflexivity| |]; inversion F; subst; cbn in H; [contradiction|].
  apply app_eq_nil in H as [_ H]. discriminate H.
Qed.
Lemma lines_text_inj : forall xs ys, Forall (fun l => l <> [] /\ ~ In cLF l) xs -> Forall (fun l => l <> [] /\ ~ In cLF l) ys ->
  lines_text xs = lines_text ys -> xs = ys.
Proof.
  assert (W : forall l, Forall (fun l => l <> [] /\ ~ In cLF l) l -> Forall (fun l => l <> (@nil N)) l)
    by (intros l H; eapply Forall_impl; [|exact H]; now intros a [? ?]).
  induction xs as [|x [|x' xs] IH]; intros ys X Y E.
  - symmetry in E. apply lines_text_nil in E; auto.
  - inversion X as [|? ? [X1 X2] _]; subst. destruct ys as [|y [|y' ys]]; inversion Y as [|? ? [Y1 Y2] Y']; subst; cbn in E; try congruence.
    exfalso. change (x = y ++ [cLF] ++ lines_text (y' :: ys)) in E. now apply no_lf_app in E.
  - inversion X as [|? ? [X1 X2] X']; subst. change (x ++ [cLF] ++ lines_text (x' :: xs) = lines_text ys) in E.
    destruct ys as [|y [|y' ys]]; inversion Y as [|? ? [Y1 Y2] Y']; subst.
    + apply app_eq_nil in E as [_ E]. discriminate E.
    + exfalso. cbn in E. symmetry in E. now apply (no_lf_app y x) in E.
    + change (x ++ [cLF] ++ lines_text (x' :: xs) = y ++ [cLF] ++ lines_text (y' :: ys)) in E.
      apply cut_at_lf in E as [-> E]; auto. f_equal. apply IH; auto.
Qed.

(** The lines a covered record stands for. *)
Definition second_text (o : option Z) : bytes := match o with None => [] | Some s => rfc3339 (s * 1000000000) end.
Definition signed_lines (c : covered) : list bytes :=
  lines_for (bs "id") (cv_id c) ++ lines_for (bs "bd") (cv_body c) ++ lines_for (bs "cm") (second_text (cv_second c)) ++
  lines_for (bs "md") (cv_meta c) ++ lines_for (bs "rm") (cv_readme c) ++ lines_for (bs "st") (cv_structure c) ++
  lines_for (bs "tf") (cv_transform c) ++ lines_for (bs "sa") (cv_stats c) ++ lines_for (bs "vz") (cv_viz c).

Lemma second_text_of : forall t, rfc3339 (t / 1000000000 * 1000000000) = rfc3339 t.
Proof. intros. apply rfc3339_seconds. rewrite Z.div_mul by lia. reflexivity. Qed.

Lemma prefix_ok : forall a b r v, component_type_prefix (a :: b :: r) v = Ok (line [a; b] v).
Proof. intros. reflexivity. Qed.
Lemma sig_add_for : forall tag v l, sig_add (negb (bempty v)) (Ok (line tag v)) (Ok l) = Ok (l ++ lines_for tag v).
Proof. intros tag [|c v] l; cbn; [now rewrite app_nil_r|reflexivity]. Qed.
Lemma has_path_of : forall A (p : A -> bytes) o, has_path p o = negb (bempty (path_of p o)).
Proof. intros A p [a|]; reflexivity. Qed.

Lemma sig_components_lines : forall d, sig_components d = Ok (signed_lines (covered_by d)).
Proof.
  intros d. unfold sig_components. cbv zeta.
  assert (T : match ds_commit d with None => false | Some c => negb (Z.eqb (cm_timestamp c) 0) end = negb (bempty (second_text (covered_second d)))).
  { unfold covered_second. destruct (ds_commit d) as [c|]; [|reflexivity]. destruct (Z.eqb_spec (cm_timestamp c) 0); [reflexivity|].
    cbn [second_text]. destruct (rfc3339_chars (cm_timestamp c / 1000000000 * 1000000000)) as [_ NE]. now destruct (rfc3339 _). }
  rewrite T.
  assert (P : forall acc, sig_add (negb (bempty (second_text (covered_second d))))
    (component_type_prefix kind_commit (rfc3339 match ds_commit d with None => 0%Z | Some c => cm_timestamp c end)) acc =
    sig_add (negb (bempty (second_text (covered_second d)))) (Ok (line (bs "cm") (second_text (covered_second d)))) acc).
  { intros acc. unfold covered_second. destruct (ds_commit d) as [c|]; [|reflexivity]. destruct (Z.eqb_spec (cm_timestamp c) 0); [reflexivity|].
    cbn [second_text]. now rewrite second_text_of. }
  rewrite P. rewrite !has_path_of. unfold path_or.
  unfold kind_body, kind_meta, kind_readme, kind_structure, kind_transform, kind_stats, kind_viz.
  change (bs "id:" ++ ds_id d) with (line (bs "id") (ds_id d)).
  change (component_type_prefix (bs "bd:0") (ds_body_path d)) with (Ok (line (bs "bd") (ds_body_path d))).
  change (match ds_meta d with None => [] | Some c => md_path c end) with (path_of md_path (ds_meta d)).
  change (match ds_readme d with None => [] | Some c => sc_path c end) with (path_of sc_path (ds_readme d)).
  change (match ds_structure d with None => [] | Some c => st_path c end) with (path_of st_path (ds_structure d)).
  change (match ds_transform d with None => [] | Some c => tf_path c end) with (path_of tf_path (ds_transform d)).
  change (match ds_stats d with None => [] | Some c => sa_path c end) with (path_of sa_path (ds_stats d)).
  change (match ds_viz d with None => [] | Some c => sc_path c end) with (path_of sc_path (ds_viz d)).
  change (component_type_prefix (bs "md:0") (path_of md_path (ds_meta d))) with (Ok (line (bs "md") (path_of md_path (ds_meta d)))).
  change (component_type_prefix (bs "rm:0") (path_of sc_path (ds_readme d))) with (Ok (line (bs "rm") (path_of sc_path (ds_readme d)))).
  change (component_type_prefix (bs "st:0") (path_of st_path (ds_structure d))) with (Ok (line (bs "st") (path_of st_path (ds_structure d)))).
  change (component_type_prefix (bs "tf:0") (path_of tf_path (ds_transform d))) with (Ok (line (bs "tf") (path_of tf_path (ds_transform d)))).
  change (component_type_prefix (bs "sa:0") (path_of sa_path (ds_stats d))) with (Ok (line (bs "sa") (path_of sa_path (ds_stats d)))).
  change (component_type_prefix (bs "vz:0") (path_of sc_path (ds_viz d))) with (Ok (line (bs "vz") (path_of sc_path (ds_viz d)))).
  rewrite !sig_add_for. unfold signed_lines, covered_by. cbn [cv_id cv_body cv_second cv_meta cv_readme cv_structure cv_transform cv_stats cv_viz].
  cbn [app]. now rewrite <- !app_assoc.
Qed.

(** Reading a value back from the lines. *)
Fixpoint find_line (tag : bytes) (ls : list bytes) : bytes :=
  match ls with
  | [] => []
  | l :: r => match strip_prefix (tag ++ [58%N]) l with Some v => v | None => find_line tag r end
  end.
Lemma strip_app : forall p s, strip_prefix p (p ++ s) = Some s.
Proof. induction p as [|c p IH]; intros s; cbn; [reflexivity|]. now rewrite N.eqb_refl. Qed.
Lemma find_same : forall tag v r, find_line tag r = [] -> find_line tag (lines_for tag v ++ r) = v.
Proof.
  intros tag [|c v] r H; [exact H|]. unfold lines_for. cbn [app find_line]. unfold line.
  rewrite app_assoc. now rewrite strip_app.
Qed.
Lemma find_other : forall a b c d v r, (a, b) <> (c, d) -> find_line [a; b] (lines_for [c; d] v ++ r) = find_line [a; b] r.
Proof.
  intros a b c d [|x v] r H; [reflexivity|]. unfold lines_for, line. cbn. destruct (N.eqb_spec a c); [|reflexivity].
  destruct (N.eqb_spec b d); [congruence|reflexivity].
Qed.

Lemma signed_lines_find : forall c,
  find_line (bs "id") (signed_lines c) = cv_id c /\ find_line (bs "bd") (signed_lines c) = cv_body c /\
  find_line (bs "cm") (signed_lines c) = second_text (cv_second c) /\ find_line (bs "md") (signed_lines c) = cv_meta c /\
  find_line (bs "rm") (signed_lines c) = cv_readme c /\ find_line (bs "st") (signed_lines c) = cv_structure c /\
  find_line (bs "tf") (signed_lines c) = cv_transform c /\ find_line (bs "sa") (signed_lines c) = cv_stats c /\
  find_line (bs "vz") (signed_lines c) = cv_viz c.
Proof.
  intros c. unfold signed_lines. rewrite <- (app_nil_r (lines_for (bs "vz") (cv_viz c))).
  change (bs "id") with [105; 100]%N. change (bs "bd") with [98; 100]%N. change (bs "cm") with [99; 109]%N. change (bs "md") with [109; 100]%N.
  change (bs "rm") with [114; 109]%N. change (bs "st") with [115; 116]%N. change (bs "tf") with [116; 102]%N. change (bs "sa") with [115; 97]%N.
  change (bs "vz") with [118; 122]%N.
  repeat split; repeat (rewrite find_other by congruence); apply find_same; repeat (rewrite find_other by congruence); reflexivity.
Qed.

Lemma second_text_inj : forall a b, second_text a = second_text b -> a = b.
Proof.
  intros [a|] [b|] H; cbn in H; auto.
  - apply rfc3339_inj in H. rewrite !Z.div_mul in H by lia. congruence.
  - destruct (rfc3339_chars (a * 1000000000)) as [_ K]. contradiction.
  - destruct (rfc3339_chars (b * 1000000000)) as [_ K]. symmetry in H. contradiction.
Qed.
Lemma signed_lines_inj : forall c d, signed_lines c = signed_lines d -> c = d.
Proof.
  intros c d H. destruct (signed_lines_find c) as (A1 & A2 & A3 & A4 & A5 & A6 & A7 & A8 & A9).
  destruct (signed_lines_find d) as (B1 & B2 & B3 & B4 & B5 & B6 & B7 & B8 & B9). rewrite H in *.
  assert (cv_second c = cv_second d) by (apply second_text_inj; congruence).
  destruct c, d. cbn in *. f_equal; congruence.
Qed.
Lemma lines_for_ok : forall a b v, a <> cLF -> b <> cLF -> ~ In cLF v -> Forall (fun l => l <> [] /\ ~ In cLF l) (lines_for [a; b] v).
Proof.
  intros a b [|c v] Ha Hb H; constructor; [|constructor]. split; [easy|]. unfold line. rewrite in_app_iff.
  intros [[K|[K|[]]]|[K|K]]; try congruence; [unfold cLF in K; discriminate|contradiction].
Qed.
Lemma signed_lines_ok : forall c, one_line c -> Forall (fun l => l <> [] /\ ~ In cLF l) (signed_lines c).
Proof.
  intros c H. unfold one_line in H. rewrite !Forall_cons_iff in H. destruct H as (H1 & H2 & H3 & H4 & H5 & H6 & H7 & H8 & _).
  assert (T : ~ In cLF (second_text (cv_second c))) by (destruct (cv_second c); [apply rfc3339_chars|easy]).
  unfold signed_lines. repeat (apply Forall_app; split); apply lines_for_ok; try assumption; unfold cLF; discriminate.
Qed.
