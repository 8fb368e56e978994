(** C75: comparing datasets and components (dstest/compare.go). *)
From Verif Require Import Base M_Doc M_Components M_Heap S_Components S_Heap L_Components L_Heap M_Compare S_Compare.
From Coq Require Import Lia.

(** An assignment to an empty dataset takes over the fields, but for Qri and NumVersions, and changes nothing else. *)
Lemma adopt : forall r s h, h_ds h r = zero_pd -> s <> Some r -> let h' := heap_assign r [s] h in
  (forall x, x <> r -> h_ds h' x = h_ds h x) /\ (forall x, h_commit h' x = h_commit h x) /\ (forall x, h_meta h' x = h_meta h x) /\
  (forall x, h_readme h' x = h_readme h x) /\ (forall x, h_structure h' x = h_structure h x) /\ (forall x, h_stats h' x = h_stats h x) /\
  (forall x, h_transform h' x = h_transform h x) /\ (forall x, h_viz h' x = h_viz h x) /\
  exists f, deref h' r = match s with None => no_dataset | Some s =>
    let d := deref h s in mkDataset f (ds_body d) (ds_body_bytes d) (ds_body_path d) (ds_commit d) (ds_id d) (ds_meta d) (ds_name d)
      (ds_path d) (ds_peername d) (ds_previous d) (ds_profile d) (ds_readme d) 0 [] (ds_structure d) (ds_stats d) (ds_transform d) (ds_viz d) end.
Proof.
  intros r s h Hz Hs. destruct s as [s|]; cbn zeta.
  2: { repeat (split; [intros; reflexivity|]). exists None. cbn. unfold deref. rewrite Hz. reflexivity. }
  change (heap_assign r [Some s] h) with (heap_assign1 r h (Some s)).
  split; [intros x Hx; apply heap_assign1_ds; assumption|].
  destruct (proj2 slot_commit r h s) as [P1 C1]. destruct (proj2 slot_meta r h s) as [P2 C2]. destruct (proj2 slot_readme r h s) as [P3 C3].
  destruct (proj2 slot_structure r h s) as [P4 C4]. destruct (proj2 slot_stats r h s) as [P5 C5]. destruct (proj2 slot_transform r h s) as [P6 C6].
  destruct (proj2 slot_viz r h s) as [P7 C7]. pose proof (heap_assign1_scalars r h s) as P8. rewrite Hz in *. cbn [zero_pd pd_commit pd_meta pd_readme pd_structure pd_stats pd_transform pd_viz pd_scalars slot fst snd] in *.
  repeat (split; [assumption|]). exists (as_opt (sl_body_file (pd_scalars (h_ds h s))) None).
  unfold deref. rewrite P1, P2, P3, P4, P5, P6, P7, P8.
  assert (M : forall A (g g' : N -> A) o, (forall x, g x = g' x) -> option_map g o = option_map g' o) by (intros A g g' [x|] E; cbn; congruence).
  rewrite (M _ _ _ _ C1), (M _ _ _ _ C2), (M _ _ _ _ C3), (M _ _ _ _ C4), (M _ _ _ _ C5), (M _ _ _ _ C6), (M _ _ _ _ C7).
  destruct (pd_scalars (h_ds h s)) as [f bd bb bp id nm pa pe pr pf nv q]; cbn.
  assert (S0 : forall x, as_str x [] = x) by (intros []; reflexivity).
  assert (O0 : forall A (x : option A), as_opt x None = x) by (intros A []; reflexivity).
  assert (D0 : as_dyn bd JNull = bd) by (destruct bd; reflexivity). rewrite ?S0, ?O0, D0. reflexivity.
Qed.

Lemma as_str_none : forall x, as_str x [] = x.
Proof. intros []; reflexivity. Qed.
Lemma as_opt_none : forall A (x : option A), as_opt x None = x.
Proof. intros A []; reflexivity. Qed.
Lemma as_int_none : forall x, as_int x 0 = x.
Proof. intros x. unfold as_int. destruct (Z.eqb_spec x 0); congruence. Qed.
Lemma as_bool_none : forall x, as_bool x false = x.
Proof. intros []; reflexivity. Qed.
Lemma both_eq : forall A B (f : A -> B) (R : A -> A -> Prop), (forall x y, f x = f y <-> R x y) -> forall a b, option_map f a = option_map f b <-> both R a b.
Proof.
  intros A B f R H [x|] [y|]; cbn; try (split; [discriminate|contradiction]); [|tauto]. rewrite <- H. split; [intros E; injection E; auto|congruence].
Qed.
Lemma both_id : forall A (R : A -> A -> Prop), (forall x y, x = y <-> R x y) -> forall a b, a = b <-> both R a b.
Proof. intros A R H a b. rewrite <- (both_eq A A (fun x => x) R H). destruct a, b; cbn; tauto. Qed.
Ltac fields := cbn; split; [let E := fresh in intros E; injection E; intros; subst; repeat split|let E := fresh in intros E; decompose [and] E; subst; cbn in *; subst; reflexivity].
Lemma meta_fields : forall a b, meta_exported a = meta_exported b <-> meta_same a b /\ md_path a = md_path b.
Proof. intros [] []. unfold meta_exported, meta_same. fields. Qed.
Lemma script_fields : forall a b, script_exported a = script_exported b <-> script_same a b.
Proof. intros [] []. unfold script_exported, script_same. fields. Qed.
Lemma transform_fields : forall a b, transform_exported a = transform_exported b <-> transform_same a b.
Proof. intros [] []. unfold transform_exported, transform_same. fields. Qed.
Lemma commit_fields : forall a b, a = b <-> commit_same a b /\ cm_path a = cm_path b.
Proof. intros [] []. unfold commit_same. fields. Qed.
Lemma structure_fields : forall a b, a = b <-> structure_same a b /\ st_path a = st_path b.
Proof. intros [] []. unfold structure_same. fields. Qed.
Lemma stats_fields : forall a b, a = b <-> sa_path a = sa_path b /\ sa_qri a = sa_qri b /\ sa_stats a = sa_stats b.
Proof. intros [] []. fields. Qed.
Lemma exported_fields : forall a b, dataset_exported a = dataset_exported b <->
  lasting_same a b /\ transient_same a b /\ ds_num_versions a = ds_num_versions b /\ ds_qri a = ds_qri b.
Proof.
  intros a b. unfold lasting_same. rewrite <- (both_id _ _ commit_fields), <- (both_eq _ _ _ _ meta_fields), <- !(both_eq _ _ _ _ script_fields), <- (both_id _ _ structure_fields), <- (both_id _ _ stats_fields), <- (both_eq _ _ _ _ transform_fields).
  unfold dataset_exported, transient_same. split.
  - intros E. injection E. intros. repeat split; assumption.
  - intros H. decompose [and] H. repeat match goal with E : ?x = _ |- context[?x] => rewrite E end. reflexivity.
Qed.

Lemma prepared : forall drop a b e g h, a <> b -> e <> Some a -> e <> Some b -> g <> Some a -> g <> Some b ->
  let h' := compare_prepare drop a b e g h in
  (forall x, x <> a -> x <> b -> h_ds h' x = h_ds h x) /\
  (forall x, h_commit h' x = h_commit h x) /\ (forall x, h_meta h' x = h_meta h x) /\ (forall x, h_readme h' x = h_readme h x) /\
  (forall x, h_structure h' x = h_structure h x) /\ (forall x, h_stats h' x = h_stats h x) /\ (forall x, h_transform h' x = h_transform h x) /\
  (forall x, h_viz h' x = h_viz h x) /\
  let E := present_or no_dataset (option_map (deref h) e) in let G := present_or no_dataset (option_map (deref h) g) in
  lasting_same (deref h' a) E /\ lasting_same (deref h' b) G /\
  (if drop then transient_same (deref h' a) no_dataset else transient_same (deref h' a) E) /\ transient_same (deref h' b) G /\
  ds_num_versions (deref h' a) = 0%Z /\ ds_num_versions (deref h' b) = 0%Z /\ ds_qri (deref h' a) = [] /\ ds_qri (deref h' b) = [].
Proof.
  intros drop a b e g h Nab Ea Eb Ga Gb.
  assert (M : forall A (g g' : N -> A) o, (forall x, g x = g' x) -> option_map g o = option_map g' o) by (intros A f f' [x|] E; cbn; congruence).
  set (h1 := heap_assign a [e] (alloc a h)). set (h2 := heap_assign b [g] (alloc b h1)).
  assert (Z1 : h_ds (alloc a h) a = zero_pd) by (cbn; apply upd_eq).
  assert (Z2 : h_ds (alloc b h1) b = zero_pd) by (cbn; apply upd_eq).
  destruct (adopt a e _ Z1 Ea) as (D1 & A1 & A2 & A3 & A4 & A5 & A6 & A7 & f1 & R1).
  destruct (adopt b g _ Z2 Gb) as (D2 & B1 & B2 & B3 & B4 & B5 & B6 & B7 & f2 & R2).
  fold h1 in D1, A1, A2, A3, A4, A5, A6, A7, R1. fold h2 in D2, B1, B2, B3, B4, B5, B6, B7, R2. cbn [alloc h_commit h_meta h_readme h_structure h_stats h_transform h_viz h_ds] in D1, A1, A2, A3, A4, A5, A6, A7, D2, B1, B2, B3, B4, B5, B6, B7.
  assert (K : forall h h' x, h_ds h' x = h_ds h x -> (forall x, h_commit h' x = h_commit h x) -> (forall x, h_meta h' x = h_meta h x) -> (forall x, h_readme h' x = h_readme h x) ->
    (forall x, h_structure h' x = h_structure h x) -> (forall x, h_stats h' x = h_stats h x) -> (forall x, h_transform h' x = h_transform h x) -> (forall x, h_viz h' x = h_viz h x) -> deref h' x = deref h x).
  { clear - M. intros h h' x E0 E1 E2 E3 E4 E5 E6 E7. unfold deref. rewrite E0, (M _ _ _ _ E1), (M _ _ _ _ E2), (M _ _ _ _ E3), (M _ _ _ _ E4), (M _ _ _ _ E5), (M _ _ _ _ E6), (M _ _ _ _ E7). reflexivity. }
  assert (X : forall x, x <> a -> x <> b -> h_ds h2 x = h_ds h x).
  { intros x Xa Xb. rewrite D2 by assumption. rewrite upd_neq by assumption. rewrite D1 by assumption. apply upd_neq; assumption. }
  assert (Va : deref h2 a = deref h1 a).
  { apply K; auto. rewrite D2 by assumption. apply upd_neq; assumption. }
  assert (Ve : forall s, s <> a -> deref (alloc a h) s = deref h s) by (intros s Ns; apply K; auto; cbn; apply upd_neq; assumption).
  assert (Vg : forall s, s <> a -> s <> b -> deref (alloc b h1) s = deref h s).
  { intros s Na Nb. apply K; auto. cbn. rewrite upd_neq by assumption. rewrite D1 by assumption. apply upd_neq; assumption. }
  assert (RF : forall d, lasting_same d d /\ transient_same d d).
  { intros d. assert (Q : dataset_exported d = dataset_exported d) by reflexivity. apply exported_fields in Q. tauto. }
  assert (La : let d := deref h2 a in let E := present_or no_dataset (option_map (deref h) e) in lasting_same d E /\ transient_same d E /\ ds_num_versions d = 0%Z /\ ds_qri d = []).
  { cbn zeta. rewrite Va, R1. destruct e as [s|]; cbn [option_map present_or].
    - rewrite Ve by congruence. destruct (RF (deref h s)) as [RL RT]. split; [exact RL|]. split; [exact RT|]. split; reflexivity.
    - destruct (RF no_dataset). repeat split; assumption || tauto. }
  assert (Lb : let d := deref h2 b in let G := present_or no_dataset (option_map (deref h) g) in lasting_same d G /\ transient_same d G /\ ds_num_versions d = 0%Z /\ ds_qri d = []).
  { cbn zeta. rewrite R2. destruct g as [s|]; cbn [option_map present_or].
    - rewrite Vg by congruence. destruct (RF (deref h s)) as [RL RT]. split; [exact RL|]. split; [exact RT|]. split; reflexivity.
    - destruct (RF no_dataset). repeat split; assumption || tauto. }
  cbn zeta in La, Lb |- *. destruct La as (La1 & La2 & La3 & La4). destruct Lb as (Lb1 & Lb2 & Lb3 & Lb4).
  unfold compare_prepare. fold h1. fold h2. destruct drop.
  2: { split; [exact X|]. repeat (split; [intros x; congruence|]). tauto. }
  set (h3 := heap_drop_transient a (heap_drop_transient a h2)).
  assert (T : deref h3 a = dataset_drop_transient (deref h2 a)) by (unfold h3, heap_drop_transient, deref; cbn [h_ds h_commit h_meta h_readme h_structure h_stats h_transform h_viz]; rewrite !upd_eq; reflexivity).
  assert (U : deref h3 b = deref h2 b) by (apply K; try reflexivity; unfold h3, heap_drop_transient; cbn [h_ds]; rewrite !upd_neq by congruence; reflexivity).
  split; [intros x Xa Xb; unfold h3, heap_drop_transient; cbn [h_ds]; rewrite !upd_neq by assumption; auto|].
  split; [intros x; transitivity (h_commit h2 x); [reflexivity|congruence]|].
  split; [intros x; transitivity (h_meta h2 x); [reflexivity|congruence]|].
  split; [intros x; transitivity (h_readme h2 x); [reflexivity|congruence]|].
  split; [intros x; transitivity (h_structure h2 x); [reflexivity|congruence]|].
  split; [intros x; transitivity (h_stats h2 x); [reflexivity|congruence]|].
  split; [intros x; transitivity (h_transform h2 x); [reflexivity|congruence]|].
  split; [intros x; transitivity (h_viz h2 x); [reflexivity|congruence]|].
  rewrite T, U.
  split; [exact La1|]. split; [exact Lb1|]. split; [repeat split|]. repeat split; try assumption; try apply Lb2.
Qed.

(** Comparing changes neither the compared datasets nor any other, nor their components. *)
Theorem compare_changes_nothing : forall drop a b e g h, a <> b -> e <> Some a -> e <> Some b -> g <> Some a -> g <> Some b ->
  forall x, x <> a -> x <> b -> deref (compare_prepare drop a b e g h) x = deref h x.
Proof.
  intros drop a b e g h H1 H2 H3 H4 H5 x Xa Xb. destruct (prepared drop a b e g h H1 H2 H3 H4 H5) as (D & A1 & A2 & A3 & A4 & A5 & A6 & A7 & _).
  assert (M : forall A (g g' : N -> A) o, (forall x, g x = g' x) -> option_map g o = option_map g' o) by (intros A f f' [y|] E; cbn; congruence).
  unfold deref. rewrite D by assumption. rewrite (M _ _ _ _ A1), (M _ _ _ _ A2), (M _ _ _ _ A3), (M _ _ _ _ A4), (M _ _ _ _ A5), (M _ _ _ _ A6), (M _ _ _ _ A7). reflexivity.
Qed.

Lemma lasting_eq : forall a b c, lasting_same a c -> (lasting_same a b <-> lasting_same c b).
Proof.
  intros a b c. unfold lasting_same.
  rewrite <- !(both_id _ _ commit_fields), <- !(both_eq _ _ _ _ meta_fields), <- !(both_eq _ _ _ _ script_fields), <- !(both_id _ _ structure_fields), <- !(both_id _ _ stats_fields), <- !(both_eq _ _ _ _ transform_fields).
  intros H. decompose [and] H. repeat match goal with E : ?x = _ |- context[?x] => rewrite E; clear E end. tauto.
Qed.
Lemma lasting_sym : forall a b, lasting_same a b <-> lasting_same b a.
Proof.
  intros a b. unfold lasting_same.
  rewrite <- !(both_id _ _ commit_fields), <- !(both_eq _ _ _ _ meta_fields), <- !(both_eq _ _ _ _ script_fields), <- !(both_id _ _ structure_fields), <- !(both_id _ _ stats_fields), <- !(both_eq _ _ _ _ transform_fields).
  split; intros H; decompose [and] H; repeat split; congruence.
Qed.
Lemma transient_eq : forall a b c, transient_same a c -> (transient_same a b <-> transient_same c b).
Proof. intros a b c H. unfold transient_same in *. decompose [and] H. split; intros H'; decompose [and] H'; repeat split; congruence. Qed.
Lemma transient_sym : forall a b, transient_same a b <-> transient_same b a.
Proof. intros a b. unfold transient_same. split; intros H; decompose [and] H; repeat split; congruence. Qed.

(** CompareDatasets finds no difference exactly if all exported fields but Qri and NumVersions agree.  With
    OptDropTransientValues the transient fields of the expected dataset do not count, but those of the other must be unset. *)
Theorem compare_datasets_exact : forall drop a b e g h, a <> b -> e <> Some a -> e <> Some b -> g <> Some a -> g <> Some b ->
  let E := present_or no_dataset (option_map (deref h) e) in let G := present_or no_dataset (option_map (deref h) g) in
  no_difference a b (compare_prepare drop a b e g h) <->
  lasting_same E G /\ transient_same (if drop then no_dataset else E) G.
Proof.
  intros drop a b e g h H1 H2 H3 H4 H5 E G. destruct (prepared drop a b e g h H1 H2 H3 H4 H5) as (_ & _ & _ & _ & _ & _ & _ & _ & L1 & L2 & T1 & T2 & V1 & V2 & Q1 & Q2).
  fold E in L1, T1. fold G in L2, T2. unfold no_difference. rewrite exported_fields, V1, V2, Q1, Q2.
  rewrite (lasting_eq _ _ _ L1), lasting_sym, (lasting_eq _ _ _ L2), (lasting_sym G E).
  assert (T : transient_same (deref (compare_prepare drop a b e g h) a) (if drop then no_dataset else E)) by (destruct drop; assumption).
  rewrite (transient_eq _ _ _ T), transient_sym, (transient_eq _ _ _ T2), (transient_sym G). tauto.
Qed.

(** The same for components. *)
Theorem compare_commits_exact : forall drop e g, let E := present_or no_commit e in let G := present_or no_commit g in
  compare_commits drop e g <-> commit_same E G /\ cm_path G = (if drop then [] else cm_path E).
Proof.
  intros drop e g E G. assert (A : forall x, commit_assign (commit_ref []) [x] = present_or no_commit x).
  { intros [[]|]; cbn; [|reflexivity]. rewrite ?as_str_none, ?as_opt_none, ?as_int_none, ?as_bool_none. reflexivity. }
  unfold compare_commits. rewrite !A. fold E G. destruct drop; rewrite commit_fields; unfold commit_same; cbn; intuition congruence.
Qed.
Theorem compare_metas_exact : forall drop e g, let E := present_or no_meta e in let G := present_or no_meta g in
  compare_metas drop e g <-> meta_same E G /\ md_path G = (if drop then [] else md_path E).
Proof.
  intros drop e g E G. assert (A : forall x, meta_exported (meta_assign (meta_ref []) [x]) = meta_exported (present_or no_meta x)).
  { intros [[]|]; cbn; [|reflexivity]. unfold meta_exported. cbn. rewrite ?as_str_none, ?as_opt_none, ?as_int_none, ?as_bool_none. reflexivity. }
  assert (D : forall m, meta_exported (meta_drop_transient m) = meta_drop_transient (meta_exported m)) by (intros []; reflexivity).
  unfold compare_metas. cbn zeta. destruct drop; rewrite ?D, !A; fold E G.
  - rewrite <- !D, meta_fields. destruct E, G. unfold meta_same; cbn. intuition congruence.
  - rewrite meta_fields. intuition congruence.
Qed.
Theorem compare_structures_exact : forall drop e g, let E := present_or no_structure e in let G := present_or no_structure g in
  compare_structures drop e g <-> structure_same E G /\ st_path G = (if drop then [] else st_path E).
Proof.
  intros drop e g E G. assert (A : forall x, structure_assign (structure_ref []) [x] = present_or no_structure x).
  { intros [[]|]; cbn; [|reflexivity]. rewrite ?as_str_none, ?as_opt_none, ?as_int_none, ?as_bool_none. reflexivity. }
  unfold compare_structures. rewrite !A. fold E G. destruct drop; rewrite structure_fields; unfold structure_same; cbn; intuition congruence.
Qed.

(** A dataset with a name, 1, and one that differs from it only in kind and number of versions, 2, and one without name, 3. *)
Definition demo_heap : heap :=
  let sc n v q := mkScalars None JNull None [] [] n [] [] [] [] v q in
  mkHeap (fun a => match a with
                   | 1%N => mkPD (sc (bs "cities") 3%Z (bs "ds:0")) (Some 1%N) None None None None None None
                   | 2%N => mkPD (sc (bs "cities") 0%Z []) (Some 1%N) None None None None None None
                   | 3%N => mkPD (sc [] 0%Z []) (Some 1%N) None None None None None None
                   | _ => zero_pd end)
    (fun _ => mkCommit None (bs "one") [] [] [] 0 [] []) (fun _ => meta_ref []) (fun _ => sc_ref []) (fun _ => structure_ref []) (fun _ => stats_ref [])
    (fun _ => transform_ref []) (fun _ => sc_ref []).
Definition finds (drop : bool) (e g : N) : Prop := no_difference 8 9 (compare_prepare drop 8 9 (Some e) (Some g) demo_heap).
Lemma finds_iff : forall drop e g, e <> 8%N -> e <> 9%N -> g <> 8%N -> g <> 9%N -> (finds drop e g <->
  lasting_same (deref demo_heap e) (deref demo_heap g) /\ transient_same (if drop then no_dataset else deref demo_heap e) (deref demo_heap g)).
Proof. intros drop e g H1 H2 H3 H4. apply (compare_datasets_exact drop 8 9 (Some e) (Some g)); congruence. Qed.
(** That all exported fields are compared, or that dropping transient values applies to both sides, is false: a dataset with a
    name then differs from itself, and the order of the arguments matters. *)
Theorem compare_all_fields_refuted : finds false 1 2 /\ ds_qri (deref demo_heap 1) <> ds_qri (deref demo_heap 2) /\
  ds_num_versions (deref demo_heap 1) <> ds_num_versions (deref demo_heap 2).
Proof. split; [apply finds_iff; try discriminate; cbv; tauto|]. split; discriminate. Qed.
Theorem compare_drop_refuted : ~ finds true 1 1 /\ finds true 1 3 /\ ~ finds true 3 1.
Proof.
  rewrite !finds_iff by discriminate. split; [intros [_ H]; cbv in H; decompose [and] H; discriminate|].
  split; [cbv; tauto|intros [_ H]; cbv in H; decompose [and] H; discriminate].
Qed.
Theorem compare_drop_components_refuted : let c := mkCommit None (bs "m") (bs "/path") [] [] 0 [] [] in
  compare_commits false (Some c) (Some c) /\ ~ compare_commits true (Some c) (Some c).
Proof. split; [reflexivity|]. intros H. discriminate H. Qed.
(** That arbitrary metadata counts is false. *)
Theorem compare_arbitrary_meta_refuted : let m x := mkMeta (Some [(bs "mine", x)]) [] [] None None [] [] [] [] None None None [] [] [] [] None [] in
  compare_metas false (Some (m (JBool true))) (Some (m (JBool false))).
Proof. reflexivity. Qed.

Example compare_datasets_ex : finds false 1 1 /\ ~ finds false 1 3 /\ deref demo_heap 1 <> no_dataset.
Proof.
  rewrite !finds_iff by discriminate. split; [cbv; tauto|]. split; [intros [_ H]; cbv in H; decompose [and] H; discriminate|].
  intros H. discriminate H.
Qed.
Example compare_components_ex : ~ compare_commits false (Some (mkCommit None (bs "m") [] [] [] 0 [] [])) None /\
  compare_structures true (Some (structure_ref (bs "/p"))) None /\ ~ compare_structures false (Some (structure_ref (bs "/p"))) None.
Proof. split; [intros H; discriminate H|]. split; [reflexivity|intros H; discriminate H]. Qed.
Print Assumptions compare_changes_nothing.
Print Assumptions compare_datasets_exact.
Print Assumptions compare_commits_exact.
Print Assumptions compare_metas_exact.
Print Assumptions compare_structures_exact.
Print Assumptions compare_all_fields_refuted.
Print Assumptions compare_drop_refuted.
Print Assumptions compare_drop_components_refuted.
Print Assumptions compare_arbitrary_meta_refuted.
