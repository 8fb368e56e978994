(** C34: what Dataset.Assign shares between datasets and what it modifies. *)
From Verif Require Import Base M_Doc M_Components M_Heap S_Components S_Heap L_Components L_Heap P_Components.

Local Arguments heap_assign1 : simpl never.

(** Everything Assign may write: the receiver's struct, and per slot the one object the receiver ends up pointing to,
    which is the first object found among the receiver's and the sources' slots. *)
Theorem assign_write_set : forall srcs r h, let h' := heap_assign r srcs h in
  (forall x, x <> r -> h_ds h' x = h_ds h x) /\
  (pd_commit (h_ds h' r) = owner (slot_ptrs pd_commit h r srcs) /\
   forall x, owner (slot_ptrs pd_commit h r srcs) <> Some x -> h_commit h' x = h_commit h x) /\
  (pd_meta (h_ds h' r) = owner (slot_ptrs pd_meta h r srcs) /\
   forall x, owner (slot_ptrs pd_meta h r srcs) <> Some x -> h_meta h' x = h_meta h x) /\
  (pd_readme (h_ds h' r) = owner (slot_ptrs pd_readme h r srcs) /\
   forall x, owner (slot_ptrs pd_readme h r srcs) <> Some x -> h_readme h' x = h_readme h x) /\
  (pd_structure (h_ds h' r) = owner (slot_ptrs pd_structure h r srcs) /\
   forall x, owner (slot_ptrs pd_structure h r srcs) <> Some x -> h_structure h' x = h_structure h x) /\
  (pd_stats (h_ds h' r) = owner (slot_ptrs pd_stats h r srcs) /\
   forall x, owner (slot_ptrs pd_stats h r srcs) <> Some x -> h_stats h' x = h_stats h x) /\
  (pd_transform (h_ds h' r) = owner (slot_ptrs pd_transform h r srcs) /\
   forall x, owner (slot_ptrs pd_transform h r srcs) <> Some x -> h_transform h' x = h_transform h x) /\
  (pd_viz (h_ds h' r) = owner (slot_ptrs pd_viz h r srcs) /\
   forall x, owner (slot_ptrs pd_viz h r srcs) <> Some x -> h_viz h' x = h_viz h x).
Proof.
  intros srcs r h h'. split; [intros x Hx; now apply heap_assign_ds|].
  split; [apply (slot_owner _ _ _ _ slot_commit)|].
  split; [apply (slot_owner _ _ _ _ slot_meta)|].
  split; [apply (slot_owner _ _ _ _ slot_readme)|].
  split; [apply (slot_owner _ _ _ _ slot_structure)|].
  split; [apply (slot_owner _ _ _ _ slot_stats)|].
  split; [apply (slot_owner _ _ _ _ slot_transform)|].
  apply (slot_owner _ _ _ _ slot_viz).
Qed.
Print Assumptions assign_write_set.

(** A receiver that has all its components never changes another dataset that shares none of them. *)
Theorem assign_leaves_others_alone : forall srcs r h d, d <> r -> all_components (h_ds h r) -> disjoint (h_ds h r) (h_ds h d) ->
  deref (heap_assign r srcs h) d = deref h d.
Proof.
  intros srcs r h d Hd Ha Hj. destruct (assign_write_set srcs r h) as (D & W1 & W2 & W3 & W4 & W5 & W6 & W7).
  destruct Ha as (A1 & A2 & A3 & A4 & A5 & A6 & A7). destruct Hj as (J1 & J2 & J3 & J4 & J5 & J6 & J7).
  assert (K : forall A (get : pdataset -> option N) (gh : heap -> N -> A),
     (get (h_ds (heap_assign r srcs h) r) = owner (slot_ptrs get h r srcs) /\
      forall x, owner (slot_ptrs get h r srcs) <> Some x -> gh (heap_assign r srcs h) x = gh h x) ->
     get (h_ds h r) <> None -> disjoint_ptr (get (h_ds h r)) (get (h_ds h d)) ->
     option_map (gh (heap_assign r srcs h)) (get (h_ds h d)) = option_map (gh h) (get (h_ds h d))).
  { intros A get gh [_ W] N J. destruct (get (h_ds h d)) as [x|] eqn:E; [|reflexivity]. simpl. f_equal. apply W.
    unfold slot_ptrs, owner. rewrite present_cons. destruct (get (h_ds h r)) as [y|] eqn:Ey; [|congruence]. simpl.
    intros F. injection F as ->. now apply (J x). }
  unfold deref. rewrite (D d Hd).
  rewrite (K _ _ _ W1), (K _ _ _ W2), (K _ _ _ W3), (K _ _ _ W4), (K _ _ _ W5), (K _ _ _ W6), (K _ _ _ W7) by assumption.
  reflexivity.
Qed.
Print Assumptions assign_leaves_others_alone.

(** Without sharing, Assign is the value-level Assign of C33. *)
Theorem assign_unshared_is_value_assign : forall srcs r h, unshared h r srcs ->
  deref (heap_assign r srcs h) r = dataset_assign (deref h r) (map (option_map (deref h)) srcs).
Proof.
  intros srcs r h (Nr & U1 & U2 & U3 & U4 & U5 & U6 & U7).
  assert (P : present (map (option_map (deref h)) srcs) = map (deref h) (present srcs)).
  { clear. induction srcs as [|[s|] srcs IH]; simpl; auto. now f_equal. }
  assert (S : forall srcs h d, ~ In (Some r) srcs -> pd_scalars (h_ds h r) =
     mkScalars (ds_body_file d) (ds_body d) (ds_body_bytes d) (ds_body_path d) (ds_id d) (ds_name d) (ds_path d) (ds_peername d)
       (ds_previous d) (ds_profile d) (ds_num_versions d) (ds_qri d) ->
     let e := dataset_assign d (map (option_map (deref h)) srcs) in
     pd_scalars (h_ds (heap_assign r srcs h) r) =
     mkScalars (ds_body_file e) (ds_body e) (ds_body_bytes e) (ds_body_path e) (ds_id e) (ds_name e) (ds_path e) (ds_peername e)
       (ds_previous e) (ds_profile e) (ds_num_versions e) (ds_qri e)).
  { clear. induction srcs as [|[s|] srcs IH]; intros h d Hr E; [exact E| |].
    - change (heap_assign r (Some s :: srcs) h) with (heap_assign r srcs (heap_assign1 r h (Some s))).
      assert (Nr : ~ In (Some r) srcs) by (intros F; apply Hr; now right).
      intros e.
      assert (Q : forall l d1 d2 (f : dataset -> dataset -> Prop),
         (forall a b x y, f a b -> f x y -> f (dataset_assign1 a (Some x)) (dataset_assign1 b (Some y))) ->
         f d1 d2 -> (forall s0, In (Some s0) l -> f (deref (heap_assign1 r h (Some s)) s0) (deref h s0)) ->
         f (dataset_assign d1 (map (option_map (deref (heap_assign1 r h (Some s)))) l))
           (dataset_assign d2 (map (option_map (deref h)) l))).
      { intros l d1 d2 f Hf. revert d1 d2. induction l as [|[u|] l IHl]; intros d1 d2 H0 Hs; [exact H0| |].
        - cbn [map option_map]. apply (IHl (dataset_assign1 d1 _) (dataset_assign1 d2 _)).
          + apply Hf; [exact H0|]. apply Hs. now left.
          + intros s0 Hin. apply Hs. now right.
        - apply IHl; [exact H0|]. intros s0 Hin. apply Hs. now right. }
      set (d' := dataset_assign1 d (Some (deref h s))).
      specialize (IH (heap_assign1 r h (Some s)) d' Nr). cbv zeta in IH. rewrite IH.
      + set (same := fun a b : dataset =>
          (ds_body_file a, ds_body a, ds_body_bytes a, ds_body_path a, ds_id a, ds_name a) =
          (ds_body_file b, ds_body b, ds_body_bytes b, ds_body_path b, ds_id b, ds_name b) /\
          (ds_path a, ds_peername a, ds_previous a, ds_profile a, ds_num_versions a, ds_qri a) =
          (ds_path b, ds_peername b, ds_previous b, ds_profile b, ds_num_versions b, ds_qri b)).
        assert (R : same (dataset_assign d' (map (option_map (deref (heap_assign1 r h (Some s)))) srcs)) e).
        { apply (Q srcs d' d' same).
          - unfold same. intros a b x y [H1 H2] [H3 H4]. cbn. split; congruence.
          - split; reflexivity.
          - intros s0 Hin. unfold same, deref. rewrite heap_assign1_ds; [split; reflexivity|]. intros ->. contradiction. }
        destruct R as [R1 R2]. congruence.
      + rewrite heap_assign1_scalars, E. reflexivity.
    - apply IH; [intros F; apply Hr; now right|exact E]. }
  specialize (S srcs h (deref h r) Nr). cbv zeta in S.
  set (e := dataset_assign (deref h r) (map (option_map (deref h)) srcs)) in *.
  destruct (dataset_assign_components (deref h r) (map (option_map (deref h)) srcs)) as (C1 & C2 & C3 & C4 & C5 & C6 & C7).
  fold e in C1, C2, C3, C4, C5, C6, C7. rewrite P in *.
  assert (M : forall A (get : pdataset -> option N) (gh : heap -> N -> A) (dg : dataset -> option A),
     (forall a, dg (deref h a) = option_map (gh h) (get (h_ds h a))) ->
     map (option_map (gh h)) (slot_ptrs get h r srcs) = dg (deref h r) :: map dg (map (deref h) (present srcs))).
  { intros A get gh dg Hg. unfold slot_ptrs. cbn [map]. rewrite Hg. f_equal. rewrite !map_map. apply map_ext. intros a. now rewrite Hg. }
  unfold deref. rewrite S; [|destruct (h_ds h r) as [[] ? ? ? ? ? ? ?] eqn:Z; unfold deref; rewrite Z; reflexivity].
  rewrite (slot_value _ _ _ _ slot_commit srcs r h Nr) by assumption. rewrite (M _ pd_commit h_commit ds_commit) by reflexivity.
  rewrite (slot_value _ _ _ _ slot_meta srcs r h Nr) by assumption. rewrite (M _ pd_meta h_meta ds_meta) by reflexivity.
  rewrite (slot_value _ _ _ _ slot_readme srcs r h Nr) by assumption. rewrite (M _ pd_readme h_readme ds_readme) by reflexivity.
  rewrite (slot_value _ _ _ _ slot_structure srcs r h Nr) by assumption. rewrite (M _ pd_structure h_structure ds_structure) by reflexivity.
  rewrite (slot_value _ _ _ _ slot_stats srcs r h Nr) by assumption. rewrite (M _ pd_stats h_stats ds_stats) by reflexivity.
  rewrite (slot_value _ _ _ _ slot_transform srcs r h Nr) by assumption. rewrite (M _ pd_transform h_transform ds_transform) by reflexivity.
  rewrite (slot_value _ _ _ _ slot_viz srcs r h Nr) by assumption. rewrite (M _ pd_viz h_viz ds_viz) by reflexivity.
  cbn [sl_body_file sl_body sl_body_bytes sl_body_path sl_id sl_name sl_path sl_peername sl_previous sl_profile sl_num_versions sl_qri].
  unfold commit_assign, meta_assign, sc_assign, structure_assign, stats_assign, transform_assign in *.
  rewrite <- C1, <- C2, <- C3, <- C4, <- C5, <- C6, <- C7. now destruct e.
Qed.
Print Assumptions assign_unshared_is_value_assign.

(** A receiver without a component adopts the source's object, so a later Assign into the receiver changes that source. *)
Theorem adopted_component_is_shared : forall r d e h, d <> r -> e <> r ->
  (forall x y, pd_commit (h_ds h r) = None -> pd_commit (h_ds h d) = Some x -> pd_commit (h_ds h e) = Some y -> x <> y ->
     let h1 := heap_assign r [Some d] h in let h2 := heap_assign r [Some e] h1 in
     ds_commit (deref h1 d) = ds_commit (deref h d) /\ pd_commit (h_ds h1 r) = pd_commit (h_ds h1 d) /\
     ds_commit (deref h2 d) = Some (commit_assign1 (h_commit h x) (Some (h_commit h y)))) /\
  (forall x y, pd_meta (h_ds h r) = None -> pd_meta (h_ds h d) = Some x -> pd_meta (h_ds h e) = Some y -> x <> y ->
     let h1 := heap_assign r [Some d] h in let h2 := heap_assign r [Some e] h1 in
     ds_meta (deref h1 d) = ds_meta (deref h d) /\ pd_meta (h_ds h1 r) = pd_meta (h_ds h1 d) /\
     ds_meta (deref h2 d) = Some (meta_assign1 (h_meta h x) (Some (h_meta h y)))) /\
  (forall x y, pd_readme (h_ds h r) = None -> pd_readme (h_ds h d) = Some x -> pd_readme (h_ds h e) = Some y -> x <> y ->
     let h1 := heap_assign r [Some d] h in let h2 := heap_assign r [Some e] h1 in
     ds_readme (deref h1 d) = ds_readme (deref h d) /\ pd_readme (h_ds h1 r) = pd_readme (h_ds h1 d) /\
     ds_readme (deref h2 d) = Some (sc_assign1 (h_readme h x) (Some (h_readme h y)))) /\
  (forall x y, pd_structure (h_ds h r) = None -> pd_structure (h_ds h d) = Some x -> pd_structure (h_ds h e) = Some y -> x <> y ->
     let h1 := heap_assign r [Some d] h in let h2 := heap_assign r [Some e] h1 in
     ds_structure (deref h1 d) = ds_structure (deref h d) /\ pd_structure (h_ds h1 r) = pd_structure (h_ds h1 d) /\
     ds_structure (deref h2 d) = Some (structure_assign1 (h_structure h x) (Some (h_structure h y)))) /\
  (forall x y, pd_stats (h_ds h r) = None -> pd_stats (h_ds h d) = Some x -> pd_stats (h_ds h e) = Some y -> x <> y ->
     let h1 := heap_assign r [Some d] h in let h2 := heap_assign r [Some e] h1 in
     ds_stats (deref h1 d) = ds_stats (deref h d) /\ pd_stats (h_ds h1 r) = pd_stats (h_ds h1 d) /\
     ds_stats (deref h2 d) = Some (stats_assign1 (h_stats h x) (Some (h_stats h y)))) /\
  (forall x y, pd_transform (h_ds h r) = None -> pd_transform (h_ds h d) = Some x -> pd_transform (h_ds h e) = Some y -> x <> y ->
     let h1 := heap_assign r [Some d] h in let h2 := heap_assign r [Some e] h1 in
     ds_transform (deref h1 d) = ds_transform (deref h d) /\ pd_transform (h_ds h1 r) = pd_transform (h_ds h1 d) /\
     ds_transform (deref h2 d) = Some (transform_assign1 (h_transform h x) (Some (h_transform h y)))) /\
  (forall x y, pd_viz (h_ds h r) = None -> pd_viz (h_ds h d) = Some x -> pd_viz (h_ds h e) = Some y -> x <> y ->
     let h1 := heap_assign r [Some d] h in let h2 := heap_assign r [Some e] h1 in
     ds_viz (deref h1 d) = ds_viz (deref h d) /\ pd_viz (h_ds h1 r) = pd_viz (h_ds h1 d) /\
     ds_viz (deref h2 d) = Some (sc_assign1 (h_viz h x) (Some (h_viz h y)))).
Proof.
  intros r d e h Hd He.
  assert (K : forall A getp geth (assign1 : A -> option A -> A), is_slot getp geth assign1 ->
    forall x y, getp (h_ds h r) = None -> getp (h_ds h d) = Some x -> getp (h_ds h e) = Some y -> x <> y ->
    let h1 := heap_assign r [Some d] h in let h2 := heap_assign r [Some e] h1 in
    option_map (geth h1) (getp (h_ds h1 d)) = option_map (geth h) (getp (h_ds h d)) /\ getp (h_ds h1 r) = getp (h_ds h1 d) /\
    option_map (geth h2) (getp (h_ds h2 d)) = Some (assign1 (geth h x) (Some (geth h y)))).
  { intros A getp geth assign1 [Hn Hs] x y E1 E2 E3 Hxy h1 h2.
    destruct (Hs r h d) as [S1 S2]. rewrite E1, E2 in S1, S2. simpl in S1, S2.
    assert (D1 : h_ds h1 d = h_ds h d) by now apply heap_assign_ds.
    assert (D2 : h_ds h1 e = h_ds h e) by now apply heap_assign_ds.
    assert (D3 : h_ds h2 d = h_ds h d) by (unfold h2; now rewrite heap_assign_ds).
    assert (D4 : getp (h_ds h1 r) = Some x) by exact S1.
    destruct (Hs r h1 e) as [T1 T2]. rewrite D4, D2, E3 in T1, T2. simpl in T1, T2.
    rewrite D1, D3, E2. split; [simpl; f_equal; apply S2|]. split; [exact D4|].
    simpl. f_equal. change h2 with (heap_assign1 r h1 (Some e)). rewrite T2, upd_eq.
    unfold h1. change (heap_assign r [Some d] h) with (heap_assign1 r h (Some d)). now rewrite !S2. }
  split; [exact (K _ _ _ _ slot_commit)|].
  split; [exact (K _ _ _ _ slot_meta)|].
  split; [exact (K _ _ _ _ slot_readme)|].
  split; [exact (K _ _ _ _ slot_structure)|].
  split; [exact (K _ _ _ _ slot_stats)|].
  split; [exact (K _ _ _ _ slot_transform)|].
  exact (K _ _ _ _ slot_viz).
Qed.
Print Assumptions adopted_component_is_shared.

(** So neither "sources are not modified" nor "Assign works on values" holds in general. *)
Definition ex_heap : heap :=
  let sc := mkScalars None JNull None [] [] [] [] [] [] [] 0 [] in
  mkHeap (fun a => match a with
                   | 1%N => mkPD sc (Some 1%N) None None None None None None     (* d1, with commit 1 *)
                   | 2%N => mkPD sc (Some 2%N) None None None None None None     (* d2, with commit 2 *)
                   | 3%N => mkPD sc (Some 1%N) None None None None None None     (* d3 shares commit 1 with d1 *)
                   | _ => mkPD sc None None None None None None None end)
    (fun a => match a with 1%N => mkCommit None (bs "one") [] [] [] 0 [] []
                         | _ => mkCommit None (bs "two") [] [] [] 0 (bs "t2") [] end)
    (fun _ => meta_ref []) (fun _ => sc_ref []) (fun _ => structure_ref []) (fun _ => stats_ref [])
    (fun _ => transform_ref []) (fun _ => sc_ref []).

Theorem assign_keeps_sources_refuted : ~ (forall srcs r h d, d <> r -> In (Some d) srcs -> deref (heap_assign r srcs h) d = deref h d).
Proof.
  intros H. specialize (H [Some 1%N; Some 2%N] 0%N ex_heap 1%N ltac:(discriminate) ltac:(left; reflexivity)).
  vm_compute in H. discriminate.
Qed.
Print Assumptions assign_keeps_sources_refuted.

Theorem assign_is_value_assign_refuted : ~ (forall srcs r h, ~ In (Some r) srcs ->
  deref (heap_assign r srcs h) r = dataset_assign (deref h r) (map (option_map (deref h)) srcs)).
Proof.
  intros H. specialize (H [Some 1%N; Some 2%N; Some 3%N] 0%N ex_heap).
  assert (F : ~ In (Some 0%N) [Some 1%N; Some 2%N; Some 3%N]) by (simpl; intuition discriminate).
  specialize (H F). vm_compute in H. discriminate.
Qed.
Print Assumptions assign_is_value_assign_refuted.

Example unshared_ex : unshared ex_heap 0 [Some 1%N; None; Some 2%N].
Proof. unfold unshared. simpl. repeat split; try (intuition discriminate); repeat constructor; simpl; intuition discriminate. Qed.
Example others_alone_ex : exists h, all_components (h_ds h 0) /\ disjoint (h_ds h 0) (h_ds h 1) /\
  ds_commit (deref (heap_assign 0 [Some 1%N] h) 0) <> ds_commit (deref h 0).
Proof.
  exists (mkHeap (fun a => mkPD (mkScalars None JNull None [] [] [] [] [] [] [] 0 []) (Some a) (Some a) (Some a) (Some a) (Some a) (Some a) (Some a))
    (fun a => match a with 0%N => commit_ref [] | _ => commit_ref (bs "p") end)
    (fun _ => meta_ref []) (fun _ => sc_ref []) (fun _ => structure_ref []) (fun _ => stats_ref []) (fun _ => transform_ref []) (fun _ => sc_ref [])).
  split; [|split]; [unfold all_components; simpl; intuition discriminate| |vm_compute; discriminate].
  unfold disjoint, disjoint_ptr; simpl; intuition congruence.
Qed.
