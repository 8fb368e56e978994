(** Supporting lemmas for component JSON. *)
From Verif Require Import Base M_Doc M_Components M_Encode S_Encode.

(** ** Looking up members *)
Fixpoint lookup (n : bytes) (l : list (bytes * option jdoc)) : option jdoc :=
  match l with [] => None | (k, o) :: l' => if beqb n k then o else lookup n l' end.
Fixpoint distinct (l : list bytes) : bool :=
  match l with [] => true | k :: l' => negb (existsb (beqb k) l') && distinct l' end.
Definition within (l names : list bytes) : bool := forallb (fun k => existsb (beqb k) names) l.

Lemma existsb_beqb : forall k l, existsb (beqb k) l = true <-> In k l.
Proof.
  intros k l. rewrite existsb_exists. split.
  - intros (x & H & E). apply beqb_eq in E. now subst.
  - intros H. exists k. split; auto. apply beqb_refl.
Qed.
Lemma lookup_absent : forall l n, existsb (beqb n) (map fst l) = false -> lookup n l = None.
Proof.
  induction l as [|[k o] l IH]; intros n H; simpl in *; auto.
  apply orb_false_iff in H. destruct H as [H1 H2]. rewrite H1. auto.
Qed.
Lemma routed_absent : forall names l n, existsb (beqb n) (map fst l) = false -> within (map fst l) names = true ->
  routed names n (members l) = None.
Proof.
  induction l as [|[k o] l IH]; intros n H W; simpl in *; auto.
  apply orb_false_iff in H. destruct H as [H1 H2]. apply andb_true_iff in W. destruct W as [W1 W2].
  destruct o as [d|]; simpl; rewrite IH; auto. unfold route. rewrite W1, H1. reflexivity.
Qed.
Lemma routed_members : forall names n l, distinct (map fst l) && within (map fst l) names = true ->
  routed names n (members l) = lookup n l.
Proof.
  intros names n l. induction l as [|[k o] l IH]; simpl; auto. intros H.
  apply andb_true_iff in H. destruct H as [H1 H2]. apply andb_true_iff in H1. destruct H1 as [H1 H3].
  apply andb_true_iff in H2. destruct H2 as [H2 H4]. specialize (IH ltac:(now rewrite H3, H4)).
  apply negb_true_iff in H1.
  destruct (beqb_spec n k) as [->|D].
  - destruct o as [d|]; simpl.
    + rewrite routed_absent by auto. unfold route. rewrite H2, beqb_refl. reflexivity.
    + now apply routed_absent.
  - destruct o as [d|]; simpl; [|now apply IH]. rewrite IH.
    destruct (lookup n l) eqn:L; auto. unfold route. rewrite H2.
    apply beqb_neq in D. now rewrite D.
Qed.

(** ** One member *)
Lemma d_str_oe : forall s, d_str (oe_str s) = Ok s. Proof. now intros [|c s]. Qed.
Lemma d_str_always : forall s, d_str (always (JStr s)) = Ok s. Proof. reflexivity. Qed.
Lemma d_int_oe : forall z, d_int (oe_int z) = Ok z.
Proof. intros z. unfold oe_int. destruct (Z.eqb_spec z 0); subst; reflexivity. Qed.
Lemma d_bool_oe : forall b, d_bool (oe_bool b) = Ok b. Proof. now intros [|]. Qed.
Lemma d_dyn_oe : forall d, d_dyn (oe_dyn d) = Ok d. Proof. now intros [| | | | | | | |]. Qed.
Lemma d_dyn_always : forall d, d_dyn (always d) = Ok d. Proof. reflexivity. Qed.
Lemma d_time_always : forall t, d_time (always (JTime t)) = Ok t. Proof. reflexivity. Qed.
Lemma d_b64_oe : forall b, d_b64 (oe_b64 b) = Ok (some_unless_empty b). Proof. now intros [[|x l]|]. Qed.

Lemma to_map_app : forall V (a acc : list (bytes * V)), sorted (acc ++ a) ->
  fold_left (fun m kv => map_set (fst kv) (snd kv) m) a acc = acc ++ a.
Proof.
  intros V a. induction a as [|[k v] a IH]; intros acc S; simpl; [now rewrite app_nil_r|].
  assert (E : map_set k v acc = acc ++ [(k, v)]).
  { clear IH. induction acc as [|[k1 v1] acc IH]; simpl; auto. destruct S as [S1 S2]. rewrite IH by auto.
    assert (L : bcmp k k1 = Gt).
    { assert (bcmp k1 k = Lt).
      { clear -S1. induction acc as [|[k2 v2] acc IH]; simpl in S1; [destruct a as [|[] a]; simpl in S1; tauto|destruct S1; auto]. }
      rewrite bcmp_antisym, H. reflexivity. }
    rewrite L. reflexivity. }
  rewrite E, IH; rewrite <- app_assoc; auto.
Qed.
Lemma to_map_sorted : forall V (m : list (bytes * V)), sorted m -> to_map m = m.
Proof. intros. unfold to_map. now rewrite to_map_app. Qed.
Lemma d_map_oe : forall m, sorted_map m -> d_map (oe_map m) = Ok (some_unless_empty m).
Proof. intros [[|e m]|] S; simpl; auto. now rewrite (to_map_sorted _ (e :: m)). Qed.
Lemma mapM_map : forall A B (dec : B -> res A) (enc : A -> B) l, (forall x, dec (enc x) = Ok x) -> mapM dec (map enc l) = Ok l.
Proof. intros A B dec enc l H. induction l as [|x l IH]; simpl; auto. now rewrite H, IH. Qed.
Lemma sorted_map_snd : forall A B (f : A -> B) (m : list (bytes * A)), sorted (map (fun kv => (fst kv, f (snd kv))) m) <-> sorted m.
Proof.
  intros A B f m. induction m as [|[k v] m IH]; simpl; [tauto|]. rewrite IH.
  assert (K : key_above k (map (fun kv => (fst kv, f (snd kv))) m) <-> key_above k m).
  { clear. induction m as [|[k1 v1] m IH]; simpl; [tauto|]. tauto. }
  tauto.
Qed.
Lemma d_mapv_oe : forall A (dec : jdoc -> res A) (enc : A -> jdoc) m, (forall x, dec (enc x) = Ok x) -> sorted_map m ->
  d_mapv dec (oe_mapv enc m) = Ok (some_unless_empty m).
Proof.
  intros A dec enc [[|e m]|] H S; auto. unfold oe_mapv. cbn [option_map map oe_map]. unfold d_mapv.
  change ((fst e, enc (snd e)) :: map (fun kv => (fst kv, enc (snd kv))) m) with (map (fun kv => (fst kv, enc (snd kv))) (e :: m)).
  rewrite (mapM_map _ _ _ (fun kv => (fst kv, enc (snd kv)))).
  - now rewrite to_map_sorted.
  - intros [k v]. simpl. now rewrite H.
Qed.
Lemma d_slice_enc : forall A (dec : jdoc -> res A) (enc : A -> jdoc) l, (forall x, dec (enc x) = Ok x) ->
  d_slice dec (option_map (enc_list enc) l) = Ok l.
Proof. intros A dec enc [l|] H; auto. unfold enc_list. cbn [option_map d_slice]. now rewrite (mapM_map _ _ dec enc l H). Qed.
Lemma d_slice_oe : forall A (dec : jdoc -> res A) (enc : A -> jdoc) l, (forall x, dec (enc x) = Ok x) ->
  d_slice dec (oe_slice enc l) = Ok (some_unless_empty l).
Proof. intros A dec enc [[|x l]|] H; auto. cbn [oe_slice d_slice]. now rewrite (mapM_map _ _ dec enc (x :: l) H). Qed.
Lemma d_ptr_obj : forall A (dec : jdoc -> res A) (enc : A -> jdoc) o, (forall x, dec (enc x) = Ok x) -> (forall x, enc x <> JNull) ->
  d_ptr dec (option_map enc o) = Ok o.
Proof.
  intros A dec enc [a|] H N; auto. cbn [option_map]. unfold d_ptr. rewrite H. specialize (N a). destruct (enc a); congruence.
Qed.
Lemma dec_enc_ptr : forall A (dec : jdoc -> res A) (enc : A -> jdoc) o, (forall x, dec (enc x) = Ok x) -> (forall x, enc x <> JNull) ->
  dec_ptr dec (enc_ptr enc o) = Ok o.
Proof.
  intros A dec enc [a|] H N; auto. cbn [enc_ptr]. unfold dec_ptr, d_ptr. rewrite H. specialize (N a). destruct (enc a); congruence.
Qed.
Lemma dec_str_JStr : forall s, dec_str (JStr s) = Ok s. Proof. reflexivity. Qed.

(** Read the members back one at a time. *)
Ltac look1 ms :=
  match goal with |- context [lookup ?n ?l] =>
    let v := eval lazy [lookup ms beqb bs map N_of_ascii list_ascii_of_string N.eqb Pos.eqb N_of_digits N.add N.mul Pos.add Pos.mul Pos.succ Pos.add_carry andb] in (lookup n l) in
    change (lookup n l) with v
  end.
Ltac dec1 := rewrite ?d_str_oe, ?d_str_always, ?d_int_oe, ?d_bool_oe, ?d_dyn_oe, ?d_dyn_always, ?d_time_always, ?d_b64_oe; cbn [rbind].
Ltac members_back ms := rewrite !routed_members by reflexivity; repeat look1 ms; dec1.

Lemma dec_enc_user : forall u, dec_user (enc_user u) = Ok u.
Proof. intros [i n e]. unfold enc_user, dec_user, struct_of. members_back user_members. reflexivity. Qed.
Lemma dec_enc_license : forall u, dec_license (enc_license u) = Ok u.
Proof. intros [t u]. unfold enc_license, dec_license, struct_of. members_back license_members. reflexivity. Qed.
Lemma dec_enc_citation : forall u, dec_citation (enc_citation u) = Ok u.
Proof. intros [i n e]. unfold enc_citation, dec_citation, struct_of. members_back citation_members. reflexivity. Qed.
Lemma dec_enc_step : forall u, dec_step (enc_step u) = Ok u.
Proof. intros [i n e c x]. unfold enc_step, dec_step, struct_of. cbv zeta. members_back step_members. reflexivity. Qed.
Lemma dec_enc_resource : forall u, dec_resource (enc_resource u) = Ok u.
Proof. intros u. reflexivity. Qed.

Lemma default_kind_or : forall k q, default_kind k q = kind_or k q.
Proof. intros k [|c q]; reflexivity. Qed.

(** ** Objects *)
Lemma commit_object_back : forall c d, commit_object c = Ok d -> commit_decode d = Ok (commit_kept c).
Proof.
  intros c d H. unfold commit_object in H. destruct (time_encodes _); [|discriminate]. assert (E : d = JObj (members (commit_members c))) by congruence. subst d. clear H.
  unfold commit_decode, ref_or_object. cbv zeta. members_back commit_members.
  unfold oe_ptr. rewrite d_ptr_obj by (auto using dec_enc_user; discriminate). cbn [rbind]. dec1. unfold commit_kept. now rewrite <- default_kind_or.
Qed.
Lemma stats_object_back : forall c d, stats_object c = Ok d -> stats_decode d = Ok (stats_kept c).
Proof.
  intros c d H. unfold stats_object in H. assert (E : d = JObj (members (stats_members c))) by congruence. subst d. clear H.
  unfold stats_decode, ref_or_object. cbv zeta. members_back stats_members. unfold stats_kept. now rewrite <- default_kind_or.
Qed.
Lemma structure_object_back : forall c d, structure_maps_wf c -> structure_object c = Ok d -> structure_decode d = Ok (structure_kept c).
Proof.
  intros c d [W1 W2] H. unfold structure_object in H. assert (E : d = JObj (members (structure_members c))) by congruence. subst d. clear H.
  unfold structure_decode, ref_or_object. cbv zeta. members_back structure_members.
  rewrite !d_map_oe by auto. cbn [rbind]. dec1. unfold structure_kept. now rewrite <- default_kind_or.
Qed.
Lemma transform_object_back : forall c d, transform_maps_wf c -> transform_object c = Ok d -> transform_decode d = Ok (transform_kept c).
Proof.
  intros c d (W1 & W2 & W3) H. unfold transform_object in H. assert (E : d = JObj (members (transform_members c))) by congruence. subst d. clear H.
  unfold transform_decode, ref_or_object. cbv zeta. members_back transform_members.
  rewrite !d_map_oe by auto. cbn [rbind]. dec1.
  rewrite d_mapv_oe by (auto; intros x; apply dec_enc_ptr; auto using dec_enc_resource; discriminate). cbn [rbind]. dec1.
  rewrite d_mapv_oe by (auto; exact I). cbn [rbind].
  rewrite d_slice_oe by (intros x; apply dec_enc_ptr; auto using dec_enc_step; discriminate). cbn [rbind]. dec1.
  rewrite d_mapv_oe by auto. cbn [rbind]. unfold transform_kept. now rewrite <- default_kind_or.
Qed.
Lemma sc_object_back : forall kind c d, kind <> [] -> sc_object (sc_with_qri c (default_kind kind (sc_qri c))) = Ok d -> sc_decode kind d = Ok (sc_kept kind c).
Proof.
  intros kind [f p q sf rf s t r] d K H. unfold sc_object in H. injection H as <-.
  assert (Q : default_kind kind (default_kind kind q) = kind_or kind q) by (rewrite <- default_kind_or; destruct q, kind; reflexivity).
  unfold sc_kept, sc_with_qri. cbn [sc_format sc_path sc_qri sc_script_path sc_text sc_rendered_path]. rewrite <- Q. clear K Q.
  destruct f, s, t, r; reflexivity.
Qed.

(** ** Metadata: a map *)
Lemma put_all_get : forall l m n, distinct (map fst l) = true ->
  map_get n (put_all l m) = match lookup n l with Some d => Some d | None => map_get n m end.
Proof.
  unfold put_all. induction l as [|[k o] l IH]; intros m n D; simpl; auto.
  simpl in D. apply andb_true_iff in D. destruct D as [D1 D2]. apply negb_true_iff in D1. rewrite IH by auto. clear IH.
  destruct (beqb_spec n k) as [->|E].
  - rewrite lookup_absent by auto. destruct o as [d|]; simpl; auto. apply map_get_set_eq.
  - destruct (lookup n l); auto. destruct o as [d|]; simpl; auto. now apply map_get_set_neq.
Qed.
Lemma put_all_sorted : forall l m, sorted m -> sorted (put_all l m).
Proof. unfold put_all. induction l as [|[k [d|]] l IH]; intros m S; simpl; auto. apply IH. now apply sorted_set. Qed.
Lemma del_all_get : forall ks m k, map_get k (del_all ks m) = if existsb (beqb k) ks then None else map_get k m.
Proof.
  unfold del_all. induction ks as [|k0 ks IH]; intros m k; simpl; auto. rewrite IH.
  destruct (existsb (beqb k) ks); [now rewrite orb_true_r|]. rewrite orb_false_r.
  destruct (beqb_spec k k0) as [->|E]; [apply map_get_del_eq|now apply map_get_del_neq].
Qed.
Lemma del_all_sorted : forall ks m, sorted m -> sorted (del_all ks m).
Proof. unfold del_all. induction ks as [|k ks IH]; intros m S; simpl; auto. apply IH. now apply sorted_del. Qed.
Lemma map_get_in : forall V (m : list (bytes * V)) k v, map_get k m = Some v -> In (k, v) m.
Proof.
  intros V m k v. induction m as [|[k1 v1] m IH]; simpl; [discriminate|].
  destruct (beqb_spec k k1) as [->|E]; [intros H; injection H as ->; auto|auto].
Qed.
Lemma in_map_get : forall V (m : list (bytes * V)) k v, sorted m -> In (k, v) m -> map_get k m = Some v.
Proof.
  intros V m k v. induction m as [|[k1 v1] m IH]; simpl; [easy|]. intros [A S] [E|E].
  - injection E as -> ->. now rewrite beqb_refl.
  - specialize (IH S E). destruct (beqb_spec k k1) as [->|D]; auto. rewrite map_get_above in IH; [discriminate|auto].
Qed.
(** A sorted document none of whose keys is routed to a name it differs from. *)
Lemma routed_sorted : forall names n (o : list (bytes * jdoc)), sorted o -> existsb (beqb n) names = true ->
  (forall k, In k (map fst o) -> existsb (beqb k) names = true \/ find (fun x => beqb (fold_name x) (fold_name k)) names = None) ->
  routed names n o = map_get n o.
Proof.
  intros names n o. induction o as [|[k d] o IH]; intros S N H; simpl; auto.
  destruct S as [A S]. rewrite IH by (auto; intros; apply H; simpl; auto).
  destruct (beqb_spec n k) as [->|D].
  - rewrite map_get_above by auto. unfold route. rewrite N, beqb_refl. reflexivity.
  - destruct (map_get n o) eqn:G; auto. unfold route.
    destruct (H k) as [E|E]; [simpl; auto| |].
    + rewrite E. apply beqb_neq in D. now rewrite D.
    + destruct (existsb (beqb k) names) eqn:E2; [|now rewrite E]. apply beqb_neq in D. now rewrite D.
Qed.

Definition meta_base (c : meta) : list (bytes * jdoc) := match md_meta c with Some m => m | None => [] end.
Lemma meta_base_sorted : forall c, meta_wf c -> sorted (meta_base c).
Proof. intros c. unfold meta_wf, meta_base. destruct (md_meta c); simpl; tauto. Qed.
Lemma meta_base_key : forall c k, meta_wf c -> In k (map fst (meta_base c)) -> extra_key_ok c k.
Proof.
  intros c k W H. unfold meta_wf, meta_base in *. destruct (md_meta c) as [a|]; [|easy]. destruct W as [_ W].
  apply in_map_iff in H. destruct H as ([k1 v] & <- & H). rewrite Forall_forall in W. now apply W in H.
Qed.
Lemma find_fold_none : forall names k, Forall (fun n => ~ same_up_to_case n k) names ->
  find (fun x => beqb (fold_name x) (fold_name k)) names = None.
Proof.
  intros names k F. induction F as [|n names H F IH]; simpl; auto.
  destruct (beqb_spec (fold_name n) (fold_name k)) as [E|E]; auto. now apply H in E.
Qed.
Lemma meta_names_eq : meta_names = meta_member_names. Proof. reflexivity. Qed.
Lemma meta_fields_distinct : forall c, distinct (map fst (meta_fields c)) = true. Proof. reflexivity. Qed.
Lemma meta_fields_within : forall c k, In k (map fst (meta_fields c)) -> existsb (beqb k) meta_names = true.
Proof.
  intros c k H. assert (W : within (map fst (meta_fields c)) meta_names = true) by reflexivity.
  unfold within in W. rewrite forallb_forall in W. now apply W.
Qed.
Lemma put_all_keys : forall l m k, In k (map fst (put_all l m)) -> In k (map fst l) \/ In k (map fst m).
Proof.
  unfold put_all. induction l as [|[k0 o] l IH]; intros m k H; simpl in *; auto.
  apply IH in H. destruct H as [H|H]; auto. destruct o as [d|]; auto. simpl in H.
  assert (Q : forall (m : list (bytes * jdoc)), In k (map fst (map_set k0 d m)) -> k = k0 \/ In k (map fst m)).
  { clear. induction m as [|[k1 v] m IH]; simpl; [intros [H|[]]; auto|]. destruct (bcmp k0 k1); simpl; intros [H|H]; auto.
    apply IH in H. tauto. }
  apply Q in H. destruct H; auto.
Qed.
Lemma meta_routed : forall c n, meta_wf c -> existsb (beqb n) meta_names = true ->
  routed meta_names n (put_all (meta_fields c) (meta_base c)) =
  match lookup n (meta_fields c) with Some d => Some d | None => map_get n (meta_base c) end.
Proof.
  intros c n W N. rewrite routed_sorted; auto.
  - apply put_all_get. apply meta_fields_distinct.
  - apply put_all_sorted. now apply meta_base_sorted.
  - intros k H. apply put_all_keys in H. destruct H as [H|H].
    + left. now apply meta_fields_within in H.
    + apply (meta_base_key c k W) in H. destruct H as [[H _]|[-> _]]; [right|left; reflexivity].
      rewrite meta_names_eq. now apply find_fold_none.
Qed.
(** A name other than keywords is not among the arbitrary members. *)
Lemma meta_base_none : forall c n, meta_wf c -> existsb (beqb n) meta_names = true -> n <> bs "keywords" -> map_get n (meta_base c) = None.
Proof.
  intros c n W N K. destruct (map_get n (meta_base c)) as [d|] eqn:G; auto. exfalso.
  apply map_get_in in G. apply (in_map fst) in G. apply (meta_base_key c n W) in G.
  destruct G as [[G _]|[G _]]; [|congruence]. rewrite Forall_forall in G. apply existsb_beqb in N. rewrite meta_names_eq in N.
  apply (G n N). reflexivity.
Qed.
Lemma meta_routed_plain : forall c n, meta_wf c -> existsb (beqb n) meta_names = true -> n <> bs "keywords" ->
  routed meta_names n (put_all (meta_fields c) (meta_base c)) = lookup n (meta_fields c).
Proof. intros c n W N K. rewrite meta_routed by auto. rewrite meta_base_none by auto. now destruct (lookup n _). Qed.
Lemma meta_routed_keywords : forall c, meta_wf c ->
  routed meta_names (bs "keywords") (put_all (meta_fields c) (meta_base c)) = option_map (enc_list JStr) (md_keywords c).
Proof.
  intros c W. rewrite meta_routed by auto.
  change (lookup (bs "keywords") (meta_fields c)) with (option_map (enc_list JStr) (md_keywords c)).
  destruct (md_keywords c) as [l|] eqn:K; auto. cbn [option_map].
  destruct (map_get (bs "keywords") (meta_base c)) as [d|] eqn:G; auto. exfalso.
  apply map_get_in in G. apply (in_map fst) in G. apply (meta_base_key c _ W) in G.
  destruct G as [[G _]|[_ G]]; [|congruence]. rewrite Forall_forall in G. apply (G (bs "keywords")); [|reflexivity].
  vm_compute. tauto.
Qed.
Lemma meta_extra_back : forall c, meta_wf c -> del_all meta_deleted (put_all (meta_fields c) (meta_base c)) = meta_extra c.
Proof.
  intros c W.
  assert (S0 := meta_base_sorted c W).
  assert (S1 : sorted (meta_extra c)).
  { unfold meta_extra. fold (meta_base c). destruct (md_keywords c); auto. now apply sorted_set. }
  apply sorted_ext; auto.
  { apply del_all_sorted. now apply put_all_sorted. }
  intros k. rewrite del_all_get. rewrite put_all_get by apply meta_fields_distinct.
  assert (X : map_get k (meta_extra c) = if beqb k (bs "keywords") then
      match md_keywords c with Some l => Some (JArr (map JStr l)) | None => map_get k (meta_base c) end else map_get k (meta_base c)).
  { unfold meta_extra. fold (meta_base c). destruct (beqb_spec k (bs "keywords")) as [->|E].
    - destruct (md_keywords c); auto. apply map_get_set_eq.
    - destruct (md_keywords c); auto. now apply map_get_set_neq. }
  rewrite X. clear X.
  destruct (beqb_spec k (bs "keywords")) as [->|E].
  - change (existsb (beqb (bs "keywords")) meta_deleted) with false. cbn iota.
    change (lookup (bs "keywords") (meta_fields c)) with (option_map (enc_list JStr) (md_keywords c)).
    destruct (md_keywords c); reflexivity.
  - destruct (existsb (beqb k) meta_deleted) eqn:D.
    + destruct (map_get k (meta_base c)) as [d|] eqn:G; auto. exfalso.
      apply map_get_in in G. apply (in_map fst) in G. apply (meta_base_key c k W) in G.
      destruct G as [[G1 G2]|[G _]]; [|congruence].
      apply existsb_beqb in D.
      assert (Q : In k meta_member_names \/ In k meta_thrown_away).
      { clear -D. unfold meta_deleted in D. unfold meta_member_names, meta_thrown_away. cbn [map].
        repeat (destruct D as [D|D]; [subst k; first [left; solve [repeat (first [left; reflexivity|right])]|right; solve [repeat (first [left; reflexivity|right])]]|]).
        destruct D. }
      destruct Q as [Q|Q]; [|now apply G2]. rewrite Forall_forall in G1. now apply (G1 k Q).
    + assert (L : lookup k (meta_fields c) = None).
      { apply lookup_absent. apply not_true_is_false. intros H. apply existsb_beqb in H.
        assert (Q : existsb (beqb k) (bs "keywords" :: meta_deleted) = true).
        { clear -H. assert (W : within (map fst (meta_fields c)) (bs "keywords" :: meta_deleted) = true) by reflexivity.
          unfold within in W. rewrite forallb_forall in W. now apply W. }
        change (beqb k (bs "keywords") || existsb (beqb k) meta_deleted = true) in Q. rewrite D in Q. rewrite orb_false_r in Q. apply beqb_eq in Q. congruence. }
      now rewrite L.
Qed.
Lemma meta_object_back : forall c d, meta_wf c -> meta_object c = Ok d -> meta_decode d = Ok (meta_kept c).
Proof.
  intros c d W H. unfold meta_object in H. fold (meta_base c) in H.
  assert (E : d = JObj (put_all (meta_fields c) (meta_base c))) by congruence. subst d. clear H.
  unfold meta_decode, ref_or_object. cbv zeta.
  rewrite to_map_sorted by (apply put_all_sorted; now apply meta_base_sorted). rewrite meta_extra_back by auto.
  rewrite meta_routed_keywords by auto.
  rewrite !meta_routed_plain by (auto; try reflexivity; discriminate). repeat look1 meta_fields. dec1.
  rewrite d_slice_enc by (intros x; apply dec_enc_ptr; auto using dec_enc_citation; discriminate). cbn [rbind].
  rewrite d_slice_enc by (intros x; apply dec_enc_ptr; auto using dec_enc_user; discriminate). cbn [rbind]. dec1.
  rewrite !d_slice_enc by auto. cbn [rbind].
  rewrite d_ptr_obj by (auto using dec_enc_license; discriminate). cbn [rbind]. dec1.
  unfold meta_kept. now destruct (meta_extra c).
Qed.

(** ** Bare paths *)
Lemma bempty_spec : forall s, bempty s = true <-> s = [].
Proof. intros [|c s]; simpl; split; congruence. Qed.
Lemma is_nil_spec : forall A (o : option A), is_nil o = true <-> o = None.
Proof. intros A [a|]; simpl; split; congruence. Qed.
Lemma is_null_spec : forall d, is_null d = true <-> d = JNull.
Proof. intros d; destruct d; simpl; split; congruence. Qed.
Ltac blank := rewrite ?andb_true_iff, ?bempty_spec, ?is_nil_spec, ?is_null_spec, ?Z.eqb_eq, ?negb_true_iff.
Lemma commit_blank_spec : forall c, commit_is_empty c = true <-> commit_blank c.
Proof.
  intros [a m p q s t ti r]. unfold commit_is_empty, commit_blank; simpl. blank. split.
  - intros H; decompose [and] H; subst; reflexivity.
  - intros H; injection H; intros; subst; tauto.
Qed.
Lemma stats_blank_spec : forall c, stats_is_empty c = true <-> stats_blank c.
Proof.
  intros [p q s]. unfold stats_is_empty, stats_blank; simpl. blank. split.
  - intros H; subst; reflexivity.
  - intros H; injection H; intros; subst; tauto.
Qed.
Lemma sc_blank_spec : forall c, sc_is_empty c = true <-> sc_blank c.
Proof.
  intros [f p q sf rf s t r]. unfold sc_is_empty, sc_blank; simpl. blank. split.
  - intros H; decompose [and] H; subst; reflexivity.
  - intros H; injection H; intros; subst; tauto.
Qed.
Lemma transform_blank_spec : forall c, transform_is_empty c = true <-> transform_blank c.
Proof.
  intros [co p q re sf sp tx se st sy sv ss]. unfold transform_is_empty, transform_blank; simpl. blank. split.
  - intros H; decompose [and] H; subst; reflexivity.
  - intros H; injection H; intros; subst; tauto.
Qed.
Lemma structure_blank_spec : forall c, bempty (st_encoding c) && is_nil (st_schema c) = true <-> structure_blank c.
Proof. intros c. unfold structure_blank. blank. tauto. Qed.
Lemma meta_blank_spec : forall c, meta_is_empty c = true <-> meta_blank c.
Proof.
  intros [mm au ac ci co de dn ho id ke la li pa q re ti th ve]. unfold meta_is_empty, meta_blank; simpl. blank. split.
  - intros H; decompose [and] H; subst; reflexivity.
  - intros H; injection H; intros; subst; tauto.
Qed.
Lemma dataset_blank_spec : forall c, dataset_is_empty c = true <-> dataset_blank c.
Proof.
  intros [bf bo bb bp cm id md na pa pe pr pf rm nv q st sa tf vz]. unfold dataset_is_empty, dataset_blank; simpl. blank. split.
  - intros H; decompose [and] H; subst; reflexivity.
  - intros H; injection H; intros; subst; tauto.
Qed.
Lemma bare_spec : forall p b (B : Prop), (b = true <-> B) -> (negb (bempty p) && b = true <-> p <> [] /\ B).
Proof. intros p b B H. rewrite andb_true_iff, negb_true_iff, H. destruct p; simpl; intuition congruence. Qed.
