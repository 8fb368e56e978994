(** C41: signing bytes identify what is signed. *)
From Verif Require Import Base M_Decimal L_Decimal M_Time L_Time M_Formats M_Doc M_Components M_Signing S_Signing L_Signing.
Local Open Scope Z_scope.

(** The text that is signed: one line per non-empty covered value, in this order. *)
Theorem signing_bytes_text : forall d,
  signing_bytes d = Ok (lines_text (
    lines_for (bs "id") (ds_id d) ++ lines_for (bs "bd") (ds_body_path d) ++
    lines_for (bs "cm") (match covered_second d with None => [] | Some s => rfc3339 (s * 1000000000) end) ++
    lines_for (bs "md") (path_of md_path (ds_meta d)) ++ lines_for (bs "rm") (path_of sc_path (ds_readme d)) ++
    lines_for (bs "st") (path_of st_path (ds_structure d)) ++ lines_for (bs "tf") (path_of tf_path (ds_transform d)) ++
    lines_for (bs "sa") (path_of sa_path (ds_stats d)) ++ lines_for (bs "vz") (path_of sc_path (ds_viz d)))).
Proof. intros d. unfold signing_bytes. rewrite sig_components_lines. now rewrite strings_join_lines. Qed.
Print Assumptions signing_bytes_text.

(** Nothing but the covered values matters. *)
Theorem signing_bytes_depend_on_covered : forall a b, covered_by a = covered_by b -> signing_bytes a = signing_bytes b.
Proof. intros a b H. unfold signing_bytes. now rewrite !sig_components_lines, H. Qed.
Print Assumptions signing_bytes_depend_on_covered.

(** Among datasets whose covered values are single lines, the bytes determine every covered value. *)
Theorem signing_bytes_injective : forall a b, one_line (covered_by a) -> one_line (covered_by b) ->
  (signing_bytes a = signing_bytes b <-> covered_by a = covered_by b).
Proof.
  intros a b A B. split; [|apply signing_bytes_depend_on_covered].
  unfold signing_bytes. rewrite !sig_components_lines, !strings_join_lines. intros E.
  assert (E' : lines_text (signed_lines (covered_by a)) = lines_text (signed_lines (covered_by b))) by congruence.
  apply lines_text_inj in E'; [|apply signed_lines_ok; assumption|apply signed_lines_ok; assumption].
  now apply signed_lines_inj in E'.
Qed.
Print Assumptions signing_bytes_injective.

(** The signed time: Gregorian calendar, field by field. *)
Theorem calendar : date_of_day 0 = (1, 1, 1) /\ forall day, date_of_day (day + 1) = next_date (date_of_day day).
Proof. split; [vm_compute; reflexivity|apply date_of_next_day]. Qed.
Print Assumptions calendar.

Lemma two_digits_ok : forall n, 0 <= n < 100 -> append_int 2 n = two_digits n.
Proof.
  intros z H. assert (K : all_in (fun z => (100 <=? z) || beqb (append_int 2 z) (two_digits z)) 7 0 = true) by (vm_compute; reflexivity).
  pose proof (all_in_spec _ _ _ K z) as Q. change (2 ^ Z.of_nat 7) with 128 in Q. specialize (Q ltac:(lia)). cbv beta in Q.
  apply orb_true_iff in Q as [Q|Q]; [apply Z.leb_le in Q; lia|]. now apply beqb_eq.
Qed.
Lemma four_digits_ok : forall n, 0 <= n < 10000 -> append_int 4 n = four_digits n.
Proof.
  intros z H. unfold append_int. destruct (Z.ltb_spec z 0); [lia|].
  pose proof (Z.div_mod z 100 ltac:(lia)) as D0. pose proof (Z.mod_pos_bound z 100 ltac:(lia)) as B0.
  pose proof (Z.div_mod (z / 100) 10 ltac:(lia)) as D1. pose proof (Z.mod_pos_bound (z / 100) 10 ltac:(lia)) as B1.
  pose proof (Z.div_mod (z mod 100) 10 ltac:(lia)) as D2. pose proof (Z.mod_pos_bound (z mod 100) 10 ltac:(lia)) as B2.
  unfold four_digits, two_digits. set (a := z / 100 / 10) in *. set (b := (z / 100) mod 10) in *.
  set (c := z mod 100 / 10) in *. set (d := (z mod 100) mod 10) in *.
  assert (0 <= a < 10 /\ 0 <= c < 10) as [A C] by lia.
  apply digits_same_length.
  - unfold pad. rewrite app_length, repeat_length. pose proof (dec_length (Z.to_N z) 4 ltac:(lia)) as L.
    change (10 ^ N.of_nat 4)%N with 10000%N in L. specialize (L ltac:(lia)). cbn [app length] in *. lia.
  - apply pad_digits.
  - cbn [forallb app]. unfold is_digit. rewrite !andb_true_iff, !N.leb_le. lia.
  - unfold pad. rewrite dec_val_zeros, dec_val_dec. unfold dec_val. cbn [fold_left app]. lia.
Qed.
Theorem signed_time_text : forall day hour minute second ns y m d,
  date_of_day day = (y, m, d) -> 0 <= y <= 9999 ->
  0 <= hour < 24 -> 0 <= minute < 60 -> 0 <= second < 60 -> 0 <= ns < 1000000000 ->
  rfc3339 ((((day * 24 + hour) * 60 + minute) * 60 + second) * 1000000000 + ns) =
  four_digits y ++ bs "-" ++ two_digits m ++ bs "-" ++ two_digits d ++ bs "T" ++
  two_digits hour ++ bs ":" ++ two_digits minute ++ bs ":" ++ two_digits second ++ bs "Z".
Proof.
  intros day h mi s ns y m d E Y H M S NS.
  assert (Q : ((((day * 24 + h) * 60 + mi) * 60 + s) * 1000000000 + ns) / 1000000000 = day * 86400 + (h * 3600 + mi * 60 + s)).
  { symmetry. apply (Z.div_unique _ _ _ ns); lia. }
  assert (D : (day * 86400 + (h * 3600 + mi * 60 + s)) / 86400 = day) by (symmetry; apply (Z.div_unique _ _ _ (h * 3600 + mi * 60 + s)); lia).
  assert (R : (day * 86400 + (h * 3600 + mi * 60 + s)) mod 86400 = h * 3600 + mi * 60 + s) by (symmetry; apply (Z.mod_unique _ _ day); lia).
  assert (E' : date_of_day (((((day * 24 + h) * 60 + mi) * 60 + s) * 1000000000 + ns) / 1000000000 / 86400) = (y, m, d)) by (now rewrite Q, D).
  rewrite (rfc3339_parts _ _ _ _ E'). cbv zeta. rewrite Q, R.
  assert (X1 : (h * 3600 + mi * 60 + s) / 3600 = h) by (symmetry; apply (Z.div_unique _ _ _ (mi * 60 + s)); lia).
  assert (X2 : (h * 3600 + mi * 60 + s) / 60 = h * 60 + mi) by (symmetry; apply (Z.div_unique _ _ _ s); lia).
  assert (X3 : (h * 60 + mi) mod 60 = mi) by (symmetry; apply (Z.mod_unique _ _ h); lia).
  assert (X4 : (h * 3600 + mi * 60 + s) mod 60 = s) by (symmetry; apply (Z.mod_unique _ _ (h * 60 + mi)); lia).
  rewrite X1, X2, X3, X4. destruct (date_of_day_range _ _ _ _ E) as [B1 B2]. pose proof (days_in_month_le y m).
  rewrite four_digits_ok, !two_digits_ok by lia. reflexivity.
Qed.
Print Assumptions signed_time_text.

(** SignableBytes: needs a commit and a structure; covers the whole second of the commit time (also the zero time)
    and the checksum, and nothing else. *)
Theorem signable_bytes_result : forall d, signable_bytes d =
  match ds_commit d, ds_structure d with
  | None, _ => Err (EMsg "commit is required")
  | Some _, None => Err (EMsg "structure is required")
  | Some c, Some s => Ok (lines_text [rfc3339 (cm_timestamp c); st_checksum s])
  end.
Proof. intros d. unfold signable_bytes. destruct (ds_commit d); [|reflexivity]. destruct (ds_structure d); reflexivity. Qed.
Print Assumptions signable_bytes_result.
Theorem signable_bytes_injective : forall a b ca sa cb sb,
  ds_commit a = Some ca -> ds_structure a = Some sa -> ds_commit b = Some cb -> ds_structure b = Some sb ->
  (signable_bytes a = signable_bytes b <->
   cm_timestamp ca / 1000000000 = cm_timestamp cb / 1000000000 /\ st_checksum sa = st_checksum sb).
Proof.
  intros a b ca sa cb sb A1 A2 B1 B2. unfold signable_bytes. rewrite A1, A2, B1, B2. split.
  - intros E. assert (E' : rfc3339 (cm_timestamp ca) ++ [cLF] ++ st_checksum sa = rfc3339 (cm_timestamp cb) ++ [cLF] ++ st_checksum sb) by congruence.
    apply cut_at_lf in E' as [T C]; [|apply rfc3339_chars|apply rfc3339_chars]. split; [now apply rfc3339_inj|exact C].
  - intros [T C]. now rewrite (rfc3339_seconds _ _ T), C.
Qed.
Print Assumptions signable_bytes_injective.

(** Example: a dataset with an ID, a body and a commit of 2001-02-03T04:05:06.5Z. *)
Definition ex_ts : Z := (((730518 * 24 + 4) * 60 + 5) * 60 + 6) * 1000000000 + 500000000.
Definition ex_ds (id body : bytes) (ts : Z) : dataset :=
  mkDataset None JNull None body (Some (mkCommit None [] [] [] [] ts [] [])) id None [] [] [] [] [] None 0 [] None None None None.
Example signing_example :
  one_line (covered_by (ex_ds (bs "a") (bs "/mem/x") ex_ts)) /\
  signing_bytes (ex_ds (bs "a") (bs "/mem/x") ex_ts) =
    Ok (bs "id:a" ++ [cLF] ++ bs "bd:/mem/x" ++ [cLF] ++ bs "cm:2001-02-03T04:05:06Z") /\
  signing_bytes (ex_ds (bs "a") (bs "/mem/x") ex_ts) <> signing_bytes (ex_ds (bs "b") (bs "/mem/x") ex_ts).
Proof.
  split; [|split; vm_compute; [reflexivity|discriminate]].
  unfold one_line. repeat (constructor; [cbn; intros H; repeat (destruct H as [H|H]; [discriminate H|]); exact H|]). constructor.
Qed.

(** Without the single-line condition two datasets with different IDs and bodies share their signing bytes. *)
Theorem signing_bytes_newline_refuted : exists a b, covered_by a <> covered_by b /\ ds_id a <> ds_id b /\ ds_body_path a <> ds_body_path b /\
  signing_bytes a = signing_bytes b.
Proof.
  exists (ex_ds (bs "a" ++ [cLF] ++ bs "bd:x") [] ex_ts), (ex_ds (bs "a") (bs "x") ex_ts).
  repeat split; try (intros H; vm_compute in H; discriminate H). 
Qed.
Print Assumptions signing_bytes_newline_refuted.
(** The comments promise nanoseconds (dataset.go:177-178, 220); commits of different nanoseconds share their bytes. *)
Theorem signing_bytes_nanoseconds_refuted : exists a b, ds_commit a <> ds_commit b /\ signing_bytes a = signing_bytes b.
Proof. exists (ex_ds [] [] ex_ts), (ex_ds [] [] (ex_ts + 1)). split; [intros H; vm_compute in H; discriminate H|vm_compute; reflexivity]. Qed.
Print Assumptions signing_bytes_nanoseconds_refuted.
(** The comment promises an alpha-sorted list (dataset.go:170); the ID line comes before the body line. *)
Theorem signing_bytes_sorted_refuted : exists d ls, signing_bytes d = Ok (lines_text ls) /\
  Forall (fun l => ~ In cLF l) ls /\ ~ ascending ls.
Proof.
  exists (ex_ds (bs "a") (bs "x") 0), [bs "id:a"; bs "bd:x"]. split; [vm_compute; reflexivity|]. split.
  - repeat (constructor; [cbn; intros H; repeat (destruct H as [H|H]; [discriminate H|]); exact H|]). constructor.
  - cbn. intros [H _]. discriminate H.
Qed.
Print Assumptions signing_bytes_sorted_refuted.
