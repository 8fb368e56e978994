(** Values that were read are settled: reading their text again gives the same. *)
From Coq Require Import ZArith Lia.
From Verif Require Import Base M_Decimal L_Decimal M_Utf8 S_Utf8 L_Utf8 S_JsonText S_JsonBack M_Unmarshal S_NDJson L_Unmarshal L_UnmarshalInv L_NDJson P_NDJson.

Lemma u_escape_range : forall r u, u_escape r u -> (r < 65536)%N.
Proof.
  intros r u (a & b & c & d & va & vb & vc & vd & _ & Ha & Hb & Hc & Hd & ->). unfold hexval in *. lia.
Qed.
Lemma schars_well_formed : forall s t, schars s t -> well_formed s.
Proof.
  assert (R : forall r, scalar r -> well_formed (encode_rune r)) by (intros r H; exists [r]; cbn; rewrite app_nil_r; auto).
  induction 1 as [|r s t Hr _ _ _ _ IH|c s t _ _ IH|e c s t He _ IH|r u s t Hu Hh Hl _ IH|r1 r2 u1 u2 s t H1 Hh H2 Hl _ IH|r u s t _ _ _ _ IH].
  - exists []. split; [constructor|reflexivity].
  - apply well_formed_app; auto.
  - apply well_formed_app; [apply R; unfold scalar; lia|assumption].
  - change (c :: s) with ([c] ++ s). apply well_formed_app; [|assumption]. replace [c] with (encode_rune c).
    + apply R. unfold scalar, short_escape in *. lia.
    + unfold short_escape in He. unfold encode_rune. replace (c <? 128)%N with true by (symmetry; apply N.ltb_lt; lia). reflexivity.
  - apply well_formed_app; [|assumption]. apply R. apply u_escape_range in Hu. unfold scalar, high_half, low_half in *. lia.
  - apply well_formed_app; [|assumption]. apply R. unfold scalar, high_half, low_half in *. lia.
  - apply well_formed_app; [apply R; unfold scalar; lia|assumption].
Qed.

Section Settled.
  Variable F : Type.
  Variable parse_float : bytes -> option F.
  Notation gval := (gval F).
  Notation stext := (stext F parse_float).
  Lemma in_map_set : forall (k : bytes) (v : gval) m x, In x (map_set k v m) -> x = (k, v) \/ In x m.
  Proof.
    induction m as [|[k1 v1] m IH]; intros x H; cbn [map_set] in H.
    - destruct H as [<-|[]]. auto.
    - destruct (bcmp k k1); cbn [In] in H |- *; [intuition|intuition|]. destruct H as [H|H]; [auto|]. apply IH in H. intuition.
  Qed.
  Lemma fold_set_ok : forall (Q : bytes * gval -> Prop) kvs m, sorted m -> Forall Q m -> Forall Q kvs ->
    sorted (fold_left (fun m kv => map_set (fst kv) (snd kv) m) kvs m) /\ Forall Q (fold_left (fun m kv => map_set (fst kv) (snd kv) m) kvs m).
  Proof.
    intros Q. induction kvs as [|[k v] kvs IH]; intros m Hs Hm Hk; cbn [fold_left]; [auto|]. inversion Hk; subst. apply IH; [apply sorted_set; assumption| |assumption].
    apply Forall_forall. intros x Hx. apply in_map_set in Hx. rewrite Forall_forall in Hm. destruct Hx as [->|Hx]; auto.
  Qed.
  Lemma read_settled : forall d v t, stext d v t -> settled_value F v /\ deep F d v.
  Proof.
    apply (stext_mut F parse_float (fun d v _ => settled_value F v /\ deep F d v) (fun d vs _ => Forall (settled_value F) vs /\ Forall (deep F d) vs)
      (fun d kv _ => (well_formed (fst kv) /\ settled_value F (snd kv)) /\ deep F d (snd kv))
      (fun d kvs _ => Forall (fun kv => (well_formed (fst kv) /\ settled_value F (snd kv)) /\ deep F d (snd kv)) kvs)).
    - split; constructor.
    - split; constructor.
    - split; constructor.
    - split; constructor.
    - intros d s t H. split; constructor. eapply schars_well_formed. eassumption.
    - intros. split; constructor; constructor.
    - intros d v vs w t r _ _ [H1 H2] _ [H3 H4]. split; constructor; constructor; assumption.
    - intros. split; constructor; constructor.
    - intros d kv kvs w t r _ _ H1 _ H2. unfold object_of.
      destruct (fold_set_ok (fun kv => (well_formed (fst kv) /\ settled_value F (snd kv)) /\ deep F d (snd kv)) (kv :: kvs) [] I) as [S1 S2]; [constructor|constructor; assumption|].
      set (m := fold_left _ _ _) in *. split; constructor; try assumption; (eapply Forall_impl; [|exact S2]); cbn; intros x Hx; tauto.
    - intros. split; constructor.
    - intros d v vs w1 w2 t r _ _ _ [H1 H2] _ [H3 H4]. split; constructor; assumption.
    - intros d k kt v t w1 w2 Hk _ _ _ [H1 H2]. cbn [fst snd]. split; [split|]; auto. eapply schars_well_formed. eassumption.
    - constructor.
    - intros d kv kvs w1 w2 t r _ _ _ H1 _ H2. constructor; assumption.
  Qed.
End Settled.
