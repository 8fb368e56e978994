(** Documents through text: every document that has a text has the one that is written, and reading it gives the
    document again. *)
From Coq Require Import ZArith Lia ZifyN ZifyBool.
From Verif Require Import Base M_Decimal L_Decimal M_Utf8 S_Utf8 L_Utf8 M_Json S_JsonText S_JsonBack M_Unmarshal M_JsonWrite S_NDJson S_Hash L_JsonRead L_JsonMarshal L_Unmarshal L_UnmarshalInv L_NDJson.
From Verif Require Import M_Time S_Signing L_Time M_Doc M_Components L_Components M_Encode S_Encode M_DocText S_DocText L_DocParse L_DocTime.

(** Base64. *)
Lemma sextet_read : forall n c, sextet n c -> sextet_of c = Some n /\ c <> 10%N /\ c <> 13%N /\ c <> 61%N /\ (n < 64)%N.
Proof.
  intros n c H. unfold sextet in H.
  assert (L : (N.to_nat n < 64)%nat) by (apply (nth_error_Some alphabet); congruence).
  assert (A : forallb (fun k => match nth_error alphabet k with
                                | Some c => match sextet_of c with Some m => N.eqb m (N.of_nat k) | None => false end && negb (N.eqb c 10) && negb (N.eqb c 13) && negb (N.eqb c 61)
                                | None => false
                                end) (seq 0 64) = true) by (vm_compute; reflexivity).
  rewrite forallb_forall in A. specialize (A (N.to_nat n) ltac:(apply in_seq; lia)). rewrite H in A.
  destruct (sextet_of c) as [m|]; [|discriminate]. rewrite !andb_true_iff, !negb_true_iff, !N.eqb_neq, N.eqb_eq in A. split; [f_equal; lia|]. lia.
Qed.
Lemma b64_plain : forall s t, base64 s t -> filter (fun c => negb (N.eqb c 10 || N.eqb c 13)) t = t.
Proof.
  assert (K : forall n c t, sextet n c -> filter (fun c => negb (N.eqb c 10 || N.eqb c 13)) (c :: t) = c :: filter (fun c => negb (N.eqb c 10 || N.eqb c 13)) t).
  { intros n c t H. apply sextet_read in H. cbn [filter]. rewrite (proj2 (N.eqb_neq c 10)), (proj2 (N.eqb_neq c 13)) by tauto. reflexivity. }
  induction 1; repeat (erewrite K by eassumption); [reflexivity|reflexivity|reflexivity|]. now rewrite IHbase64.
Qed.
Lemma b64_read : forall s t, base64 s t -> b64_decode t = Some s.
Proof.
  intros s t H. unfold b64_decode. rewrite (b64_plain s t H).
  induction H as [|a w x cw cx Hw Hx Ha E|a b w x y cw cx cy Hw Hx Hy Hab E|a b c w x y z cw cx cy cz s t Hw Hx Hy Hz Habc E Hs IH]; [reflexivity| | |];
    repeat match goal with H : sextet _ _ |- _ => apply sextet_read in H; destruct H as (? & ? & ? & ? & ?) end; cbn [b64_groups];
    repeat match goal with H : sextet_of _ = Some _ |- _ => rewrite H; clear H end.
  - cbn [N.eqb Pos.eqb andb is_end]. do 2 f_equal. lia.
  - rewrite (proj2 (N.eqb_neq cy 61)) by assumption. cbn [N.eqb Pos.eqb andb is_end]. do 2 f_equal; [lia|f_equal; lia].
  - rewrite (proj2 (N.eqb_neq cy 61)), (proj2 (N.eqb_neq cz 61)) by assumption. cbn [andb]. rewrite IH. do 2 f_equal; [lia|f_equal; [lia|f_equal; lia]].
Qed.

(** The text of a time is plain. *)
Definition plain_char (c : N) : Prop := (32 <= c < 128)%N /\ c <> 34%N /\ c <> 92%N.
Lemma plain_schars : forall t, Forall plain_char t -> schars t t.
Proof. induction 1 as [|c t [H1 [H2 H3]] A IH]; [constructor|]. apply schars_ascii; auto. Qed.
Lemma digits_plain : forall t, digits t -> Forall plain_char t.
Proof. intros t H. eapply Forall_impl; [|exact H]. intros c Hc. cbv beta in Hc. unfold plain_char. lia. Qed.
Lemma two_digits_plain : forall n, (0 <= n < 100)%Z -> Forall plain_char (two_digits n).
Proof.
  intros n H. apply digits_plain. unfold two_digits. pose proof (Z.div_mod n 10 ltac:(lia)). pose proof (Z.mod_pos_bound n 10 ltac:(lia)).
  repeat constructor; lia.
Qed.
Lemma time_text_plain : forall t f zt s, time_text t f zt s -> Forall plain_char s.
Proof.
  intros t f zt s (day & y & m & d & h & i & sec & ns & z & Hd & (Hy & Hh & Hi & Hs) & F & Z0 & _ & ->).
  apply date_iff in Hd. destruct Hd as [[Hm Hdd] _]. pose proof (days_in_month_le y m).
  pose proof (Z.div_mod y 100 ltac:(lia)). pose proof (Z.mod_pos_bound y 100 ltac:(lia)).
  assert (PB : forall s, forallb (fun c => ((32 <=? c) && (c <? 128) && negb (c =? 34) && negb (c =? 92))%N) s = true -> Forall plain_char s).
  { intros u A. rewrite forallb_forall in A. apply Forall_forall. intros c Hc. apply A in Hc. unfold plain_char. lia. }
  unfold four_digits. rewrite !Forall_app. repeat split; try (apply two_digits_plain; lia); try (apply PB; reflexivity).
  - destruct F as [[-> _]|[ds [-> [_ [D _]]]]]; [constructor|]. constructor; [unfold plain_char; lia|]. now apply digits_plain.
  - destruct Z0 as [[-> _]|[hh [mm [Hz [[-> _]|[-> _]]]]]]; [apply PB; reflexivity| |]; rewrite !Forall_app; repeat split; try (apply two_digits_plain; lia); apply PB; reflexivity.
Qed.

(** Writing. *)
Lemma every_arr : forall P K l, every P K (JArr l) <-> P (JArr l) /\ Forall (every P K) l.
Proof.
  intros P K l. cbn [every]. split; intros [H1 H2]; (split; [exact H1|]); clear H1.
  - induction l; [constructor|]. cbn in H2. constructor; tauto.
  - induction H2; [exact I|]. cbn. tauto.
Qed.
Lemma every_obj : forall P K o, every P K (JObj o) <-> P (JObj o) /\ Forall (fun kv => K (fst kv) /\ every P K (snd kv)) o.
Proof.
  intros P K l. cbn [every]. split; intros [H1 H2]; (split; [exact H1|]); clear H1.
  - induction l; [constructor|]. cbn in H2. constructor; tauto.
  - induction H2; [exact I|]. cbn. tauto.
Qed.
Lemma height_arr : forall l n, (height (JArr l) <= n)%nat -> exists k, n = S k /\ Forall (fun d => (height d <= k)%nat) l.
Proof.
  intros l n H. cbn [height] in H. destruct n as [|k]; [lia|]. exists k. split; [reflexivity|]. apply le_S_n in H.
  induction l as [|x l IH]; [constructor|]. cbn in H. constructor; [lia|apply IH; lia].
Qed.
Lemma height_obj : forall o n, (height (JObj o) <= n)%nat -> exists k, n = S k /\ Forall (fun kv => (height (snd kv) <= k)%nat) o.
Proof.
  intros l n H. cbn [height] in H. destruct n as [|k]; [lia|]. exists k. split; [reflexivity|]. apply le_S_n in H.
  induction l as [|x l IH]; [constructor|]. cbn in H. constructor; [lia|apply IH; lia].
Qed.
Local Opaque quote.
Lemma blank_nil : blank [].
Proof. constructor. Qed.
Lemma text_written : forall d n, writable d -> (height d <= n)%nat -> exists r, spelled d r /\ dtext n r (doc_text d).
Proof.
  induction d as [|b|z|l|s|t|b|l IH|o IH] using jdoc_ind2; intros n W H; cbn [doc_text].
  - exists JNull. split; constructor.
  - exists (JBool b). split; [constructor|]. destruct b; constructor.
  - exists (JReal (itoa z)). split; constructor. apply itoa_strict.
  - exists (JReal l). split; constructor. exact (proj1 W).
  - destruct (cleaned_total s) as [s' C]. exists (JStr s'). split; [now constructor|]. destruct (quote_schars s s' C) as [t [-> T]]. now constructor.
  - pose proof (time_written t (proj1 W)) as T. exists (JStr (rfc3339_nano t)). split; [now constructor|]. unfold in_quotes. constructor.
    destruct T as [f [T _]]. apply plain_schars. eapply time_text_plain; exact T.
  - pose proof (base64_total b (proj1 W)) as T. exists (JStr (b64 b)). split; [now constructor|]. unfold in_quotes. constructor. eapply base64_schars; exact T.
  - apply every_arr in W. destruct W as [_ W]. destruct (height_arr _ _ H) as [k [-> Hk]]. clear H.
    assert (X : exists l', Forall2 spelled l l' /\ Forall2 (fun r d => dtext k r (doc_text d)) l' l).
    { induction l as [|x l IHl]; [exists []; split; constructor|]. inversion IH; subst. inversion W; subst. inversion Hk; subst.
      destruct IHl as [l' [A B]]; auto. destruct (H1 k) as [r [R1 R2]]; auto. exists (r :: l'). split; constructor; auto. }
    destruct X as [l' [A B]]. exists (JArr l'). split; [now constructor|]. clear - B.
    destruct B as [|r d l' l R B]; [apply (dt_arr0 k []); constructor|]. cbn [map commas].
    assert (Y : dtail k l' (flat_map (fun y => 44%N :: y) (map doc_text l))).
    { induction B as [|r' d' l' l R' B IHB]; [constructor; constructor|]. cbn [map flat_map]. cbn [app].
      change (44%N :: doc_text d' ++ flat_map (fun y => 44%N :: y) (map doc_text l)) with ([] ++ 44%N :: [] ++ doc_text d' ++ flat_map (fun y => 44%N :: y) (map doc_text l)).
      constructor; auto using blank_nil. }
    rewrite <- app_assoc. apply (dt_arr k r l' [] (doc_text d)); auto using blank_nil.
  - apply every_obj in W. destruct W as [_ W]. destruct (height_obj _ _ H) as [k [-> Hk]]. clear H.
    assert (X : exists o', Forall2 (fun kv kv' => cleaned (fst kv) (fst kv') /\ spelled (snd kv) (snd kv')) o o' /\
                           Forall2 (fun kv' kv => dpair k kv' (quote (fst kv) ++ 58%N :: doc_text (snd kv))) o' o).
    { induction o as [|[q x] o IHl]; [exists []; split; constructor|]. inversion IH; subst. inversion W; subst. inversion Hk; subst. cbn [fst snd] in *.
      destruct IHl as [l' [A B]]; auto. destruct (H1 k) as [r [R1 R2]]; [tauto|assumption|]. destruct (cleaned_total q) as [q' C].
      exists ((q', r) :: l'). split; constructor; auto. cbn [fst snd]. destruct (quote_schars q q' C) as [t [-> T]].
      cbn [app]. rewrite <- app_assoc. cbn [app]. apply (dpr_intro k q' t r (doc_text x) [] []); auto using blank_nil. }
    destruct X as [o' [A B]]. exists (JObj o'). split; [now constructor|]. clear - B.
    destruct B as [|r d l' l R B]; [apply (dt_obj0 k []); constructor|]. cbn [map commas].
    assert (Y : dptail k l' (flat_map (fun y => 44%N :: y) (map (fun kv => quote (fst kv) ++ 58%N :: doc_text (snd kv)) l))).
    { induction B as [|r' d' l' l R' B IHB]; [constructor; constructor|]. cbn [map flat_map]. cbn [app].
      match goal with |- dptail _ _ (44%N :: ?a ++ ?b) => change (44%N :: a ++ b) with ([] ++ 44%N :: [] ++ a ++ b) end.
      constructor; auto using blank_nil. }
    match goal with |- dtext _ _ (123%N :: (?a ++ ?b) ++ [125%N]) => replace ((a ++ b) ++ [125%N]) with ([] ++ a ++ b ++ [125%N]) by (exact (app_assoc a b [125%N])) end.
    apply dt_obj; auto using blank_nil.
Qed.
Theorem written_text_of : forall d n, writable d -> (height d <= n)%nat -> text_of n d (doc_text d).
Proof.
  intros d n W H. destruct (text_written d n W H) as [r [R T]]. exists r. split; [assumption|]. exists [], (doc_text d), [].
  split; [constructor|]. split; [constructor|]. split; [assumption|]. now rewrite app_nil_r.
Qed.

(** Reading. *)
Lemma well_formed_same : forall s s', well_formed s -> cleaned s s' -> s' = s.
Proof. intros s s' W C. symmetry. exact (cleaned_fun _ _ (cleaned_well_formed s W) _ C). Qed.
Section Read.
  Variable renum : bytes -> jdoc.
  Lemma dynamic_back : forall d r, legible d -> dynamic renum d -> spelled d r -> as_dynamic renum r = d.
  Proof.
    induction d as [|b|z|l|s|t|b|l IH|o IH] using jdoc_ind2; intros r L D S; inversion S; subst; cbn [as_dynamic].
    - reflexivity.
    - reflexivity.
    - exact (proj1 D).
    - exact (proj1 D).
    - f_equal. apply well_formed_same; [exact (proj1 L)|assumption].
    - destruct (proj1 D).
    - destruct (proj1 D).
    - f_equal. apply every_arr in L, D. destruct L as [_ L], D as [_ D]. clear S.
      induction H0 as [|x x' l l' X A IHA]; [reflexivity|]. inversion IH; subst. inversion L; subst. inversion D; subst. cbn [map]. f_equal; auto.
    - f_equal. apply every_obj in L, D. destruct L as [_ L], D as [_ D]. clear S.
      induction H0 as [|[k x] [k' x'] l l' [C X] A IHA]; [reflexivity|]. inversion IH; subst. inversion L; subst. inversion D; subst. cbn [fst snd map] in *. f_equal; auto.
      f_equal; [|apply H1; tauto]. apply well_formed_same; tauto.
  Qed.
  Lemma number_back : forall z r, (- 2 ^ 63 <= z < 2 ^ 63)%Z -> spelled (JInt z) r -> as_number renum r = JInt z.
  Proof.
    intros z r B S. inversion S; subst. cbn [as_number]. rewrite parse_int64_itoa; [reflexivity|]. unfold in_int64, min_int64, max_int64.
    change (2 ^ 63)%Z with 9223372036854775808%Z in B. lia.
  Qed.
  Lemma time_back : forall t r, spelled (JTime t) r -> as_time renum r = JTime t.
  Proof. intros t r S. inversion S as [| | | | |? s [f [T _]]| | |]; subst. cbn [as_time]. rewrite (proj2 (time_iff s t)); [reflexivity|]. eauto. Qed.
  Lemma bytes_back : forall b r, spelled (JB64 b) r -> as_bytes renum r = JB64 b.
  Proof. intros b r S. inversion S; subst. cbn [as_bytes]. erewrite b64_read; [reflexivity|eassumption]. Qed.

  (** Members of an object, each by its name. *)
  Definition comes_right (names : list bytes) (f : bytes -> jdoc -> jdoc) (k : bytes) (v : jdoc) : Prop :=
    legible v -> forall r, spelled v r -> match route names k with Some n => f n r | None => as_dynamic renum r end = v.
  Lemma members_back : forall names f o r, legible (JObj o) -> Forall (fun kv => comes_right names f (fst kv) (snd kv)) o ->
    spelled (JObj o) r -> on_members renum names f r = JObj o.
  Proof.
    intros names f o r L R S. inversion S as [| | | | | | | |? o' A]; subst. cbn [on_members]. f_equal. apply every_obj in L. destruct L as [_ L]. clear S.
    induction A as [|[k x] [k' x'] l l' [C X] A IHA]; [reflexivity|]. inversion R; subst. inversion L; subst. cbn [map fst snd] in *. f_equal; [|apply IHA; assumption].
    assert (k' = k) by (apply well_formed_same; tauto). subst k'. f_equal. apply H1; tauto.
  Qed.
  Lemma members_all : forall (P : bytes -> jdoc -> Prop) l, Forall (fun ko => match snd ko with Some v => P (fst ko) v | None => True end) l ->
    Forall (fun kv => P (fst kv) (snd kv)) (members l).
  Proof. intros P l H. induction H as [|[k [v|]] l Hx H IH]; cbn [members]; auto. Qed.
  Lemma dynamic_right : forall names f k v, (match route names k with Some n => f n | None => as_dynamic renum end) = as_dynamic renum ->
    dynamic renum v -> comes_right names f k v.
  Proof.
    intros names f k v E D L r S. replace (match route names k with Some n => f n r | None => as_dynamic renum r end)
      with ((match route names k with Some n => f n | None => as_dynamic renum end) r) by (destruct (route names k); reflexivity).
    rewrite E. now apply dynamic_back.
  Qed.

  Lemma dyn_str : forall s, dynamic renum (JStr s).
  Proof. intros s. split; exact I. Qed.
  Lemma dyn_obj : forall o, Forall (fun kv => dynamic renum (snd kv)) o -> dynamic renum (JObj o).
  Proof. intros o H. apply every_obj. split; [exact I|]. eapply Forall_impl; [|exact H]. cbn. tauto. Qed.
  Lemma dyn_arr : forall l, Forall (dynamic renum) l -> dynamic renum (JArr l).
  Proof. intros o H. apply every_arr. split; [exact I|exact H]. Qed.
  Definition dyn_opt (o : option jdoc) : Prop := match o with Some d => dynamic renum d | None => True end.
  Lemma dyn_members : forall l, Forall (fun ko => dyn_opt (snd ko)) l -> dynamic renum (JObj (members l)).
  Proof. intros l H. apply dyn_obj. apply (members_all (fun _ v => dynamic renum v)). exact H. Qed.
  Lemma dyn_oe_str : forall s, dyn_opt (oe_str s).
  Proof. intros [|c s]; [exact I|apply dyn_str]. Qed.
  Lemma dyn_oe_dyn : forall d, dynamic renum d -> dyn_opt (oe_dyn d).
  Proof. intros d H. destruct d; try exact I; exact H. Qed.
  Lemma dyn_oe_map : forall m, Forall (dynamic renum) (values m) -> dyn_opt (oe_map m).
  Proof.
    intros [[|e m]|] H; try exact I. cbn [oe_map dyn_opt]. apply dyn_obj. cbn [values] in H. revert H. generalize (e :: m). intros l H.
    induction l as [|x l IH]; [constructor|]. inversion H; subst. constructor; auto.
  Qed.
  Lemma dyn_ptr : forall A (enc : A -> jdoc) o, (forall a, o = Some a -> dynamic renum (enc a)) -> dynamic renum (enc_ptr enc o).
  Proof. intros A enc [a|] H; [now apply H|split; exact I]. Qed.
  Lemma dyn_oe_mapv : forall A (enc : A -> jdoc) m, (forall a, dynamic renum (enc a)) -> dyn_opt (oe_mapv enc m).
  Proof.
    intros A enc m H. unfold oe_mapv. apply dyn_oe_map. destruct m as [m|]; [|constructor]. cbn [option_map values]. induction m as [|x m IH]; [constructor|].
    cbn [map]. constructor; [apply H|exact IH].
  Qed.
  Lemma dyn_oe_slice : forall A (enc : A -> jdoc) l, (forall a, In a (match l with Some l => l | None => [] end) -> dynamic renum (enc a)) -> dyn_opt (oe_slice enc l).
  Proof. intros A enc [[|x l]|] H; try exact I. cbn [oe_slice dyn_opt]. apply dyn_arr. apply Forall_forall. intros d Hd. apply in_map_iff in Hd. destruct Hd as [a [<- Ha]]. now apply H. Qed.
  Lemma dyn_user : forall u, dynamic renum (enc_user u).
  Proof. intros u. apply dyn_members. repeat (apply Forall_cons; [apply dyn_oe_str|]). constructor. Qed.
  Lemma dyn_license : forall u, dynamic renum (enc_license u).
  Proof. intros u. apply dyn_members. repeat (apply Forall_cons; [apply dyn_oe_str|]). constructor. Qed.
  Lemma dyn_citation : forall u, dynamic renum (enc_citation u).
  Proof. intros u. apply dyn_members. repeat (apply Forall_cons; [apply dyn_oe_str|]). constructor. Qed.
  Lemma dyn_resource : forall u, dynamic renum (enc_resource u).
  Proof. intros u. apply dyn_obj. constructor; [apply dyn_str|constructor]. Qed.
  Lemma dyn_step : forall s, dynamic renum (sp_script s) -> dynamic renum (enc_step s).
  Proof.
    intros s H. apply dyn_members. repeat apply Forall_cons; try apply dyn_oe_str; try apply dyn_str; try exact H. constructor.
  Qed.
End Read.
