(** Previews. *)
From Coq Require Import ZArith Lia.
From Verif Require Import Base M_Decimal M_Utf8 M_Sink M_Json M_JsonWrite M_Unmarshal M_Bufio M_Stream S_Stream L_Stream S_Utf8 S_JsonText S_JsonBack S_NDJson
  L_JsonMarshal L_NDJson L_UnmarshalInv M_Validate S_Validate L_ValidateBatch M_Tee S_Tee L_Tee S_Preview.
From Verif Require M_Preview.
Notation length := List.length.

Section Writing.
  Variables F : Type.
  Variable fmt_float : F -> option bytes.
  Variable parse_float : bytes -> option F.
  Variable depth : nat.
  Notation holds := (holds F fmt_float).
  Notation writable := (writable F fmt_float).
  Notation wr := (json_write_entry F fmt_float).
  Notation entry := (entry F).
  (** A writer whose destination has the text of [b] up to the closing bracket. *)
  Definition opened (obj : bool) (b : list entry) (w : jwriter) : Prop :=
    jw_obj w = obj /\ jw_indent w = [] /\ k_plan (jw_sink w) = [] /\ exists items, Forall2 (item F fmt_float obj) b items /\
    (jw_rows w = O /\ items = [] /\ k_out (jw_sink w) = [] \/
     jw_rows w <> O /\ k_out (jw_sink w) = (if obj then 123%N else 91%N) :: match items with [] => [] | i :: r => i ++ flat_map (cons 44%N) r end).
  Lemma holds_opened : forall obj b w, holds obj b w -> opened obj b w.
  Proof.
    intros obj b w [H1 [H2 [H3 [H4 [H5 [H6 [items [H7 H8]]]]]]]]. repeat split; try assumption. exists items. split; [exact H7|].
    destruct H7; [left; auto|right]. rewrite H3, H8. split; [discriminate|reflexivity].
  Qed.
  Lemma refuse_step : forall obj b w e er w', holds obj b w -> wr w e = (Some er, w') -> opened obj b w'.
  Proof.
    intros obj b [o ind rows keys [out plan]] e er w' [H1 [H2 [H3 [H4 [H5 [H6 [items [H7 H8]]]]]]]] Hw.
    cbn [jw_obj jw_indent jw_rows jw_keys jw_sink k_out k_plan] in *. subst o ind rows plan out.
    unfold json_write_entry in Hw. cbn [jw_rows jw_sink jw_obj jw_indent jw_keys pretty] in Hw.
    destruct b as [|x b].
    - inversion H7; subst. cbn [length Nat.eqb content app] in Hw. unfold sink_write in Hw at 1. cbn [k_plan k_out app] in Hw.
      destruct (val_bytes _ _ _ _) as [[data|e0] keys'].
      + unfold sink_write in Hw. cbn [k_plan k_out] in Hw. discriminate.
      + inversion Hw; subst. repeat split. exists []. split; [constructor|]. right. split; [discriminate|]. cbn. reflexivity.
    - cbn [length Nat.eqb] in Hw. destruct (val_bytes _ _ _ _) as [[data|e0] keys'].
      + unfold sink_write in Hw. cbn [k_plan k_out] in Hw. discriminate.
      + inversion Hw; subst. repeat split. exists items. split; [exact H7|]. right. split; [discriminate|]. cbn [jw_sink k_out].
        destruct items; [inversion H7|reflexivity].
  Qed.
  (** Writing as long as it goes. *)
  Lemma accepts_all : forall obj es b w, holds obj b w -> writable obj (b ++ es) -> exists w', accepts wr w es w' /\ holds obj (b ++ es) w'.
  Proof.
    intros obj. induction es as [|e es IH]; intros b w Hw Hwr.
    - exists w. rewrite app_nil_r. split; [constructor|exact Hw].
    - replace (b ++ e :: es) with ((b ++ [e]) ++ es) in * by (rewrite <- app_assoc; reflexivity).
      pose proof (write_step F fmt_float parse_float obj b w e Hw) as X. destruct (wr w e) as [[er|] w1] eqn:E.
      + destruct (X (writable_front F fmt_float obj _ _ Hwr)).
      + destruct (IH _ _ X Hwr) as [w' [A B]]. exists w'. split; [econstructor; eassumption|exact B].
  Qed.
  (** Closing. *)
  Hypothesis floats : strict_format F fmt_float parse_float.
  Lemma close_doc : forall obj b w doc, opened obj b w -> batch_doc F parse_float obj b doc ->
    (exists d, depth = S d /\ Forall (fun e => deep F d (e_val e)) b) ->
    exists w', json_close None w = (None, w') /\ unmarshal F parse_float depth (k_out (jw_sink w')) = Ok doc.
  Proof.
    intros obj b [o ind rows keys [out plan]] doc [H1 [H2 [H3 [items [H4 H5]]]]] Hd [d [Ed Hdeep]].
    cbn [jw_obj jw_indent jw_rows jw_keys jw_sink k_out k_plan] in *. subst o ind plan.
    assert (EMPTY : b = [] -> unmarshal F parse_float depth ((if obj then 123%N else 91%N) :: [if obj then 125%N else 93%N]) = Ok doc).
    { intros ->. inversion Hd as [? vs X|? kvs X]; subst; inversion X; subst; apply unmarshal_exact.
      - exists [], [91%N; 93%N], []. assert (B0 : blank []) by constructor. repeat (split; [exact B0|]). split; [exact (st_arr0 F parse_float d [] B0)|reflexivity].
      - exists [], [123%N; 125%N], []. assert (B0 : blank []) by constructor. repeat (split; [exact B0|]). split; [exact (st_obj0 F parse_float d [] B0)|reflexivity]. }
    destruct b as [|x b].
    - inversion H4; subst. destruct H5 as [[-> [_ ->]]|[H5 ->]].
      + destruct obj; eexists; (split; [reflexivity|exact (EMPTY eq_refl)]).
      + unfold json_close. cbn [jw_rows jw_sink jw_obj pretty jw_indent]. destruct rows; [congruence|]. cbn [Nat.eqb sink_write k_plan k_out app].
        eexists. split; [reflexivity|]. exact (EMPTY eq_refl).
    - destruct H5 as [[_ [-> _]]|[H5 ->]]; [inversion H4|].
      unfold json_close. cbn [jw_rows jw_sink jw_obj pretty jw_indent]. destruct rows; [congruence|]. cbn [Nat.eqb sink_write k_plan k_out].
      eexists. split; [reflexivity|]. cbn [jw_sink k_out].
      assert (EC : content obj items = (if obj then 123%N else 91%N) :: match items with [] => [] | i :: r => i ++ flat_map (cons 44%N) r end)
        by (destruct items; [inversion H4|reflexivity]).
      rewrite <- EC. apply (items_doc F fmt_float parse_float depth floats obj (x :: b) items doc H4 ltac:(discriminate) Hd). exists d. auto.
  Qed.
End Writing.

Section Reading.
  Variables F St : Type.
  Variable step : St -> prog (res (entry F) * St).
  Notation read_entry := (M_Preview.read_entry F St step).
  (** Reading through a tee is reading. *)
  Lemma tee_step : forall s f b, exists x, read_entry (tee_read file_read) (s, (f, b)) =
      (fst (read_entry file_read (s, f)), (fst (snd (read_entry file_read (s, f))), (snd (snd (read_entry file_read (s, f))), b ++ x))) /\
    (forall d e, delivers file_read f d e -> exists d', d = x ++ d' /\ delivers file_read (snd (snd (read_entry file_read (s, f)))) d' e).
  Proof.
    intros s f b. unfold M_Preview.read_entry. cbn [fst snd]. destruct (run_tee _ file_read _ (step s) f b) as [x [E H]]. exists x. rewrite E.
    destruct (run file_read (step s) f) as [[y s'] f']. cbn [fst snd] in *. auto.
  Qed.
  (** The tee holds what was read, and the rest is still to come. *)
  Definition keeps (d : bytes) (e : err) (t : file * bytes) : Prop := exists d', d = snd t ++ d' /\ delivers file_read (fst t) d' e.
  Lemma keeps_step : forall d e s, keeps d e (snd s) -> keeps d e (snd (snd (read_entry (tee_read file_read) s))).
  Proof.
    intros d e [s [f b]] [d' [-> H]]. cbn [fst snd] in *. destruct (tee_step s f b) as [x [-> X]]. cbn [fst snd]. destruct (X _ _ H) as [d2 [-> H2]].
    exists d2. cbn [fst snd]. rewrite <- app_assoc. auto.
  Qed.
  Lemma keeps_skip : forall d e n s o s' m, keeps d e (snd s) -> paged_skip (read_entry (tee_read file_read)) n s = (o, s', m) -> keeps d e (snd s').
  Proof.
    intros d e. induction n as [|n IH]; intros s o s' m H E; cbn [paged_skip] in E; [inversion E; subst; exact H|].
    pose proof (keeps_step d e s H) as K. destruct (read_entry (tee_read file_read) s) as [[x|er| |] s1]; cbn [fst snd] in K; try (inversion E; subst; exact K).
    eapply IH; eassumption.
  Qed.
  Lemma keeps_paged : forall d e p, keeps d e (snd (pg_r p)) -> keeps d e (snd (pg_r (snd (paged_read (read_entry (tee_read file_read)) p)))).
  Proof.
    intros d e [s lim off] H. cbn [pg_r] in H. unfold paged_read. cbn [pg_r pg_limit pg_offset].
    destruct (paged_skip _ _ s) as [[o s'] m] eqn:E. pose proof (keeps_skip d e _ _ _ _ _ H E) as K.
    destruct o; [exact K|]. destruct (Z.eqb lim 0); [exact K|]. pose proof (keeps_step d e s' K) as K2.
    destruct (read_entry (tee_read file_read) s') as [y s2]. exact K2.
  Qed.
  Lemma keeps_copy : forall W (wr : W -> entry F -> option err * W) d e fuel p w, keeps d e (snd (pg_r p)) ->
    keeps d e (snd (pg_r (snd (fst (copy fuel (paged_read (read_entry (tee_read file_read))) wr p w))))).
  Proof.
    intros W wr d e. induction fuel as [|fuel IH]; intros p w H; cbn [copy]; [exact H|].
    pose proof (keeps_paged d e p H) as K. destruct (paged_read _ p) as [[x|er| |] p']; cbn [fst snd] in K; try exact K.
    - destruct (wr w x) as [[er|] w1]; [exact K|]. apply IH. exact K.
    - destruct er; exact K.
  Qed.
  Lemma tee_reads : forall s0 es s1, reads (read_entry file_read) s0 es s1 -> forall b, exists b', reads (read_entry (tee_read file_read)) (fst s0, (snd s0, b)) es (fst s1, (snd s1, b')).
  Proof.
    induction 1 as [s|s x s1 es s' H Hr IH]; intros b.
    - exists b. constructor.
    - destruct s as [s f]. destruct (tee_step s f b) as [y [E _]]. rewrite H in E. cbn [fst snd] in E. destruct (IH (b ++ y)) as [b' Hb]. exists b'. econstructor; eassumption.
  Qed.
End Reading.
