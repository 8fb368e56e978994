(** C64: rendering helpers. *)
From Coq Require Import ZArith Lia.
From Verif Require Import Base M_Decimal M_Bufio M_Stream S_Stream L_Stream M_Tee S_Tee L_Tee S_Preview M_Preview L_Preview M_Viz S_Viz.
Notation length := List.length.

(** Sizes. *)
Theorem print_sizes : forall n text, print_byte_info n = text <-> sized n text.
Proof.
  assert (UNIT : forall name u, In (name, u) units -> (0 < u)%Z) by (intros name u H; cbn in H; intuition (try (match goal with E : (_, _) = _ |- _ => inversion E; lia end))).
  assert (EX : forall n, sized n (print_byte_info n)).
  { intros n. unfold print_byte_info.
    assert (K : forall name u, In (name, u) units -> (u = 1 \/ u <= n)%Z -> (forall name' u', In (name', u') units -> u < u' -> n < u')%Z ->
      forall q, (q * u <= n < (q + 1) * u)%Z -> sized n (itoa q ++ bs " " ++ (if Z.eqb q 1 then name else name ++ bs "s"))).
    { intros name u H1 H2 H3 q H4. exists name, u, q. split; [exact H1|]. split; [exact H2|]. split; [exact H3|]. split; [exact H4|].
      destruct (Z.eqb_spec q 1) as [->|Hq]; [exists []; rewrite app_nil_r; auto|exists (bs "s"); auto]. }
    assert (Q : forall u, (0 < u <= n)%Z -> (Z.quot n u * u <= n < (Z.quot n u + 1) * u)%Z).
    { intros u Hu. rewrite Z.quot_div_nonneg by lia. pose proof (Z.mul_div_le n u ltac:(lia)). pose proof (Z.mul_succ_div_gt n u ltac:(lia)). lia. }
    unfold petabyte, terabyte, gigabyte, megabyte, kilobyte.
    assert (IN : forall (P : Z -> Prop), P 1%Z -> P (2 ^ 10)%Z -> P (2 ^ 20)%Z -> P (2 ^ 30)%Z -> P (2 ^ 40)%Z -> P (2 ^ 50)%Z -> forall name' u', In (name', u') units -> P u').
    { intros P P1 P2 P3 P4 P5 P6 name' u' H. cbn in H. destruct H as [H|[H|[H|[H|[H|[H|[]]]]]]]; inversion H; subst; assumption. }
    destruct (Z.leb_spec (2 ^ 50) n); [|destruct (Z.leb_spec (2 ^ 40) n); [|destruct (Z.leb_spec (2 ^ 30) n); [|destruct (Z.leb_spec (2 ^ 20) n); [|destruct (Z.leb_spec (2 ^ 10) n)]]]].
    - apply (K (bs "PB") (2 ^ 50)%Z); [cbn; tauto|lia|apply (IN (fun u' => 2 ^ 50 < u' -> n < u')%Z); lia|apply Q; lia].
    - apply (K (bs "TB") (2 ^ 40)%Z); [cbn; tauto|lia|apply (IN (fun u' => 2 ^ 40 < u' -> n < u')%Z); lia|apply Q; lia].
    - apply (K (bs "GB") (2 ^ 30)%Z); [cbn; tauto|lia|apply (IN (fun u' => 2 ^ 30 < u' -> n < u')%Z); lia|apply Q; lia].
    - apply (K (bs "MB") (2 ^ 20)%Z); [cbn; tauto|lia|apply (IN (fun u' => 2 ^ 20 < u' -> n < u')%Z); lia|apply Q; lia].
    - apply (K (bs "KB") (2 ^ 10)%Z); [cbn; tauto|lia|apply (IN (fun u' => 2 ^ 10 < u' -> n < u')%Z); lia|apply Q; lia].
    - apply (K (bs "byte") 1%Z); [cbn; tauto|lia|apply (IN (fun u' => 1 < u' -> n < u')%Z); lia|lia]. }
  assert (FUN : forall n a b, sized n a -> sized n b -> a = b).
  { intros n a b [n1 [u1 [q1 [I1 [L1 [M1 [Q1 [p1 [-> P1]]]]]]]]] [n2 [u2 [q2 [I2 [L2 [M2 [Q2 [p2 [-> P2]]]]]]]]].
    assert (u1 = u2). { specialize (M1 _ _ I2). specialize (M2 _ _ I1). pose proof (UNIT _ _ I1). pose proof (UNIT _ _ I2). lia. } subst u2.
    assert (n1 = n2). { clear -I1 I2. cbn in I1, I2. intuition (repeat match goal with E : (_, _) = (_, _) |- _ => inversion E; clear E; subst end; try reflexivity; lia). } subst n2.
    pose proof (UNIT _ _ I1). assert (q1 = q2) by nia. subst q2. f_equal. f_equal. f_equal. intuition congruence. }
  intros n text. split; [intros <-; apply EX|intros H; eapply FUN; [apply EX|exact H]].
Qed.
Print Assumptions print_sizes.

(** Kinds of values. *)
Theorem type_tests : forall F (v : gval F) t,
  (forall b, is_type F v t = Ok b <-> In t kinds /\ (b = true <-> kind_of v t)) /\
  ((exists e, is_type F v t = Err e) <-> ~ In t kinds).
Proof.
  intros F v t. unfold is_type.
  assert (E : forall x, beqb t x = true -> t = x) by (intros x H; apply beqb_eq; exact H).
  assert (N : forall x, beqb t x = false -> t <> x) by (intros x H ->; rewrite beqb_refl in H; discriminate).
  assert (G : forall x (P : bool), In x kinds -> (P = true <-> kind_of v x) ->
    (forall b, Ok P = Ok b <-> In x kinds /\ (b = true <-> kind_of v x)) /\ ((exists e, @Ok bool P = Err e) <-> ~ In x kinds)).
  { intros x P Hx HP. split.
    - intros b. split; [intros [= <-]; tauto|]. intros [_ H]. f_equal. destruct P, b; tauto || (symmetry; tauto) || (destruct H, HP; auto).
    - split; [intros [e H]; discriminate|tauto]. }
  destruct (beqb t (bs "string")) eqn:E1; [rewrite (E _ E1); apply G; [cbn; tauto|destruct v; split; intros H; try discriminate; try (inversion H; fail); constructor]|].
  destruct (beqb t (bs "object")) eqn:E2; [rewrite (E _ E2); apply G; [cbn; tauto|destruct v; split; intros H; try discriminate; try (inversion H; fail); constructor]|].
  destruct (beqb t (bs "array")) eqn:E3; [rewrite (E _ E3); apply G; [cbn; tauto|destruct v; split; intros H; try discriminate; try (inversion H; fail); constructor]|].
  destruct (beqb t (bs "boolean")) eqn:E4; [rewrite (E _ E4); apply G; [cbn; tauto|destruct v; split; intros H; try discriminate; try (inversion H; fail); constructor]|].
  destruct (beqb t (bs "number")) eqn:E5; [rewrite (E _ E5); apply G; [cbn; tauto|destruct v; split; intros H; try discriminate; try (inversion H; fail); constructor]|].
  assert (NI : ~ In t kinds). { intros [H|[H|[H|[H|[H|[]]]]]]; symmetry in H; revert H; apply N; assumption. }
  split; [intros b; split; [discriminate|tauto]|split; [auto|intros _; eauto]].
Qed.
Print Assumptions type_tests.

(** The loop. *)
Lemma loop_spec : forall F S (rd : S -> res (entry F) * S) s es e s', yields rd s es e s' -> forall obj m l fuel, (length es < fuel)%nat ->
  exists m', (forall k, map_get k m' = match last_value k es with Some v => Some v | None => map_get k m end) /\
  entries_loop F fuel rd obj m l s = (if is_eof_text e then Ok (if obj : bool then VMap m' else VArr (l ++ map e_val es)) else Err e, s').
Proof.
  intros F S rd s es e s' H. induction H as [s e s' H|s x s1 es e s' H Hy IH]; intros obj m l fuel Hf; (destruct fuel as [|fuel]; [cbn in Hf; lia|]); cbn [entries_loop]; rewrite H.
  - exists m. split; [reflexivity|]. cbn [map]. rewrite app_nil_r. destruct (is_eof_text e); reflexivity.
  - cbn [length] in Hf. destruct obj.
    + destruct (IH true (map_set (e_key x) (e_val x) m) l fuel ltac:(lia)) as [m' [A ->]]. exists m'. split; [|reflexivity].
      intros k. rewrite A. rewrite <- (fold_set_get (x :: es) m k). cbn [fold_left]. rewrite <- (fold_set_get es). reflexivity.
    + destruct (IH false m (l ++ [e_val x]) fuel ltac:(lia)) as [m' [A ->]]. destruct (IH true (map_set (e_key x) (e_val x) m) l fuel ltac:(lia)) as [m2 [A2 _]]. exists m2.
      split; [|rewrite <- app_assoc; reflexivity]. intros k. rewrite A2. rewrite <- (fold_set_get (x :: es) m k). cbn [fold_left]. rewrite <- (fold_set_get es). reflexivity.
Qed.
Lemma read_entries_spec : forall F S (rd : S -> res (entry F) * S) s es e s' schema (obj : bool) fuel, yields rd s es e s' ->
  get_top_level_type schema = Ok (if obj then bs "object" else bs "array") -> (length es < fuel)%nat ->
  if is_eof_text e then exists v, read_entries F fuel rd schema s = (Ok v, s') /\ body_value obj es v
  else read_entries F fuel rd schema s = (Err e, s').
Proof.
  intros F S rd s es e s' schema obj fuel Hy Ht Hf. unfold read_entries. rewrite Ht.
  replace (beqb (if obj then bs "object" else bs "array") (bs "object")) with obj by (destruct obj; reflexivity).
  destruct (loop_spec F S rd s es e s' Hy obj [] [] fuel Hf) as [m [A ->]]. destruct (is_eof_text e); [|reflexivity].
  eexists. split; [reflexivity|]. destruct obj; constructor. intros k. rewrite A. destruct (last_value k es); reflexivity.
Qed.
Lemma reads_det : forall F S (rd : S -> res (entry F) * S) s es a, reads rd s es a -> forall b, reads rd s es b -> a = b.
Proof.
  intros F S rd s es a H. induction H as [s|s x s1 es s' H Hr IH]; intros b Hb; inversion Hb; subst; [reflexivity|]. apply IH. congruence.
Qed.

Section Body.
  Variables F Str St : Type.
  Variable schema_of : Str -> option (list (bytes * gval F)).
  Variable open : Str -> prog (res St).
  Variable step : St -> prog (res (entry F) * St).
  Variable file_name : bytes -> bytes.
  Notation read_entry := (read_entry F St step).
  Notation body_entries := (body_entries F Str St schema_of open step file_name).
  Lemma tee_yields : forall s0 es e s1, yields (read_entry file_read) s0 es e s1 -> forall b, exists b', yields (read_entry (tee_read file_read)) (fst s0, (snd s0, b)) es e (fst s1, (snd s1, b')).
  Proof.
    induction 1 as [s e s1 H|s x s1 es e s' H Hr IH]; intros b; destruct s as [s f]; destruct (tee_step F St step s f b) as [y [E _]]; rewrite H in E; cbn [fst snd] in E.
    - exists (b ++ y). constructor. exact E.
    - destruct (IH (b ++ y)) as [b' Hb]. exists b'. econstructor; eassumption.
  Qed.
  Lemma keeps_reads : forall d e a es a1, reads (read_entry (tee_read file_read)) a es a1 -> keeps d e (snd a) -> keeps d e (snd a1).
  Proof.
    intros d e a es a1 H. induction H as [s|s x s1 es s' H Hr IH]; intros K; [exact K|]. apply IH. pose proof (keeps_step F St step d e s K) as K2. rewrite H in K2. exact K2.
  Qed.
  Lemma keeps_yields : forall d e a es er a1, yields (read_entry (tee_read file_read)) a es er a1 -> keeps d e (snd a) -> keeps d e (snd a1).
  Proof.
    intros d e a es er a1 H. induction H as [s er s1 H|s x s1 es er s' H Hr IH]; intros K; [|apply IH]; pose proof (keeps_step F St step d e s K) as K2; rewrite H in K2; exact K2.
  Qed.

  (** bodyEntries gives the window of the entries if offset and limit are not negative, and otherwise all of
      them.  A reading error counts only if it comes before the window is full.  Afterwards the body file gives
      what the reader has taken from it, and nothing else; if there is an error, what it has not taken. *)
  Theorem body_window : forall fuel st f offset limit d e0 s f0 (obj : bool) es e s', delivers file_read (pf_content f) d e0 ->
    run file_read (open st) (pf_content f) = (Ok s, f0) ->
    get_top_level_type (schema_of st) = Ok (if obj then bs "object" else bs "array") ->
    yields (read_entry file_read) (s, f0) es e s' -> (length es < fuel)%nat ->
    let paged := ((0 <=? offset)%Z && (0 <=? limit)%Z) in
    let full := paged && (offset + limit <=? Z.of_nat (length es))%Z in
    let selected := if paged then firstn (Z.to_nat limit) (skipn (Z.to_nat offset) es) else es in
    exists rest taken left f', d = taken ++ left /\
      (if full then reads (read_entry file_read) (s, f0) (firstn (Z.to_nat (offset + limit)) es) rest else rest = s') /\ delivers file_read (snd rest) left e0 /\
      if full || is_eof_text e
      then exists v, body_entries fuel (Some st) (Some f) offset limit = (Ok v, Some f') /\ body_value obj selected v /\
             delivers file_read (pf_content f') taken EOF /\ pf_path f' = file_name (pf_path f)
      else body_entries fuel (Some st) (Some f) offset limit = (Err e, Some f') /\ delivers file_read (pf_content f') left e0 /\ pf_path f' = pf_path f.
  Proof.
    intros fuel st f offset limit d e0 s f0 obj es e s' Hd Hopen Ht Hy Hf paged full selected.
    unfold M_Viz.body_entries. destruct (run_tee _ file_read _ (open st) (pf_content f) []) as [x [E HX]]. rewrite Hopen in E. cbn [fst snd app] in E. rewrite E.
    destruct (HX d e0 Hd) as [d0 [Hd0 Hd1]]. rewrite Hopen in Hd1. cbn [snd] in Hd1.
    assert (K0 : keeps d e0 (snd (s, (f0, x)))) by (exists d0; auto).
    destruct (tee_yields _ _ _ _ Hy x) as [b' Hy']. cbn [fst snd] in Hy'. fold paged.
    destruct paged eqn:Ep.
    - apply andb_true_iff in Ep. destruct Ep as [Eo El]. apply Z.leb_le in Eo, El.
      destruct (paged_window _ _ _ _ _ limit offset Hy') as [p' [Hp Hend]].
      assert (EW : window offset limit es = selected) by (unfold window, selected; destruct (Z.ltb_spec limit 0); [lia|reflexivity]).
      rewrite EW in Hp. replace (0 <=? limit)%Z with true in Hp, Hend by (symmetry; apply Z.leb_le; exact El). rewrite Z.max_r in Hp, Hend by exact Eo. cbn [andb] in Hp, Hend.
      unfold full. cbn [andb]. fold full in Hp, Hend.
      assert (Lf : (length selected < fuel)%nat) by (unfold selected; rewrite firstn_length, skipn_length; lia).
      pose proof (read_entries_spec F _ _ _ _ _ _ (schema_of st) obj fuel Hp Ht Lf) as RS.
      destruct (offset + limit <=? Z.of_nat (length es))%Z eqn:Efull.
      + cbn [is_eof_text] in RS. destruct RS as [v [ER HV]]. rewrite ER. pose proof (keeps_reads d e0 _ _ _ Hend K0) as [lf [K1 K2]].
        destruct (snd (pg_r p')) as [r buf] eqn:Er. cbn [fst snd] in K1, K2. cbn [orb].
        destruct (yields_reads_split _ (firstn (Z.to_nat (offset + limit)) es) (skipn (Z.to_nat (offset + limit)) es) _ _ _ ltac:(rewrite firstn_skipn; exact Hy)) as [rest [Hrest _]].
        destruct (tee_reads F St step _ _ _ Hrest x) as [b2 Hb2]. cbn [fst snd] in Hb2. pose proof (reads_det _ _ _ _ _ _ Hend _ Hb2) as EQ. rewrite EQ in Er. cbn [snd] in Er. inversion Er; subst.
        exists rest, buf, lf. eexists. split; [exact K1|]. split; [exact Hrest|]. split; [exact K2|]. exists v. split; [reflexivity|]. split; [exact HV|]. split; [apply delivers_buf|reflexivity].
      + pose proof (keeps_yields d e0 _ _ _ _ Hy' K0) as [lf [K1 K2]]. rewrite <- Hend in K1, K2. cbn [orb].
        assert (Er : snd (pg_r p') = (snd s', b')) by (rewrite Hend; reflexivity).
        destruct (is_eof_text e).
        * destruct RS as [v [ER HV]]. rewrite ER. rewrite Er in *. cbn [fst snd] in K1, K2. exists s', b', lf. eexists.
          split; [exact K1|]. split; [reflexivity|]. split; [exact K2|]. exists v. split; [reflexivity|]. split; [exact HV|]. split; [apply delivers_buf|reflexivity].
        * rewrite RS. rewrite Er in *. cbn [fst snd] in K1, K2. exists s', b', lf. eexists. split; [exact K1|]. split; [reflexivity|]. split; [exact K2|]. split; [reflexivity|].
          split; [exact K2|reflexivity].
    - unfold full. cbn [andb orb]. pose proof (keeps_yields d e0 _ _ _ _ Hy' K0) as [lf [K1 K2]]. cbn [fst snd] in K1, K2.
      pose proof (read_entries_spec F _ _ _ _ _ _ (schema_of st) obj fuel Hy' Ht Hf) as RS. destruct (is_eof_text e).
      + destruct RS as [v [ER HV]]. rewrite ER. exists s', b', lf. eexists.
        split; [exact K1|]. split; [reflexivity|]. split; [exact K2|]. exists v. split; [reflexivity|]. split; [exact HV|]. split; [apply delivers_buf|reflexivity].
      + rewrite RS. exists s', b', lf. eexists. split; [exact K1|]. split; [reflexivity|]. split; [exact K2|]. split; [reflexivity|]. split; [exact K2|reflexivity].
  Qed.

  (** No structure, no reader. *)
  Theorem body_refuses : forall fuel offset limit,
    (forall body, exists e, body_entries fuel None body offset limit = (Err e, body)) /\
    (forall st f d e0 e f0, delivers file_read (pf_content f) d e0 -> run file_read (open st) (pf_content f) = (Err e, f0) ->
       exists e1 f' left, body_entries fuel (Some st) (Some f) offset limit = (Err e1, Some f') /\
         (exists taken, d = taken ++ left) /\ delivers file_read (pf_content f') left e0).
  Proof.
    intros fuel offset limit. split; [intros body; eexists; reflexivity|]. intros st f d e0 e f0 Hd Hopen. unfold M_Viz.body_entries.
    destruct (run_tee _ file_read _ (open st) (pf_content f) []) as [x [E HX]]. rewrite Hopen in E, HX. cbn [fst snd app] in E, HX. rewrite E.
    destruct (HX d e0 Hd) as [d0 [-> H]]. eexists. eexists. exists d0. split; [reflexivity|]. split; [eauto|exact H].
  Qed.

  (** Rendering: whatever comes of it, a script that can be read gives the same bytes again afterwards. *)
  Variable compile : bytes -> res (tmpl F).
  Variable viz_dataset : res unit.
  Notation render := (render F Str St schema_of open step file_name compile viz_dataset).
  Notation run_tmpl := (run_tmpl F Str St schema_of open step file_name).
  Lemma tee_delivers : forall f b d e, delivers file_read f d e -> delivers (tee_read file_read) (f, b) d e.
  Proof.
    intros f b d e H. apply (delivers_intro _ (tee_read file_read) e (fun t d => delivers file_read (fst t) d e)); [|exact H].
    intros [f1 b1] d1 H1 k x o [f2 b2] E. unfold tee_read in E. cbn [fst snd] in *. destruct (file_read k f1) as [[y o1] f3] eqn:E1. inversion E; subst.
    exact (delivers_step _ _ _ _ _ H1 _ _ _ _ E1).
  Qed.
  Lemma read_teed : forall sizes fuel f b d e, delivers file_read f d e -> (length d < fuel)%nat ->
    exists r, M_Tee.read_all (tee_read file_read) fuel sizes (f, b) = Some (d, match e with EOF => None | e => Some e end, (r, b ++ d)) /\ delivers file_read r [] e.
  Proof.
    intros sizes. induction fuel as [|fuel IH]; intros f b d e Hd Hf; [lia|]. cbn [M_Tee.read_all]. unfold tee_read at 1. cbn [fst snd].
    destruct (file_read (S (sizes fuel)) f) as [[x o] r'] eqn:E. destruct (delivers_step _ _ _ _ _ Hd _ _ _ _ E) as [d' [-> [B [C D]]]].
    destruct C as [[-> C]|[-> ->]].
    - specialize (C ltac:(lia)). destruct x as [|c x]; [congruence|]. rewrite app_length in Hf. cbn [length] in Hf.
      destruct (IH r' (b ++ c :: x) d' e D ltac:(lia)) as [r'' [-> D2]]. exists r''. rewrite <- app_assoc. auto.
    - exists r'. rewrite app_nil_r in *. destruct e; auto.
  Qed.
  Lemma run_renders : forall fuel st t body out body', run_tmpl fuel st t body = (Ok out, body') <->
    S_Viz.renders (fun body offset limit v body' => body_entries fuel st body offset limit = (Ok v, body')) t body out body'.
  Proof.
    intros fuel st. induction t as [r|offset limit next IH]; intros body out body'; cbn [M_Viz.run_tmpl].
    - split; [intros [= -> ->]; constructor|]. intros H. inversion H; subst. reflexivity.
    - split.
      + destruct (body_entries fuel st body offset limit) as [[v|e| |] body1] eqn:E; try discriminate. intros H. econstructor; [exact E|]. apply IH. exact H.
      + intros H. inversion H as [|? ? ? ? v body1 ? ? E1 E2]; subst. rewrite E1. apply IH. assumption.
  Qed.
  Theorem render_script : forall fuel sizes v f d, vz_format Str v = Some (bs "html") -> vz_script Str v = Some f -> delivers file_read (pf_content f) d EOF -> (length d < fuel)%nat ->
    exists r v' f', render fuel sizes v = (r, v') /\ vz_script Str v' = Some f' /\ pf_path f' = file_name (pf_path f) /\ delivers file_read (pf_content f') d EOF /\
      vz_format Str v' = vz_format Str v /\ vz_str Str v' = vz_str Str v /\
      forall page, r = Ok page <-> viz_dataset = Ok tt /\ exists t out, compile d = Ok t /\ 
        renders (fun body offset limit x body' => body_entries fuel (vz_str Str v) body offset limit = (Ok x, body')) t (vz_body Str v) out (vz_body Str v') /\
        page = mkPfile (bs "index.html") None (FBuf out).
  Proof.
    cut (forall fuel sizes v f d, vz_format Str v = Some (bs "html") -> vz_script Str v = Some f -> delivers file_read (pf_content f) d EOF -> (length d < fuel)%nat ->
    exists r v' f', render fuel sizes v = (r, v') /\ vz_script Str v' = Some f' /\ pf_path f' = file_name (pf_path f) /\ delivers file_read (pf_content f') d EOF /\
      vz_format Str v' = vz_format Str v /\ vz_str Str v' = vz_str Str v /\
      forall page, r = Ok page <-> viz_dataset = Ok tt /\ exists t out, compile d = Ok t /\ run_tmpl fuel (vz_str Str v) t (vz_body Str v) = (Ok out, vz_body Str v') /\
        page = mkPfile (bs "index.html") None (FBuf out)).
    { intros H fuel sizes v f d A1 A2 A3 A4. destruct (H fuel sizes v f d A1 A2 A3 A4) as [r [v' [f' [B1 [B2 [B3 [B4 [B5 [B6 B7]]]]]]]]].
      exists r, v', f'. repeat (split; [assumption|]). intros page. rewrite B7.
      split; intros [X [t [out [Y1 [Y2 Y3]]]]]; (split; [exact X|]; exists t, out; split; [exact Y1|]; split; [apply run_renders; exact Y2|exact Y3]). }
    intros fuel sizes v f d Hfmt Hs Hd Hf. unfold M_Viz.render. rewrite Hfmt, Hs. change (negb (beqb (bs "html") (bs "html"))) with false. cbv iota.
    destruct (read_teed sizes fuel _ [] d EOF Hd Hf) as [r [-> _]]. cbn [app].
    assert (G : forall res body, (forall page, res = Ok page <-> viz_dataset = Ok tt /\ exists t out, compile d = Ok t /\ run_tmpl fuel (vz_str Str v) t (vz_body Str v) = (Ok out, body) /\
        page = mkPfile (bs "index.html") None (FBuf out)) ->
      exists r v' f', (res, mkViz Str (Some (bs "html")) (Some (mkPfile (file_name (pf_path f)) None (FBuf d))) (vz_str Str v) body) = (r, v') /\ vz_script Str v' = Some f' /\ pf_path f' = file_name (pf_path f) /\ delivers file_read (pf_content f') d EOF /\
      vz_format Str v' = Some (bs "html") /\ vz_str Str v' = vz_str Str v /\
      forall page, r = Ok page <-> viz_dataset = Ok tt /\ exists t out, compile d = Ok t /\ run_tmpl fuel (vz_str Str v) t (vz_body Str v) = (Ok out, vz_body Str v') /\
        page = mkPfile (bs "index.html") None (FBuf out)).
    { intros res body H. eexists. eexists. eexists. split; [reflexivity|]. split; [reflexivity|]. split; [reflexivity|]. split; [apply delivers_buf|]. split; [reflexivity|]. split; [reflexivity|exact H]. }
    destruct viz_dataset as [[]|e| |]; try (apply G; intros page; split; [discriminate|intros [X _]; discriminate]).
    destruct (compile d) as [t|e| |]; try (apply G; intros page; split; [discriminate|intros [_ [t0 [out [X _]]]]; discriminate]).
    destruct (run_tmpl fuel (vz_str Str v) t (vz_body Str v)) as [[out|e| |] body] eqn:ER; apply G; intros page;
      (split; [try discriminate|intros [_ [t0 [out0 [[= <-] [X ->]]]]]; rewrite ER in X; congruence]).
    intros [= <-]. split; [reflexivity|]. eauto.
  Qed.
  Theorem render_refuses : forall fuel sizes v,
    (vz_format Str v = None -> exists e, render fuel sizes v = (Err e, v)) /\
    (forall t, vz_format Str v = Some t -> t <> bs "html" -> exists e, render fuel sizes v = (Err e, v)) /\
    (forall f d e, vz_format Str v = Some (bs "html") -> vz_script Str v = Some f -> delivers file_read (pf_content f) d e -> e <> EOF -> (length d < fuel)%nat ->
       exists e1 v' f', render fuel sizes v = (Err e1, v') /\ vz_script Str v' = Some f' /\ delivers file_read (pf_content f') [] e).
  Proof.
    intros fuel sizes v. unfold M_Viz.render. split; [intros ->; eauto|]. split.
    - intros t -> H. destruct (beqb t (bs "html")) eqn:E; [apply beqb_eq in E; congruence|]. cbn [negb]. eauto.
    - intros f d e -> -> Hd He Hf. change (negb (beqb (bs "html") (bs "html"))) with false. cbv iota.
      destruct (read_teed sizes fuel _ [] d e Hd Hf) as [r [-> D]]. destruct e; [congruence| |]; (eexists; eexists; eexists; split; [reflexivity|]; split; [reflexivity|exact D]).
  Qed.
End Body.
Print Assumptions body_window.
Print Assumptions body_refuses.
Print Assumptions render_script.
Print Assumptions render_refuses.

(** A reader of one byte per entry. *)
Definition one_byte (_ : unit) : prog (res (entry unit) * unit) :=
  Read 1 (fun d o => match d, o with
                     | c :: _, _ => Ret (Ok (mkEntry 0 [c] (VStr [c])), tt)
                     | [], Some e => Ret (Err e, tt)
                     | [], None => Ret (Err EOF, tt)
                     end).
Definition entries_of (t : string) (f : file) (offset limit : Z) :=
  body_entries unit unit unit (fun _ => Some [(bs "type", VStr (bs t))]) (fun _ => Ret (Ok tt)) one_byte (fun p => p) 10 (Some tt) (Some (mkPfile (bs "body") None f)) offset limit.
(** That rendering leaves the body as it was fails for a window that ends before the body does. *)
Theorem body_kept_refuted : exists f v f', delivers file_read f (bs "abc") EOF /\ entries_of "array" f 0 1 = (Ok v, Some f') /\
  ~ delivers file_read (pf_content f') (bs "abc") EOF /\ fst (entries_of "array" (pf_content f') 0 (-1)) = Ok (VArr [VStr (bs "a")]).
Proof.
  exists (FSrc (mkSrc (bs "abc") EOF [])). eexists. eexists. split; [exact (delivers_src (mkSrc (bs "abc") EOF []))|]. split; [vm_compute; reflexivity|]. split; [|vm_compute; reflexivity].
  intros H. destruct (delivers_step _ _ _ _ _ H 1 _ _ _ eq_refl) as [d' [A [_ [_ D]]]]. destruct (delivers_step _ _ _ _ _ D 1 _ _ _ eq_refl) as [d2 [B [_ [[[C _]|[_ C]] _]]]]; [discriminate C|].
  subst d2. cbn in B. subst d'. discriminate A.
Qed.
Print Assumptions body_kept_refuted.
(** Examples. *)
Example window_ex : fst (entries_of "array" (FSrc (mkSrc (bs "abcde") EOF [])) 1 2) = Ok (VArr [VStr (bs "b"); VStr (bs "c")]).
Proof. vm_compute. reflexivity. Qed.
Example window_hyps_ex : exists s', yields (read_entry unit unit one_byte file_read) (tt, FSrc (mkSrc (bs "ab") EOF [(0%nat, false); (0%nat, true)])) [mkEntry 0 (bs "a") (VStr (bs "a")); mkEntry 0 (bs "b") (VStr (bs "b"))] EOF s'.
Proof. eexists. repeat (eapply y_cons; [reflexivity|]). apply y_end. reflexivity. Qed.
Example object_ex : fst (entries_of "object" (FSrc (mkSrc (bs "aba") EOF [])) 0 (-1)) = Ok (VMap [(bs "a", VStr (bs "a")); (bs "b", VStr (bs "b"))]).
Proof. vm_compute. reflexivity. Qed.
Example size_ex : print_byte_info 0 = bs "0 bytes" /\ print_byte_info 1 = bs "1 byte" /\ print_byte_info 2047 = bs "1 KB" /\ print_byte_info 5242880 = bs "5 MBs" /\ print_byte_info (-3) = bs "-3 bytes".
Proof. repeat split; vm_compute; reflexivity. Qed.
Example render_ex : exists v', render unit unit unit (fun _ => Some [(bs "type", VStr (bs "array"))]) (fun _ => Ret (Ok tt)) one_byte (fun p => p)
    (fun text => Ok (TBody 0 (-1) (fun v => TEnd (Ok (match v with VArr l => text ++ dec (N.of_nat (length l)) | _ => text end))))) (Ok tt) 10 (fun _ => 3%nat)
    (mkViz unit (Some (bs "html")) (Some (mkPfile (bs "viz.html") None (FSrc (mkSrc (bs "rows: ") EOF [])))) (Some tt) (Some (mkPfile (bs "body") None (FBuf (bs "abc")))))
  = (Ok (mkPfile (bs "index.html") None (FBuf (bs "rows: 3"))), v').
Proof. eexists. vm_compute. reflexivity. Qed.
