(** C17-C21: the CBOR reader and writer. *)
From Verif Require Import Base M_Bufio L_Bufio M_Decimal M_Cbor M_BufMem S_Cbor L_Cbor L_CborDoc L_CborWrite L_CborLoop L_BufMem.

Local Notation size := (N.to_nat 4096).
Lemma size_max : Nat.max 16 cbor_buf_size = size.
Proof. unfold cbor_buf_size. lia. Qed.
Local Lemma read_all_list : forall obj s, cbor_read_all obj s =
  let '(es, out) := fst (srun size (s_fin s) (cbor_read_loop (S (length (s_rem s))) (S (2 * length (s_rem s))) obj cbor_start) (s_rem s)) in (map entry_read es, out).
Proof.
  intros obj s. unfold cbor_read_all. destruct (new_bufr_ok cbor_buf_size s) as [B P]. rewrite size_max in B.
  destruct (run_buf_list _ (plain tt (cbor_read_loop (S (length (s_rem s))) (S (2 * length (s_rem s))) obj cbor_start)) _ _ _ B) as (b' & E & _). rewrite E, P. reflexivity.
Qed.

(** ** C21: termination *)
(** Every call of ReadEntry, in every reachable or unreachable state of the reader, returns, and a successful call consumes input. *)
Theorem cbor_read_entry_terminates : forall fuel obj st s, (2 * length (s_rem s) < fuel)%nat ->
  exists r st' b', run_buf (plain tt (cbor_read_entry fuel obj st)) (new_bufr cbor_buf_size s) = ((r, st'), b') /\ r <> OutOfFuel /\
    (length (pending b') <= length (s_rem s))%nat /\ (forall e, r = Ok e -> (length (pending b') < length (s_rem s))%nat).
Proof.
  intros fuel obj st s F. destruct (new_bufr_ok cbor_buf_size s) as [B P]. rewrite size_max in B.
  destruct (run_buf_list _ (plain tt (cbor_read_entry fuel obj st)) _ _ _ B) as (b' & E & _ & Q). rewrite P in *.
  destruct (entry_spec size (s_fin s) eq_refl fuel obj st (s_rem s) F) as (r & st' & s' & E2 & N & L & K). unfold srun in E2. rewrite E2 in *. cbn [fst snd] in *.
  exists r, st', b'. split; [exact E|]. split; [exact N|]. rewrite Q. split; [exact L|]. intros e ->. exact K.
Qed.
Print Assumptions cbor_read_entry_terminates.
(** Reading to the end returns, with at most one entry per byte of input; a larger fuel gives the same result. *)
Theorem cbor_read_terminates : forall obj s, snd (cbor_read_all obj s) <> OutOfFuel /\ (length (fst (cbor_read_all obj s)) <= length (s_rem s))%nat.
Proof.
  intros obj s. rewrite read_all_list. pose proof (loop_total size (s_fin s) eq_refl (S (length (s_rem s))) (S (2 * length (s_rem s))) obj cbor_start (s_rem s) ltac:(lia) ltac:(lia)) as [T L].
  destruct (srun _ _ _ _) as [[es out] s']. cbn in *. rewrite map_length. auto.
Qed.
Print Assumptions cbor_read_terminates.
Theorem cbor_read_fuel_irrelevant : forall obj s n fuel, (length (s_rem s) < n)%nat -> (2 * length (s_rem s) < fuel)%nat ->
  cbor_read_all obj s = let '(es, out) := fst (run_buf (plain tt (cbor_read_loop n fuel obj cbor_start)) (new_bufr cbor_buf_size s)) in (map entry_read es, out).
Proof.
  intros obj s n fuel N F. rewrite read_all_list. destruct (new_bufr_ok cbor_buf_size s) as [B P]. rewrite size_max in B.
  destruct (run_buf_list _ (plain tt (cbor_read_loop n fuel obj cbor_start)) _ _ _ B) as (b' & E & _). rewrite E, P. cbn [fst].
  change (run_list size (s_fin s) (plain tt (cbor_read_loop n fuel obj cbor_start)) (s_rem s)) with (srun size (s_fin s) (cbor_read_loop n fuel obj cbor_start) (s_rem s)).
  rewrite (loop_mono size (s_fin s) (S (length (s_rem s))) n (S (2 * length (s_rem s))) fuel); [reflexivity|lia|lia|].
  apply loop_total; [reflexivity|lia|lia].
Qed.
Print Assumptions cbor_read_fuel_irrelevant.
Local Lemma read_all_fuel : forall obj s n fuel, (length (s_rem s) < n)%nat -> (2 * length (s_rem s) < fuel)%nat ->
  cbor_read_all obj s = let '(es, out) := fst (srun size (s_fin s) (cbor_read_loop n fuel obj cbor_start) (s_rem s)) in (map entry_read es, out).
Proof.
  intros obj s n fuel N F. rewrite (cbor_read_fuel_irrelevant obj s n fuel N F). destruct (new_bufr_ok cbor_buf_size s) as [B P]. rewrite size_max in B.
  destruct (run_buf_list _ (plain tt (cbor_read_loop n fuel obj cbor_start)) _ _ _ B) as (b' & E & _). rewrite E, P. reflexivity.
Qed.
(** Nested indefinite arrays that never end. *)
Example cbor_read_terminates_ex : cbor_read_all false (mkSrc [159; 159; 159; 1; 159; 2]%N EOF [(0%nat, false); (0%nat, true)]) = ([], Err EOF).
Proof. vm_compute. reflexivity. Qed.

(** ** C18: how the bytes arrive *)
Theorem cbor_schedule_free : forall obj data fin sched1 sched2, cbor_read_all obj (mkSrc data fin sched1) = cbor_read_all obj (mkSrc data fin sched2).
Proof. intros. rewrite !read_all_list. reflexivity. Qed.
Print Assumptions cbor_schedule_free.
Lemma new_mem_buf : forall n s, mem_ok (new_mem n s) /\ to_buf (new_mem n s) = new_bufr n s.
Proof.
  intros n s. split; [split; cbn [new_mem m_r m_w m_arr]; rewrite ?repeat_length; lia|]. unfold to_buf, new_mem, new_bufr. cbn [m_arr m_err m_src m_data m_r m_w]. rewrite repeat_length. reflexivity.
Qed.
(** The caller keeps the entries while reading on: what it finds afterwards, when there are no byte strings. *)
Theorem cbor_kept_entries : forall obj s, forallb (fun e => no_bytes (e_val e)) (fst (cbor_read_all obj s)) = true -> cbor_kept obj s = cbor_read_all obj s.
Proof.
  intros obj s. unfold cbor_kept, cbor_read_mem, cbor_read_all. destruct (new_mem_buf cbor_buf_size s) as [M B].
  pose proof (prel_run unit _ _ rloop _ _ tt (prel_loop (X := nat) (Y := unit) (S (length (s_rem s))) (S (2 * length (s_rem s))) obj cbor_start) _ M) as (_ & R & _). rewrite B in R.
  destruct (run_mem _ _) as [[es out] m]. destruct (run_buf _ _) as [[es' out'] b]. destruct R as [R1 R2]. cbn [fst snd] in *. subst out'. rewrite <- R1. clear R1 es' b. intros H. f_equal.
  induction es as [|e es IH]; [reflexivity|]. cbn [map forallb] in *. apply andb_true_iff in H as [H1 H2]. f_equal; [|apply IH, H2].
  unfold entry_now, entry_read in *. cbn [e_val] in H1. now rewrite observe_no_bytes.
Qed.
Print Assumptions cbor_kept_entries.
Theorem cbor_kept_schedule_free : forall obj data fin sched1 sched2,
  forallb (fun e => no_bytes (e_val e)) (fst (cbor_read_all obj (mkSrc data fin sched1))) = true -> cbor_kept obj (mkSrc data fin sched1) = cbor_kept obj (mkSrc data fin sched2).
Proof. intros obj data fin s1 s2 H. rewrite !cbor_kept_entries; [apply cbor_schedule_free|now rewrite (cbor_schedule_free obj data fin s2 s1)|assumption]. Qed.
Print Assumptions cbor_kept_schedule_free.
Example cbor_kept_schedule_free_ex : cbor_kept false (mkSrc [130; 97; 104; 130; 1; 32]%N EOF [(1%nat, false); (0%nat, true)]) = ([mkEntry 0 [] (VStr [104%N]); mkEntry 1 [] (VArr [VInt 1; VInt (-1)])], Err EOF).
Proof. vm_compute. reflexivity. Qed.
(** A byte string the caller keeps is overwritten when the reader fetches more input: here h'010203' becomes h'626364'. *)
Theorem cbor_kept_bytes_refuted : ~ forall obj data fin sched1 sched2, cbor_kept obj (mkSrc data fin sched1) = cbor_kept obj (mkSrc data fin sched2).
Proof.
  intros H. specialize (H false [130; 67; 1; 2; 3; 104; 97; 98; 99; 100; 101; 102; 103; 104]%N EOF [(4%nat, false); (1%nat, false); (7%nat, false)] []).
  assert (E : e_val (hd (mkEntry 0 [] VNil) (fst (cbor_kept false (mkSrc [130; 67; 1; 2; 3; 104; 97; 98; 99; 100; 101; 102; 103; 104]%N EOF [])))) = VBytes [1; 2; 3]%N) by (vm_compute; reflexivity).
  rewrite <- H in E. vm_compute in E. discriminate E.
Qed.
Print Assumptions cbor_kept_bytes_refuted.

(** ** C19: truncation *)
(** Cutting any input anywhere either changes nothing or ends the entries early with io.EOF; no other outcome exists. *)
Theorem cbor_truncation : forall obj data rest sched sched',
  let full := cbor_read_all obj (mkSrc (data ++ rest) EOF sched) in let cut := cbor_read_all obj (mkSrc data EOF sched') in
  cut = full \/ (snd cut = Err EOF /\ exists more, fst full = fst cut ++ more).
Proof.
  intros obj data rest sched sched'. cbv zeta. set (n := S (length (data ++ rest))). set (f := S (2 * length (data ++ rest))).
  assert (L : (length data <= length (data ++ rest))%nat) by (rewrite app_length; lia).
  rewrite (read_all_fuel obj (mkSrc data EOF sched') n f) by (cbn [s_rem]; lia).
  rewrite (read_all_fuel obj (mkSrc (data ++ rest) EOF sched) n f) by (cbn [s_rem]; lia). cbn [s_rem s_fin].
  pose proof (trunc_loop size eq_refl n f obj cbor_start data rest) as T.
  pose proof (loop_total size EOF eq_refl n f obj cbor_start data ltac:(lia) ltac:(lia)) as [O _].
  destruct (fst (srun size EOF (cbor_read_loop n f obj cbor_start) data)) as [es out]. destruct (fst (srun size EOF (cbor_read_loop n f obj cbor_start) (data ++ rest))) as [es' out'].
  cbn [fst snd] in *. destruct T as [[-> ->]|[[-> | ->] [m ->]]]; [left; reflexivity|right|now elim O]. split; [reflexivity|]. exists (map entry_read m). apply map_app.
Qed.
Print Assumptions cbor_truncation.

(** ** C17, C20: what the writer produces and what the reader makes of it *)
Local Lemma write_array : forall es w, cw_obj w = false -> cbor_write_all w es = (map (fun _ => None) es, mkCw false (cw_arr w ++ map e_val es) (cw_map w)).
Proof.
  induction es as [|e es IH]; intros [o a m] H; cbn in H; subst o; cbn [cbor_write_all map cw_arr cw_map]; [now rewrite app_nil_r|].
  unfold cbor_write_entry. cbn [cw_obj cw_arr cw_map]. rewrite IH by reflexivity. cbn [cw_arr cw_map]. now rewrite <- app_assoc.
Qed.
(** An array writer accepts everything and writes all values in order. *)
Theorem cbor_writer_array : forall es, cbor_write_all (new_cbor_writer false) es = (map (fun _ => None) es, mkCw false (map e_val es) []) /\
  cbor_close (snd (cbor_write_all (new_cbor_writer false) es)) = cbor_encode (VArr (map e_val es)).
Proof. intros es. rewrite write_array by reflexivity. auto. Qed.
Print Assumptions cbor_writer_array.
Local Lemma first_value_cons : forall k e es, first_value k (e :: es) = match first_value k [e] with Some v => Some v | None => first_value k es end.
Proof. intros [|c k] e es; [reflexivity|]. unfold first_value. cbn [find]. destruct (beqb (c :: k) (e_key e)); reflexivity. Qed.
Local Lemma write_one : forall w e, cw_obj w = true -> sorted (cw_map w) ->
  exists o w', cbor_write_entry w e = (o, w') /\ cw_obj w' = true /\ cw_arr w' = cw_arr w /\ sorted (cw_map w') /\
    (forall k, map_get k (cw_map w') = match map_get k (cw_map w) with Some v => Some v | None => first_value k [e] end) /\
    (o = None <-> e_key e <> [] /\ map_get (e_key e) (cw_map w) = None).
Proof.
  intros [ob arr m] e H S. cbn in H, S. subst ob. unfold cbor_write_entry. cbn [cw_obj cw_arr cw_map].
  destruct (e_key e) as [|c t] eqn:E.
  - do 2 eexists. split; [reflexivity|]. split; [reflexivity|]. split; [reflexivity|]. split; [exact S|]. split.
    + intros k. cbn [cw_map]. destruct (map_get k m); [reflexivity|]. destruct k as [|c k]; [reflexivity|]. unfold first_value. cbn [find]. rewrite E. reflexivity.
    + split; [discriminate|]. intros [K _]. now elim K.
  - destruct (map_get (c :: t) m) as [v|] eqn:G.
    + do 2 eexists. split; [reflexivity|]. split; [reflexivity|]. split; [reflexivity|]. split; [exact S|]. split.
      * intros k. cbn [cw_map]. destruct (map_get k m) eqn:GK; [reflexivity|]. destruct k as [|c' k]; [reflexivity|]. unfold first_value. cbn [find]. rewrite E.
        destruct (beqb_spec (c' :: k) (c :: t)) as [K|K]; [congruence|reflexivity].
      * split; [discriminate|]. intros [_ K]. discriminate.
    + do 2 eexists. split; [reflexivity|]. split; [reflexivity|]. split; [reflexivity|]. split; [cbn; apply sorted_set, S|]. split.
      * intros k. cbn [cw_map]. destruct (beqb_spec k (c :: t)) as [K|K].
        -- subst k. rewrite map_get_set_eq, G. unfold first_value. cbn [find]. rewrite E, beqb_refl. reflexivity.
        -- rewrite map_get_set_neq by assumption. destruct (map_get k m); [reflexivity|]. destruct k as [|c' k]; [reflexivity|]. unfold first_value. cbn [find]. rewrite E.
           destruct (beqb_spec (c' :: k) (c :: t)); [contradiction|reflexivity].
      * split; [intros _; split; [discriminate|reflexivity]|reflexivity].
Qed.
Local Lemma first_value_key : forall e, e_key e <> [] -> first_value (e_key e) [e] = Some (e_val e).
Proof. intros e H. unfold first_value. cbn [find]. destruct (e_key e) eqn:E; [contradiction|]. rewrite beqb_refl. reflexivity. Qed.
Local Lemma first_value_other : forall k e, k <> e_key e -> first_value k [e] = None.
Proof. intros [|c k] e H; [reflexivity|]. unfold first_value. cbn [find]. destruct (beqb_spec (c :: k) (e_key e)); [contradiction|reflexivity]. Qed.
Local Lemma write_object : forall es w, cw_obj w = true -> sorted (cw_map w) ->
  exists os w', cbor_write_all w es = (os, w') /\ cw_obj w' = true /\ sorted (cw_map w') /\
    (forall k, map_get k (cw_map w') = match map_get k (cw_map w) with Some v => Some v | None => first_value k es end) /\
    length os = length es /\
    forall before e after, es = before ++ e :: after -> (nth_error os (length before) = Some None <->
      (e_key e <> [] /\ ~ In (e_key e) (map e_key before)) /\ map_get (e_key e) (cw_map w) = None).
Proof.
  induction es as [|e0 es IH]; intros w H S; cbn [cbor_write_all].
  - exists [], w. split; [reflexivity|]. split; [exact H|]. split; [exact S|]. split; [|split; [reflexivity|]].
    + intros k. destruct (map_get k (cw_map w)); [reflexivity|]. destruct k; reflexivity.
    + intros before e after E. destruct before; discriminate E.
  - destruct (write_one w e0 H S) as (o & w1 & -> & H1 & _ & S1 & G1 & O). destruct (IH w1 H1 S1) as (os & w2 & -> & H2 & S2 & G2 & L & N).
    exists (o :: os), w2. split; [reflexivity|]. split; [exact H2|]. split; [exact S2|]. split; [|split; [cbn; now rewrite L|]].
    + intros k. rewrite G2, G1, (first_value_cons k e0 es). destruct (map_get k (cw_map w)); [reflexivity|]. destruct (first_value k [e0]); reflexivity.
    + intros [|b before] e after E; cbn [app length nth_error map In] in *.
      * assert (e0 = e) by congruence. subst e0. split.
        -- intros K. assert (K' : o = None) by congruence. apply O in K' as [K1 K2]. auto.
        -- intros [[K1 _] K2]. f_equal. apply O. auto.
      * assert (b = e0 /\ es = before ++ e :: after) as [-> E'] by (split; congruence). rewrite (N before e after E'), G1. clear E.
        destruct (map_get (e_key e) (cw_map w)) as [v|] eqn:M; [split; intros [_ K]; discriminate K|].
        split; intros [[K1 K2] K3].
        -- split; [|reflexivity]. split; [exact K1|]. intros [Q|Q]; [|now apply K2]. rewrite <- Q in K3. rewrite first_value_key in K3 by (rewrite Q; exact K1). discriminate K3.
        -- split; [split; [exact K1|]|].
           ++ intros Q. apply K2. now right.
           ++ apply first_value_other. intros Q. apply K2. now left.
Qed.
(** An object writer accepts an entry exactly when its key is not empty and was not offered before, and writes each key with
    the first value it was offered. *)
Theorem cbor_writer_object : forall es, exists os w m,
  cbor_write_all (new_cbor_writer true) es = (os, w) /\ cbor_close w = cbor_encode (VMap m) /\
  sorted m /\ (forall k, map_get k m = first_value k es) /\ length os = length es /\
  forall before e after, es = before ++ e :: after -> (nth_error os (length before) = Some None <-> acceptable true before e).
Proof.
  intros es. destruct (write_object es (new_cbor_writer true) eq_refl I) as (os & w & E & H & S & G & L & N). exists os, w, (cw_map w).
  split; [exact E|]. split; [unfold cbor_close; now rewrite H|]. split; [exact S|]. split; [exact G|]. split; [exact L|].
  intros before e after Q. rewrite (N before e after Q). unfold acceptable. cbn [new_cbor_writer cw_map map_get]. split; [intros [K _] _; exact K|auto].
Qed.
Print Assumptions cbor_writer_object.
(** Rejecting an entry leaves the writer as it was. *)
Theorem cbor_writer_reject : forall w e x w', cbor_write_entry w e = (Some x, w') -> w' = w.
Proof.
  intros w e x w' H. unfold cbor_write_entry in H. destruct (cw_obj w); [|discriminate]. destruct (e_key e); [congruence|]. destruct (map_get _ _); congruence.
Qed.
Print Assumptions cbor_writer_reject.
Example cbor_writer_object_ex :
  let '(os, w) := cbor_write_all (new_cbor_writer true) [mkEntry 0 [98%N] (VInt 1); mkEntry 0 [] VNil; mkEntry 0 [97%N] (VInt 2); mkEntry 0 [98%N] (VInt 3)] in
  map (fun o => match o with None => true | Some _ => false end) os = [true; false; true; false] /\ cbor_close w = [162; 97; 97; 2; 97; 98; 1]%N.
Proof. vm_compute. auto. Qed.

Local Lemma longest_split : forall A (f : A -> bool) l, exists r, l = longest f l ++ r /\ forallb f (longest f l) = true /\
  if forallb f l then r = [] else exists x t, r = x :: t /\ f x = false.
Proof.
  intros A f l. induction l as [|x l IH]; [exists []; cbn; auto|]. destruct IH as (r & E & F & H). cbn [longest forallb]. destruct (f x) eqn:FX; cbn [andb].
  - exists r. cbn [app forallb]. rewrite FX, <- E. auto.
  - exists (x :: l). cbn [app]. split; [reflexivity|]. split; [reflexivity|]. exists x, l. auto.
Qed.
Local Notation outcome all fin out := (if all : bool then out = Err fin else exists e, out = Err e /\ is_eof_text e <> true).

(** Any supported encoding of a list of values, under any declared length below 2^63, is read as those values; then the
    outcome is that of the end of the source.  With indefinite length reading stops at the break. *)
Theorem cbor_reads_array : forall l b n h fin sched, cenc_list l b -> head 4 n h -> (n < 2 ^ 63)%N ->
  cbor_read_all false (mkSrc (h ++ b) fin sched) = (array_entries 0 l, Err fin).
Proof.
  intros l b n h fin sched C H L. set (k := length (h ++ b)).
  rewrite (read_all_fuel false _ (S (length l + k)) (S (S (2 * k)))) by (cbn [s_rem]; lia). cbn [s_rem s_fin].
  rewrite (loop_top size fin _ _ false _ _ _ (top_definite size fin eq_refl 4 n h b (or_introl eq_refl) H L)).
  assert (I : items size fin false (S (S (2 * k))) (map (fun v => ([], v)) l) b) by (apply items_array; [reflexivity|exact C|unfold k; rewrite app_length; lia]).
  destruct (items_loop size fin eq_refl _ _ _ _ I k (mkCbor 0 (Z.of_N n)) [] ltac:(cbn; lia)) as (es & M & E). rewrite app_nil_r, map_length in E. rewrite E, loop_end by reflexivity. cbn [fst].
  rewrite app_nil_r, M. cbn [cr_rows]. now rewrite numbered_array.
Qed.
Print Assumptions cbor_reads_array.
Theorem cbor_reads_object : forall l b n h fin sched, cenc_pairs l b -> head 5 n h -> (n < 2 ^ 63)%N ->
  cbor_read_all true (mkSrc (h ++ b) fin sched) = (object_entries l, Err fin).
Proof.
  intros l b n h fin sched C H L. set (k := length (h ++ b)).
  rewrite (read_all_fuel true _ (S (length l + k)) (S (S (2 * k)))) by (cbn [s_rem]; lia). cbn [s_rem s_fin].
  rewrite (loop_top size fin _ _ true _ _ _ (top_definite size fin eq_refl 5 n h b (or_intror eq_refl) H L)).
  assert (I : items size fin true (S (S (2 * k))) l b) by (apply items_object; [reflexivity|exact C|unfold k; rewrite app_length; lia]).
  destruct (items_loop size fin eq_refl _ _ _ _ I k (mkCbor 0 (Z.of_N n)) [] ltac:(cbn; lia)) as (es & M & E). rewrite app_nil_r in E. rewrite E, loop_end by reflexivity. cbn [fst].
  rewrite app_nil_r, M. cbn [cr_rows]. now rewrite numbered_object.
Qed.
Print Assumptions cbor_reads_object.
Theorem cbor_reads_indefinite : forall rest fin sched,
  (forall l b, cenc_list l b -> cbor_read_all false (mkSrc (159%N :: b ++ 255%N :: rest) fin sched) = (array_entries 0 l, Err EOF)) /\
  (forall l b, cenc_pairs l b -> cbor_read_all true (mkSrc (191%N :: b ++ 255%N :: rest) fin sched) = (object_entries l, Err EOF)).
Proof.
  intros rest fin sched. split; intros l b C.
  - set (k := length (159%N :: b ++ 255%N :: rest)). rewrite (read_all_fuel false _ (S (length l + k)) (S (2 * k))) by (cbn [s_rem]; lia). cbn [s_rem s_fin].
    rewrite (loop_top size fin _ _ false _ _ _ (top_indefinite size fin false (b ++ 255%N :: rest))).
    assert (I : items size fin false (S (2 * k)) (map (fun v => ([], v)) l) b) by (apply items_array; [reflexivity|exact C|unfold k; cbn [length]; rewrite app_length; lia]).
    destruct (items_loop size fin eq_refl _ _ _ _ I k (mkCbor 0 (-1)) (255%N :: rest) ltac:(cbn; lia)) as (es & M & E). rewrite map_length in E. rewrite E, loop_break by reflexivity. cbn [fst].
    rewrite app_nil_r, M. cbn [cr_rows]. now rewrite numbered_array.
  - set (k := length (191%N :: b ++ 255%N :: rest)). rewrite (read_all_fuel true _ (S (length l + k)) (S (2 * k))) by (cbn [s_rem]; lia). cbn [s_rem s_fin].
    rewrite (loop_top size fin _ _ true _ _ _ (top_indefinite size fin true (b ++ 255%N :: rest))).
    assert (I : items size fin true (S (2 * k)) l b) by (apply items_object; [reflexivity|exact C|unfold k; cbn [length]; rewrite app_length; lia]).
    destruct (items_loop size fin eq_refl _ _ _ _ I k (mkCbor 0 (-1)) (255%N :: rest) ltac:(cbn; lia)) as (es & M & E). rewrite E, loop_break by reflexivity. cbn [fst].
    rewrite app_nil_r, M. cbn [cr_rows]. now rewrite numbered_object.
Qed.
Print Assumptions cbor_reads_indefinite.
Example cbor_reads_indefinite_ex : cbor_read_all true (mkSrc [191; 97; 97; 159; 24; 200; 255; 98; 98; 99; 127; 97; 104; 97; 105; 255; 255]%N EOF [(2%nat, false)]) =
  ([mkEntry 0 [97%N] (VArr [VInt 200]); mkEntry 0 [98; 99]%N (VStr [104; 105]%N)], Err EOF).
Proof. vm_compute. reflexivity. Qed.

(** Round trip of an array: the entries up to the first value that cannot be read back, and an error exactly when there is one. *)
Theorem cbor_round_trip_array : forall es fin sched, Forall (fun e => wf_value (e_val e)) es -> (N.of_nat (length es) < 2 ^ 44)%N ->
  let vs := map e_val es in
  let '(got, out) := cbor_read_all false (mkSrc (cbor_close (snd (cbor_write_all (new_cbor_writer false) es))) fin sched) in
  got = array_entries 0 (longest readable vs) /\ outcome (forallb readable vs) fin out.
Proof.
  intros es fin sched W L vs. destruct (cbor_writer_array es) as [_ ->]. fold vs.
  assert (WV : Forall wf_value vs) by (apply Forall_map; exact W). assert (LV : (N.of_nat (length vs) < 2 ^ 44)%N) by (unfold vs; now rewrite map_length). clearbody vs. clear es W L.
  rewrite encode_arr. destruct (longest_split _ readable vs) as (r & E & F & H). set (pre := longest readable vs) in *. clearbody pre.
  pose proof (cbor_head_head 4 (N.of_nat (length vs)) ltac:(lia)) as HH. set (h := cbor_head 4 (N.of_nat (length vs))) in *.
  replace (flat_map cbor_encode vs) with (flat_map cbor_encode pre ++ flat_map cbor_encode r) by (rewrite <- flat_map_app, <- E; reflexivity).
  assert (C : cenc_list pre (flat_map cbor_encode pre)).
  { apply encode_list_cenc. rewrite Forall_forall in *. rewrite forallb_forall in F. intros x I. apply encode_cenc; [apply WV; rewrite E; apply in_or_app; auto|auto]. }
  assert (WR : Forall wf_value r) by (rewrite E in WV; now apply Forall_app in WV).
  set (k := length (h ++ flat_map cbor_encode pre ++ flat_map cbor_encode r)).
  rewrite (read_all_fuel false _ (S (length pre + k)) (S (S (2 * k)))) by (cbn [s_rem]; lia). cbn [s_rem s_fin].
  rewrite (loop_top size fin _ _ false _ _ _ (top_definite size fin eq_refl 4 _ h _ (or_introl eq_refl) HH ltac:(lia))).
  assert (I : items size fin false (S (S (2 * k))) (map (fun v => ([], v)) pre) (flat_map cbor_encode pre)) by (apply items_array; [reflexivity|exact C|unfold k; rewrite !app_length; lia]).
  destruct (items_loop size fin eq_refl _ _ _ _ I k (mkCbor 0 (Z.of_N (N.of_nat (length vs)))) (flat_map cbor_encode r) ltac:(cbn; lia)) as (es & M & EL). rewrite map_length in EL. rewrite EL.
  cbn [cr_rows] in M. rewrite numbered_array in M. destruct (forallb readable vs).
  - subst r. cbn [flat_map]. rewrite loop_end by reflexivity. cbn [fst]. rewrite app_nil_r. auto.
  - destruct H as (x & t & -> & RX). inversion WR; subst. cbn [flat_map]. destruct (encode_first size fin eq_refl x H1) as (c & t' & EX & NC).
    match goal with |- context [body_loop ?n ?f ?o ?st] => destruct (loop_fails size fin eq_refl n f o st (cbor_encode x ++ flat_map cbor_encode t) c (t' ++ flat_map cbor_encode t)) as (e & s' & EF & NE) end.
    + now rewrite EX.
    + exact NC.
    + unfold item. eapply fails_rbind_ok; [reflexivity|]. apply fails_rbind. apply unreadable_fails; auto. unfold k. cbn [flat_map]. rewrite !app_length. lia.
    + rewrite EF. cbn [fst]. rewrite app_nil_r. split; [exact M|]. exists e. auto.
Qed.
Print Assumptions cbor_round_trip_array.
(** Round trip of an object, in ascending key order. *)
Theorem cbor_round_trip_object : forall es m fin sched, sorted m -> (forall k, map_get k m = first_value k es) -> wf_value (VMap m) ->
  let '(got, out) := cbor_read_all true (mkSrc (cbor_close (snd (cbor_write_all (new_cbor_writer true) es))) fin sched) in
  got = object_entries (longest readable_pair m) /\ outcome (forallb readable_pair m) fin out.
Proof.
  intros es m0 fin sched S0 G0 WM. destruct (cbor_writer_object es) as (os & w & m & -> & EW & S & G & _). cbn [snd]. rewrite EW.
  assert (m0 = m) by (apply sorted_ext; auto; intros k; now rewrite G0, G). subst m0. clear es os w EW G G0 S0. apply wf_map in WM as (LV & _ & WV).
  rewrite encode_map. destruct (longest_split _ readable_pair m) as (r & E & F & H). set (pre := longest readable_pair m) in *. clearbody pre.
  pose proof (cbor_head_head 5 (N.of_nat (length m)) ltac:(lia)) as HH. set (h := cbor_head 5 (N.of_nat (length m))) in *.
  replace (flat_map pair_bytes m) with (flat_map pair_bytes pre ++ flat_map pair_bytes r) by (rewrite <- flat_map_app, <- E; reflexivity).
  assert (C : cenc_pairs pre (flat_map pair_bytes pre)).
  { apply encode_pairs_cenc. rewrite Forall_forall in *. rewrite forallb_forall in F. intros x I. assert (W : wf_pair x) by (apply WV; rewrite E; apply in_or_app; auto).
    specialize (F x I). apply andb_true_iff in F as [F1 F2]. split; [exact W|]. split; [exact F1|]. apply encode_cenc; [apply W|exact F2]. }
  assert (WR : Forall wf_pair r) by (rewrite E in WV; now apply Forall_app in WV).
  set (k := length (h ++ flat_map pair_bytes pre ++ flat_map pair_bytes r)).
  rewrite (read_all_fuel true _ (Datatypes.S (length pre + k)) (Datatypes.S (Datatypes.S (2 * k)))) by (cbn [s_rem]; lia). cbn [s_rem s_fin].
  rewrite (loop_top size fin _ _ true _ _ _ (top_definite size fin eq_refl 5 _ h _ (or_intror eq_refl) HH ltac:(lia))).
  assert (I : items size fin true (Datatypes.S (Datatypes.S (2 * k))) pre (flat_map pair_bytes pre)) by (apply items_object; [reflexivity|exact C|unfold k; rewrite !app_length; lia]).
  destruct (items_loop size fin eq_refl _ _ _ _ I k (mkCbor 0 (Z.of_N (N.of_nat (length m)))) (flat_map pair_bytes r) ltac:(cbn; lia)) as (es & M & EL). rewrite EL.
  cbn [cr_rows] in M. rewrite numbered_object in M. destruct (forallb readable_pair m).
  - subst r. cbn [flat_map]. rewrite loop_end by reflexivity. cbn [fst]. rewrite app_nil_r. auto.
  - destruct H as ([kx x] & t & -> & RX). inversion WR as [|? ? [WK WX] WT]; subst. cbn [fst snd] in *. cbn [flat_map]. unfold pair_bytes at 1. cbn [fst snd].
    destruct (cbor_head_first size fin eq_refl 3 (N.of_nat (length kx)) ltac:(lia)) as (c & t' & a & EX & _ & A & Q).
    match goal with |- context [body_loop ?n ?f ?o ?st] => destruct (loop_fails size fin eq_refl n f o st ((cbor_head 3 (N.of_nat (length kx)) ++ kx ++ cbor_encode x) ++ flat_map pair_bytes t) c (t' ++ (kx ++ cbor_encode x) ++ flat_map pair_bytes t)) as (e & s' & EF & NE) end.
    + rewrite EX. cbn [app]. now rewrite <- !app_assoc.
    + lia.
    + unfold item. rewrite <- !app_assoc. unfold readable_pair in RX. cbn [fst snd] in RX. destruct (short kx) eqn:SK; cbn [andb] in RX.
      * eapply fails_rbind_ok; [apply string_key_ok; [lia|reflexivity|apply cbor_head_head; lia|now apply short_le]|]. apply fails_rbind. apply unreadable_fails; auto.
        unfold k. cbn [flat_map]. unfold pair_bytes at 2. cbn [fst snd]. rewrite !app_length. lia.
      * apply fails_rbind. apply key_fails; auto.
    + rewrite EF. cbn [fst]. rewrite app_nil_r. split; [exact M|]. exists e. auto.
Qed.
Print Assumptions cbor_round_trip_object.
Example cbor_round_trip_array_ex :
  let es := [mkEntry 0 [] (VArr [VInt 300; VNil]); mkEntry 7 [] (VMap [([97%N], VBool true)]); mkEntry 0 [] (VInt (-25)); mkEntry 0 [] (VInt 1)] in
  cbor_read_all false (mkSrc (cbor_close (snd (cbor_write_all (new_cbor_writer false) es))) EOF [(1%nat, true)]) =
  ([mkEntry 0 [] (VArr [VInt 300; VNil]); mkEntry 1 [] (VMap [([97%N], VBool true)])], Err (EMsg "unknown cbor tag")).
Proof. vm_compute. reflexivity. Qed.

(** A written document that can be read, cut anywhere, reads as a prefix of its entries and a clean end. *)
Local Lemma firstn_array_entries : forall n vs i, firstn n (array_entries i vs) = array_entries i (firstn n vs).
Proof. induction n as [|n IH]; intros [|v vs] i; cbn; try reflexivity. now rewrite IH. Qed.
Local Lemma prefix_firstn : forall A (l a b : list A), l = a ++ b -> a = firstn (length a) l.
Proof. intros A l a b ->. rewrite firstn_app, firstn_all, Nat.sub_diag. cbn. now rewrite app_nil_r. Qed.
Local Lemma longest_all : forall A (f : A -> bool) l, forallb f l = true -> longest f l = l.
Proof. intros A f l. induction l as [|x l IH]; cbn; [reflexivity|]. intros H. apply andb_true_iff in H as [-> H]. now rewrite IH. Qed.
Theorem cbor_truncated_array : forall es cut sched, Forall (fun e => wf_value (e_val e)) es -> (N.of_nat (length es) < 2 ^ 44)%N -> forallb readable (map e_val es) = true ->
  let doc := cbor_close (snd (cbor_write_all (new_cbor_writer false) es)) in
  exists n, cbor_read_all false (mkSrc (firstn cut doc) EOF sched) = (array_entries 0 (firstn n (map e_val es)), Err EOF).
Proof.
  intros es cut sched W L R doc. pose proof (cbor_round_trip_array es EOF sched W L) as T. cbv zeta in T. fold doc in T.
  pose proof (cbor_truncation false (firstn cut doc) (skipn cut doc) sched sched) as C. cbv zeta in C. rewrite firstn_skipn in C.
  destruct (cbor_read_all false (mkSrc doc EOF sched)) as [got out]. rewrite R, longest_all in T by assumption. destruct T as [-> ->].
  destruct C as [C|[C1 [more C2]]].
  - exists (length (map e_val es)). now rewrite firstn_all.
  - destruct (cbor_read_all false (mkSrc (firstn cut doc) EOF sched)) as [g o]. cbn [fst snd] in *. exists (length g). rewrite <- firstn_array_entries, <- (prefix_firstn _ _ _ _ C2), C1. reflexivity.
Qed.
Print Assumptions cbor_truncated_array.
Theorem cbor_truncated_object : forall es m cut sched, sorted m -> (forall k, map_get k m = first_value k es) -> wf_value (VMap m) -> forallb readable_pair m = true ->
  let doc := cbor_close (snd (cbor_write_all (new_cbor_writer true) es)) in
  exists n, cbor_read_all true (mkSrc (firstn cut doc) EOF sched) = (object_entries (firstn n m), Err EOF).
Proof.
  intros es m cut sched S G W R doc. pose proof (cbor_round_trip_object es m EOF sched S G W) as T. fold doc in T.
  pose proof (cbor_truncation true (firstn cut doc) (skipn cut doc) sched sched) as C. cbv zeta in C. rewrite firstn_skipn in C.
  destruct (cbor_read_all true (mkSrc doc EOF sched)) as [got out]. rewrite R, longest_all in T by assumption. destruct T as [-> ->].
  destruct C as [C|[C1 [more C2]]].
  - exists (length m). now rewrite firstn_all.
  - destruct (cbor_read_all true (mkSrc (firstn cut doc) EOF sched)) as [g o]. cbn [fst snd] in *. exists (length g). unfold object_entries in *. rewrite <- firstn_map, <- (prefix_firstn _ _ _ _ C2), C1. reflexivity.
Qed.
Print Assumptions cbor_truncated_object.
(** A reader that detected truncation would report something other than io.EOF when entries are missing. *)
Theorem cbor_truncation_detected_refuted : ~ forall data rest got more out,
  cbor_read_all false (mkSrc (data ++ rest) EOF []) = (got ++ more, Err EOF) -> more <> [] -> cbor_read_all false (mkSrc data EOF []) = (got, out) -> out <> Err EOF.
Proof.
  intros H. refine (H [131; 1]%N [2; 3]%N [mkEntry 0 [] (VInt 1)] [mkEntry 1 [] (VInt 2); mkEntry 2 [] (VInt 3)] (Err EOF) _ _ _ _); [vm_compute; reflexivity|discriminate|vm_compute; reflexivity|reflexivity].
Qed.
Print Assumptions cbor_truncation_detected_refuted.
Example cbor_truncated_object_ex : cbor_read_all true (mkSrc (firstn 5 (cbor_close (snd (cbor_write_all (new_cbor_writer true) [mkEntry 0 [97%N] (VInt 1); mkEntry 0 [98%N] (VInt 2)])))) EOF [(1%nat, false)]) =
  ([mkEntry 0 [97%N] (VInt 1)], Err EOF).
Proof. vm_compute. reflexivity. Qed.
