(** C02-C07: entry streams. *)
From Verif Require Import Base M_Stream S_Stream L_Stream.

(** A reader over a fixed list of entries that ends with a given error: used by the examples. *)
Definition list_reader (s : list (entry unit) * err) : res (entry unit) * (list (entry unit) * err) :=
  match fst s with
  | [] => (Err (snd s), s)
  | x :: t => (Ok x, (t, snd s))
  end.
Definition ent (i : Z) (k : string) : entry unit := mkEntry i (bs k) (VInt i).
Definition three : list (entry unit) := [ent 0 "a"; ent 1 "b"; ent 2 "a"].
(** A writer collecting entries that rejects those whose index is [bad]. *)
Definition list_writer (bad : Z) (w : list (entry unit)) (e : entry unit) : option err * list (entry unit) :=
  if Z.eqb (e_index e) bad then (Some (EMsg "rejected"), w) else (None, w ++ [e]).

Ltac run_yields := repeat (first [ eapply y_cons; [reflexivity|] | apply y_end; reflexivity ]).

(** C02 *)
Theorem tracked_reader_counts : forall R (rd : nat -> R -> bytes * option err * R) ks r,
  fst (tracked_calls rd ks (tracked_new r)) = fst (direct_calls rd ks r) /\
  tr_r (snd (tracked_calls rd ks (tracked_new r))) = snd (direct_calls rd ks r) /\
  tr_read (snd (tracked_calls rd ks (tracked_new r))) =
    Z.of_nat (length (concat (map fst (fst (tracked_calls rd ks (tracked_new r)))))).
Proof.
  intros. destruct (tracked_calls_spec R rd ks 0 r) as [A [B C]]. unfold tracked_new.
  rewrite A, B, C. repeat split.
Qed.
Print Assumptions tracked_reader_counts.

Example tracked_reader_counts_ex :
  let rd := fun (k : nat) (l : bytes) => (firstn k l, match l with [] => Some EOF | _ => None end, skipn k l) in
  tr_read (snd (tracked_calls rd [2; 0; 5; 1]%nat (tracked_new [1; 2; 3; 4; 5]%N))) = 5%Z.
Proof. vm_compute. reflexivity. Qed.

(** C03: reading a PagedReader to its end yields the window, then EOF if the limit was reached inside the
    data, and the reader's own final error otherwise; when the limit is reached, exactly offset+limit
    entries were taken from the wrapped reader. *)
Theorem paged_reader_window : forall F S (rd : reader F S) s es e s' limit offset,
  yields rd s es e s' ->
  exists p', yields (paged_read rd) (mkPaged s limit offset) (window offset limit es)
    (if (0 <=? limit)%Z && (Z.max 0 offset + limit <=? Z.of_nat (length es))%Z then EOF else e) p' /\
    (if (0 <=? limit)%Z && (Z.max 0 offset + limit <=? Z.of_nat (length es))%Z
     then reads rd s (firstn (Z.to_nat (Z.max 0 offset + limit)) es) (pg_r p')
     else pg_r p' = s').
Proof. intros F S rd s es e s' limit offset. exact (paged_window rd s es e s' limit offset). Qed.
Print Assumptions paged_reader_window.

Example paged_reader_window_ex :
  yields list_reader (three, EMsg "broken") three (EMsg "broken") ([], EMsg "broken") /\
  window 1 1 three = [ent 1 "b"] /\ window 1 (-1) three = [ent 1 "b"; ent 2 "a"] /\ window 5 1 three = [].
Proof. split; [run_yields|]. vm_compute. auto. Qed.

(** C04: all writes accepted. *)
Theorem copy_moves_everything : forall F S W (rd : reader F S) (wr : writer F W) s es e s' w w' fuel,
  yields rd s es e s' -> accepts wr w es w' -> (length es < fuel)%nat ->
  copy fuel rd wr s w =
    (match e with EOF => Ok tt | _ => Err (EWrap "row iteration error" 0 e) end, s', w').
Proof. intros. eapply copy_all; eauto. Qed.
Print Assumptions copy_moves_everything.

(** C04: the first rejected write stops the copy; nothing after it is read or written. *)
Theorem copy_stops_at_rejection : forall F S W (rd : reader F S) (wr : writer F W) s es s1 w w1 x s2 er w2 fuel,
  reads rd s es s1 -> accepts wr w es w1 -> rd s1 = (Ok x, s2) -> wr w1 x = (Some er, w2) ->
  (length es < fuel)%nat ->
  copy fuel rd wr s w = (Err (EWrap "error writing value to buffer" 0 er), s2, w2).
Proof. intros. eapply copy_reject; eauto. Qed.
Print Assumptions copy_stops_at_rejection.

(** C04: nil is returned only if the reader reached io.EOF and every entry was accepted. *)
Theorem copy_success_means_complete : forall F S W (rd : reader F S) (wr : writer F W) fuel s w s' w',
  copy fuel rd wr s w = (Ok tt, s', w') -> exists es, yields rd s es EOF s' /\ accepts wr w es w'.
Proof. intros. eapply copy_ok_inv; eauto. Qed.
Print Assumptions copy_success_means_complete.

Example copy_ex :
  copy 10 list_reader (list_writer 7) (three, EOF) [] = (Ok tt, ([], EOF), three) /\
  snd (copy 10 list_reader (list_writer 1) (three, EOF) []) = [ent 0 "a"] /\
  fst (fst (copy 10 list_reader (list_writer 1) (three, EOF) [])) <> Ok tt.
Proof. vm_compute. repeat split; discriminate. Qed.

(** C05 *)
Theorem read_all_array_complete : forall F S (rd : reader F S) schema s es e s' fuel,
  get_top_level_type schema = Ok (bs "array") -> yields rd s es e s' -> (length es < fuel)%nat ->
  read_all fuel rd schema s =
    (if is_eof_text e then Ok (VArr (map e_val es))
     else Err (EWrap "entry" (Z.of_nat (length es) + 1) e), s').
Proof.
  intros F S rd schema s es e s' fuel Ht Hy Hf. unfold read_all. rewrite Ht.
  change (beqb (bs "array") (bs "object")) with false. cbv iota.
  rewrite (read_all_array_spec rd s es e s' Hy fuel 0 [] Hf). simpl. destruct (is_eof_text e); reflexivity.
Qed.
Print Assumptions read_all_array_complete.

Theorem read_all_object_complete : forall F S (rd : reader F S) schema s es e s' fuel,
  get_top_level_type schema = Ok (bs "object") -> yields rd s es e s' -> (length es < fuel)%nat ->
  if is_eof_text e then
    exists m, read_all fuel rd schema s = (Ok (VMap m), s') /\ sorted m /\
              forall k, map_get k m = last_value k es
  else read_all fuel rd schema s = (Err (EWrap "row" (Z.of_nat (length es) + 1) e), s').
Proof.
  intros F S rd schema s es e s' fuel Ht Hy Hf. unfold read_all. rewrite Ht. rewrite beqb_refl.
  rewrite (read_all_object_spec rd s es e s' Hy fuel 0 [] Hf). destruct (is_eof_text e); [|reflexivity].
  eexists. split; [reflexivity|]. split; [apply fold_set_sorted; exact I|].
  intro k. rewrite fold_set_get. destruct (last_value k es); reflexivity.
Qed.
Print Assumptions read_all_object_complete.

(** The top level type is accepted exactly when the schema's "type" is the string array or object. *)
Theorem top_level_type_exact : forall F (schema : option (list (bytes * gval F))) t,
  get_top_level_type schema = Ok t <->
  exists m, schema = Some m /\ map_get (bs "type") m = Some (VStr t) /\ (t = bs "array" \/ t = bs "object").
Proof.
  intros F schema t. unfold get_top_level_type. split.
  - destruct schema as [m|]; [|discriminate].
    destruct (map_get (bs "type") m) as [[| | | |t'| | |]|] eqn:E; try discriminate.
    destruct (beqb_spec t' (bs "array")); destruct (beqb_spec t' (bs "object")); simpl; intro H;
      try discriminate; injection H as ->; exists m; auto.
  - intros [m [-> [-> [-> | ->]]]]; reflexivity.
Qed.
Print Assumptions top_level_type_exact.

Example read_all_ex :
  get_top_level_type (F := unit) (Some [(bs "type", VStr (bs "object"))]) = Ok (bs "object") /\
  read_all 10 list_reader (Some [(bs "type", VStr (bs "object"))]) (three, EOF)
    = (Ok (VMap [(bs "a", VInt 2); (bs "b", VInt 1)]), ([], EOF)) /\
  read_all 10 list_reader (Some [(bs "type", VStr (bs "array"))]) (three, EOF)
    = (Ok (VArr [VInt 0; VInt 1; VInt 2]), ([], EOF)) /\
  read_all 10 list_reader (Some [(bs "type", VStr (bs "array"))]) (three, EMsg "boom")
    = (Err (EWrap "entry" 4 (EMsg "boom")), ([], EMsg "boom")).
Proof. vm_compute. auto. Qed.

(** C06 *)
Theorem each_entry_visits_all : forall F S C (rd : reader F S) (fn : C -> Z -> entry F -> option err * C)
    s es e s' c c' fuel,
  yields rd s es e s' -> visits fn c 0 es c' -> (length es < fuel)%nat ->
  each_entry fuel rd fn 0 s c =
    (if is_eof_text e then Ok tt else Err (EWrap "error reading row" (Z.of_nat (length es)) e), s', c').
Proof. intros. rewrite (each_entry_all rd fn s es e s' H 0 c c' H0 fuel H1). reflexivity. Qed.
Print Assumptions each_entry_visits_all.

Theorem each_entry_stops : forall F S C (rd : reader F S) (fn : C -> Z -> entry F -> option err * C)
    s es s1 c c1 x s2 er c2 fuel,
  reads rd s es s1 -> visits fn c 0 es c1 -> rd s1 = (Ok x, s2) ->
  fn c1 (Z.of_nat (length es)) x = (Some er, c2) -> (length es < fuel)%nat ->
  each_entry fuel rd fn 0 s c = (if is_eof_text er then Ok tt else Err er, s2, c2).
Proof. intros. eapply each_entry_stop; eauto. Qed.
Print Assumptions each_entry_stops.

Example each_entry_ex :
  let fn := fun (c : list Z) (i : Z) (e : entry unit) =>
    if Z.eqb i 2 then (Some EOF, c) else (None, c ++ [i]) in
  each_entry 10 list_reader fn 0 (three, EOF) [] = (Ok tt, ([], EOF), [0; 1]%Z).
Proof. vm_compute. reflexivity. Qed.

(** C07: with no error anywhere ConvertFile returns the encoding of the selected entries ... *)
Theorem convert_file_selection : forall F S W (rd : reader F S) (wr : writer F W) close bytes_of
    s es e s' w w' w'' limit offset (all : bool) fuel,
  yields rd s es e s' ->
  accepts wr w (if all then es else window offset limit es) w' ->
  close w' = (None, w'') -> (length es < fuel)%nat ->
  convert_file fuel (Ok w) wr close bytes_of (Ok s) rd limit offset all = Ok (bytes_of w'').
Proof.
  intros F S W rd wr close bytes_of s es e s' w w' w'' limit offset all fuel Hy Ha Hc Hf.
  unfold convert_file. destruct all.
  - rewrite (copy_all rd wr s es e s' Hy w w' Ha fuel Hf), Hc. destruct e; reflexivity.
  - destruct (paged_window rd s es e s' limit offset Hy) as [p' [Hp _]].
    rewrite (copy_all _ wr _ _ _ _ Hp w w' Ha fuel), Hc.
    + destruct (if _ && _ then EOF else e); reflexivity.
    + unfold window. destruct (limit <? 0)%Z; rewrite ?firstn_length, skipn_length; lia.
Qed.
Print Assumptions convert_file_selection.

(** ... and this holds whatever [e] is: an error while reading is not reported.  Likewise for a rejected
    write.  So "a nil error means the whole selection was converted" is false. *)
Theorem convert_file_reports_errors_refuted :
  (exists F S W (rd : reader F S) (wr : writer F W) close bytes_of s w b,
     (exists es s', yields rd s es (EMsg "disk error") s') /\
     convert_file 10 (Ok w) wr close bytes_of (Ok s) rd 0 0 true = Ok b) /\
  (exists F S W (rd : reader F S) (wr : writer F W) close bytes_of s w b es s' x,
     yields rd s es EOF s' /\ In x es /\ (forall w, fst (wr w x) <> None) /\
     convert_file 10 (Ok w) wr close bytes_of (Ok s) rd 0 0 true = Ok b).
Proof.
  split.
  - exists unit, _, _, list_reader, (list_writer 7), (fun w => (None, w)), (fun w => map (fun e => Z.to_N (e_index e)) w).
    exists (three, EMsg "disk error"), [], [0; 1; 2]%N. split; [|reflexivity].
    exists three, ([], EMsg "disk error"). run_yields.
  - exists unit, _, _, list_reader, (list_writer 1), (fun w => (None, w)), (fun w => map (fun e => Z.to_N (e_index e)) w).
    exists (three, EOF), [], [0]%N, three, ([], EOF), (ent 1 "b"). split; [run_yields|].
    split; [right; left; reflexivity|]. split; [intro w; discriminate|reflexivity].
Qed.
Print Assumptions convert_file_reports_errors_refuted.

(** Failing to build the reader or writer is reported, and failing to close the writer after taking every entry. *)
Theorem convert_file_setup_errors : forall F S W (rd : reader F S) (wr : writer F W) close bytes_of
    mkw mkr limit offset all fuel e,
  (mkw = Err e -> convert_file fuel mkw wr close bytes_of mkr rd limit offset all = Err e) /\
  (forall w, mkw = Ok w -> mkr = Err e ->
     convert_file fuel mkw wr close bytes_of mkr rd limit offset all = Err (EWrap "creating entry reader" 0 e)) /\
  (forall w s es e1 s' w' w2, mkw = Ok w -> mkr = Ok s -> yields rd s es e1 s' -> (length es < fuel)%nat ->
     accepts wr w (if all : bool then es else window offset limit es) w' -> close w' = (Some e, w2) ->
     convert_file fuel mkw wr close bytes_of mkr rd limit offset all = Err (EWrap "error closing row buffer" 0 e)).
Proof.
  intros F S W rd wr close bytes_of mkw mkr limit offset all fuel e. split; [|split].
  - intros ->. reflexivity.
  - intros w -> ->. reflexivity.
  - intros w s es e1 s' w' w2 -> -> Hy Hf Ha Hc. unfold convert_file. destruct all.
    + rewrite (copy_all rd wr s es e1 s' Hy w w' Ha fuel Hf), Hc. destruct e1; reflexivity.
    + destruct (paged_window rd s es e1 s' limit offset Hy) as [p' [Hp _]]. rewrite (copy_all _ wr _ _ _ _ Hp w w' Ha fuel), Hc.
      * destruct (if _ && _ then EOF else e1); reflexivity.
      * unfold window. destruct (limit <? 0)%Z; rewrite ?firstn_length, skipn_length; lia.
Qed.
Print Assumptions convert_file_setup_errors.

Example convert_file_ex :
  convert_file 10 (Ok []) (list_writer 7) (fun w => (None, w)) (fun w => map (fun e => Z.to_N (e_index e)) w)
    (Ok (three, EOF)) list_reader 1 1 false = Ok [1%N].
Proof. vm_compute. reflexivity. Qed.
