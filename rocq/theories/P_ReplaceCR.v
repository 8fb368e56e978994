(** C01: the CR normalising reader. *)
From Verif Require Import Base M_Bufio M_ReplaceCR S_ReplaceCR L_Bufio L_ReplaceCR.

(** Whatever the source's chunking [sched], the internal buffer [size] and the caller's buffer sizes
    [sizes], the bytes delivered so far are the bytes consumed so far with a LF added after some
    carriage returns that are not followed by one; nothing is lost, reordered or otherwise changed. *)
Theorem replacecr_only_inserts : forall size data fin sched sizes,
  exists rest, inserts data (concat (map fst (fst (cr_session size data fin sched sizes)))) rest.
Proof. intros. eexists. exact (session_inserts size data fin sched sizes). Qed.
Print Assumptions replacecr_only_inserts.

Example replacecr_only_inserts_ex :
  map fst (fst (cr_session 16 (bs "a" ++ [cCR] ++ bs "b" ++ [cCR; cLF] ++ bs "c") EOF [(0%nat, true); (1%nat, false)] [3; 4; 5]%nat))
  = [ [97; 13; 10]; [98; 13; 10; 99]; [] ]%N.
Proof. vm_compute. reflexivity. Qed.

(** Each Read returns at most len(p) bytes, exactly len(p) unless it reports an error, and leaves a CR without
    its LF only in the very last slot of p. *)
Theorem replacecr_each_read : forall size data fin sched sizes, is_eof_text fin = true ->
  Forall2 (fun k r => (length (fst r) <= k)%nat /\ (snd r = None -> length (fst r) = k) /\
                      forall i, bare_cr_at (fst r) i -> S i = k)
          sizes (fst (cr_session size data fin sched sizes)).
Proof. exact session_each. Qed.
Print Assumptions replacecr_each_read.

Example replacecr_each_read_ex :
  is_eof_text EOF = true /\
  bare_cr_at (fst (hd ([], None) (fst (cr_session 16 (bs "a" ++ [cCR] ++ bs "b") EOF [] [2]%nat)))) 1.
Proof. vm_compute. split; [reflexivity|]. split; [reflexivity|discriminate]. Qed.

(** A session that reached the end delivered the fully normalised stream iff no lone CR is left in what it
    delivered (by [replacecr_each_read]: iff no lone CR landed in a last slot). *)
Theorem replacecr_complete : forall size data fin sched sizes,
  let rs := fst (cr_session size data fin sched sizes) in
  (exists o e, In (o, Some e) rs) ->
  (concat (map fst rs) = normalise data <-> no_lone_cr (concat (map fst rs))).
Proof.
  intros size data fin sched sizes rs Hdone.
  pose proof (session_inserts size data fin sched sizes) as H.
  rewrite (session_done size data fin sched sizes Hdone) in H.
  split; [intros ->; apply normalise_no_lone|exact (inserts_norm _ _ H)].
Qed.
Print Assumptions replacecr_complete.

Example replacecr_complete_ex :
  let rs := fst (cr_session 16 (bs "a" ++ [cCR] ++ bs "b" ++ [cCR]) EOF [] [4; 4]%nat) in
  (exists o e, In (o, Some e) rs) /\ concat (map fst rs) = [97; 13; 10; 98; 13; 10]%N.
Proof. vm_compute. split; [do 2 eexists; right; left; reflexivity|reflexivity]. Qed.

(** Streams whose only CRs are in CR LF pairs pass through unchanged. *)
Theorem replacecr_transparent : forall size data fin sched sizes, no_lone_cr data ->
  exists rest, concat (map fst (fst (cr_session size data fin sched sizes))) ++ rest = data /\
    ((exists o e, In (o, Some e) (fst (cr_session size data fin sched sizes))) -> rest = []).
Proof.
  intros size data fin sched sizes Hn. eexists. split.
  - exact (inserts_no_lone _ _ _ (session_inserts size data fin sched sizes) Hn).
  - exact (session_done size data fin sched sizes).
Qed.
Print Assumptions replacecr_transparent.

Example replacecr_transparent_ex : no_lone_cr (bs "a" ++ [cCR; cLF] ++ bs "b").
Proof. intros i [H1 H2]. destruct i as [|[|[|[|[|i]]]]]; vm_compute in H1, H2; congruence. Qed.

(** Reading makes progress: once the requested sizes exceed twice the stream, the end has been reported. *)
Theorem replacecr_terminates : forall size data fin sched sizes,
  (2 * length data < fold_right Nat.add 0 sizes)%nat ->
  exists o e, In (o, Some e) (fst (cr_session size data fin sched sizes)).
Proof. exact session_terminates. Qed.
Print Assumptions replacecr_terminates.

Example replacecr_terminates_ex :
  (2 * length (bs "ab") < fold_right Nat.add 0 [1; 0; 3; 1])%nat.
Proof. vm_compute. lia. Qed.

(** What is delivered does not depend on how the source chunks its bytes nor on the internal buffer size. *)
Theorem replacecr_source_schedule_free : forall size1 size2 data fin sched1 sched2 sizes,
  fst (cr_session size1 data fin sched1 sizes) = fst (cr_session size2 data fin sched2 sizes).
Proof. exact session_schedule_free. Qed.
Print Assumptions replacecr_source_schedule_free.

Example replacecr_source_schedule_free_ex :
  fst (cr_session 16 [97; 13; 98]%N EOF [(0, false); (0, false); (0, true)]%nat [9]%nat) = [([97; 13; 10; 98]%N, Some EOF)].
Proof. vm_compute. reflexivity. Qed.

(** But it does depend on the caller's buffer sizes: the intended claim "the reader delivers the normalised
    stream whatever the read sizes" is false. *)
Theorem replacecr_read_size_independent_refuted : exists data sizes1 sizes2,
  let o1 := fst (cr_session 4096 data EOF [] sizes1) in
  let o2 := fst (cr_session 4096 data EOF [] sizes2) in
  (exists o e, In (o, Some e) o1) /\ (exists o e, In (o, Some e) o2) /\
  concat (map fst o1) = normalise data /\ concat (map fst o2) <> normalise data.
Proof.
  exists [97; 13; 98]%N, [16; 16]%nat, [2; 16]%nat. vm_compute.
  split; [do 2 eexists; right; left; reflexivity|].
  split; [do 2 eexists; right; left; reflexivity|]. split; [reflexivity|discriminate].
Qed.
Print Assumptions replacecr_read_size_independent_refuted.
