(** C61: opening and inlining bodies and scripts *)
From Verif Require Import Base M_Doc M_Files.

(** Reading a file to its end gives [d]. *)
Definition holds (f : option sfile) (d : bytes) : Prop := exists g, f = Some g /\ f_data g = d /\ f_fail g = None.

(** Opening the body never changes the body fields themselves. *)
Theorem open_body_keeps_fields : forall res b, let b' := fst (open_body res b) in
  b_inline b' = b_inline b /\ b_bytes b' = b_bytes b /\ b_path b' = b_path b.
Proof.
  intros res b. unfold open_body. destruct (b_inline b) eqn:E1; auto. destruct (b_bytes b) eqn:E2; auto.
  destruct (b_path b) eqn:E3; auto. destruct res as [get|]; auto. destruct (get _); auto.
Qed.
Print Assumptions open_body_keeps_fields.
(** An inline body fails and opens nothing. *)
Theorem open_body_inline : forall res b, b_inline b <> JNull -> open_body res b = (b, Some err_inline_body).
Proof. intros res b H. unfold open_body. destruct (b_inline b); congruence. Qed.
Print Assumptions open_body_inline.
(** Inline bytes win over the path and need no resolver, even if empty. *)
Theorem open_body_bytes : forall res b d, b_inline b = JNull -> b_bytes b = Some d ->
  snd (open_body res b) = None /\ holds (b_file (fst (open_body res b))) d /\
  (b_path b <> [] -> option_map f_name (b_file (fst (open_body res b))) = Some (b_path b)) /\
  (b_path b = [] -> option_map f_name (b_file (fst (open_body res b))) = Some (bs "body")).
Proof.
  intros res b d H1 H2. unfold open_body. rewrite H1, H2. split; [reflexivity|]. split; [eexists; split; [reflexivity|auto]|]. cbn [fst b_file option_map f_name].
  destruct (b_path b); split; congruence.
Qed.
Print Assumptions open_body_bytes.
(** Otherwise the path is handed to the resolver, once and unchanged; the outcome is the resolver's. *)
Theorem open_body_path : forall get b, b_inline b = JNull -> b_bytes b = None -> b_path b <> [] ->
  b_file (fst (open_body (Some get) b)) = fst (get (b_path b)) /\ (snd (open_body (Some get) b) = None <-> snd (get (b_path b)) = None) /\
  open_body None b = (b, Some err_no_resolver).
Proof.
  intros get b H1 H2 H3. unfold open_body. rewrite H1, H2. destruct (b_path b) eqn:E; [congruence|].
  destruct (get _) as [f [e|]]; simpl; repeat split; congruence.
Qed.
Print Assumptions open_body_path.
Theorem open_body_nothing : forall res b, b_inline b = JNull -> b_bytes b = None -> b_path b = [] -> open_body res b = (b, None).
Proof. intros res b H1 H2 H3. unfold open_body. now rewrite H1, H2, H3. Qed.
Print Assumptions open_body_nothing.
Example open_body_ex : let get := fun p => (Some (mkFile p (bs "data") None), None) in
  b_file (fst (open_body (Some get) (mkBody JNull None (bs "/p") None))) = Some (mkFile (bs "/p") (bs "data") None) /\
  b_file (fst (open_body (Some get) (mkBody JNull (Some []) (bs "/p") None))) = Some (mkFile (bs "/p") [] None).
Proof. split; reflexivity. Qed.

(** Opening a script never changes text or path; text wins over the path and needs no resolver. *)
Theorem open_script_keeps_fields : forall mem res s, let s' := fst (open_script mem res s) in s_text s' = s_text s /\ s_path s' = s_path s.
Proof.
  intros. unfold open_script in *. subst s'. destruct (s_text s) eqn:E1; simpl; auto. destruct (s_path s) eqn:E2; auto.
  destruct res as [get|]; auto. destruct (get _); simpl; auto.
Qed.
Print Assumptions open_script_keeps_fields.
Theorem open_script_text : forall mem res s, s_text s <> [] ->
  snd (open_script mem res s) = None /\ holds (s_file (fst (open_script mem res s))) (s_text s) /\
  option_map f_name (s_file (fst (open_script mem res s))) = Some mem.
Proof. intros mem res s H. unfold open_script. destruct (s_text s) eqn:E; [congruence|]. split; [reflexivity|]. split; [|reflexivity]. eexists. split; [reflexivity|auto]. Qed.
Print Assumptions open_script_text.
Theorem open_script_path : forall mem get s, s_text s = [] -> s_path s <> [] ->
  s_file (fst (open_script mem (Some get) s)) = fst (get (s_path s)) /\ snd (open_script mem (Some get) s) = snd (get (s_path s)) /\
  open_script mem None s = (s, Some err_no_resolver).
Proof.
  intros mem get s H1 H2. unfold open_script. rewrite H1. destruct (s_path s) eqn:E; [congruence|]. destruct (get _); auto.
Qed.
Print Assumptions open_script_path.

(** A script without text and path is left alone. *)
Theorem open_script_nothing : forall mem res s, s_text s = [] -> s_path s = [] -> open_script mem res s = (s, None).
Proof. intros mem res s H1 H2. unfold open_script. now rewrite H1, H2. Qed.
Print Assumptions open_script_nothing.
(** Rendered files are opened by path only: nothing happens without a path, without a resolver the file is left alone. *)
Theorem open_rendered_path : forall f, (forall res, open_rendered res [] f = (f, None)) /\
  (forall p, p <> [] -> open_rendered None p f = (f, Some err_no_resolver) /\ forall get, open_rendered (Some get) p f = get p).
Proof. intros f. split; [reflexivity|]. intros [|c p] H; [congruence|]. split; reflexivity. Qed.
Print Assumptions open_rendered_path.
Example open_rendered_ex : open_rendered (Some (fun p => (Some (mkFile p (bs "<p>") None), None))) (bs "/r") None = (Some (mkFile (bs "/r") (bs "<p>") None), None).
Proof. reflexivity. Qed.

(** A failed inlining leaves text and path as they were. *)
Theorem inline_failure_keeps_fields : forall mem res s, snd (inline_script mem res s) <> None ->
  s_text (fst (inline_script mem res s)) = s_text s /\ s_path (fst (inline_script mem res s)) = s_path s.
Proof.
  intros mem res s. unfold inline_script. destruct res as [get|]; simpl; [|congruence].
  destruct (open_script_keeps_fields mem (Some get) s) as [K1 K2].
  destruct (open_script mem (Some get) s) as [s1 [e|]]; simpl in *; auto.
  destruct (s_file s1) as [f|]; simpl; auto. destruct (f_fail f); simpl; auto. congruence.
Qed.
Print Assumptions inline_failure_keeps_fields.

(** A script with text: inlining succeeds, keeps the text and drops the path. *)
Theorem inline_text : forall mem get s, s_text s <> [] ->
  snd (inline_script mem (Some get) s) = None /\ s_text (fst (inline_script mem (Some get) s)) = s_text s /\
  s_path (fst (inline_script mem (Some get) s)) = [].
Proof. intros mem get s H. unfold inline_script, open_script. destruct (s_text s) eqn:E; [congruence|]. simpl. auto. Qed.
Print Assumptions inline_text.
(** A script with only a path: inlining succeeds with the file's content iff the resolver delivers a readable file
    (or no file at all, in which case nothing happens). *)
Theorem inline_path : forall mem get s f, s_text s = [] -> s_path s <> [] -> get (s_path s) = (Some f, None) ->
  (f_fail f = None -> snd (inline_script mem (Some get) s) = None /\ s_text (fst (inline_script mem (Some get) s)) = f_data f /\
                      s_path (fst (inline_script mem (Some get) s)) = []) /\
  (f_fail f <> None -> snd (inline_script mem (Some get) s) = f_fail f).
Proof.
  intros mem get s f H1 H2 H3. unfold inline_script, open_script. rewrite H1. destruct (s_path s) eqn:E; [congruence|].
  rewrite H3. simpl. split; intros H; destruct (f_fail f); simpl; try congruence; auto.
Qed.
Print Assumptions inline_path.
Theorem inline_nil_resolver : forall mem s, inline_script mem None s = (s, None).
Proof. reflexivity. Qed.
Print Assumptions inline_nil_resolver.
(** Once inlined, the script can be opened again without any resolver and reads as the text. *)
Theorem open_after_inline : forall mem get s res, s_text s <> [] \/ (exists f, s_path s <> [] /\ get (s_path s) = (Some f, None) /\ f_fail f = None) ->
  let s' := fst (inline_script mem (Some get) s) in
  snd (open_script mem res s') = None /\ holds (s_file (fst (open_script mem res s'))) (s_text s').
Proof.
  intros mem get s res H.
  assert (I : exists f d, fst (inline_script mem (Some get) s) = mkSrc d [] (Some (mkFile f [] None))).
  { unfold inline_script, open_script. destruct (s_text s) eqn:E1.
    - destruct H as [H|(f & H1 & H2 & H3)]; [congruence|]. destruct (s_path s) eqn:E2; [congruence|]. rewrite H2. simpl. rewrite H3. simpl. eauto.
    - simpl. eauto. }
  destruct I as (f & d & ->). unfold open_script; simpl. destruct d; simpl; (split; [reflexivity|]); eexists; split; simpl; auto.
Qed.
Print Assumptions open_after_inline.
(** Inlining an empty script file loses the script path and leaves no text. *)
Theorem inline_keeps_script_refuted : ~ (forall mem get s, s_path s <> [] -> snd (inline_script mem (Some get) s) = None ->
  let s' := fst (inline_script mem (Some get) s) in s_text s' <> [] \/ s_path s' = s_path s).
Proof.
  intros H. specialize (H (bs "readme.md") (fun p => (Some (mkFile p [] None), None)) (mkSrc [] (bs "/p") None) ltac:(discriminate) eq_refl).
  destruct H as [H|H]; [now apply H|discriminate].
Qed.
Print Assumptions inline_keeps_script_refuted.
Example inline_ex : fst (inline_script (bs "readme.md") (Some (fun p => (Some (mkFile p (bs "# hi") None), None))) (mkSrc [] (bs "/p") None)) =
  mkSrc (bs "# hi") [] (Some (mkFile (bs "/p") [] None)).
Proof. reflexivity. Qed.
