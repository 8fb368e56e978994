(** What a preview shows. *)
From Verif Require Import Base M_Components S_Stream.
Notation length := List.length.

(** How much of a readme is shown. *)
Definition readme_shown : nat := 997.
(** The beginning of a text, with an ellipsis if it may go on. *)
Definition clipped (n : nat) (d text : bytes) : Prop :=
  (length d < n)%nat /\ text = d \/ exists a b, d = a ++ b /\ length a = n /\ text = a ++ bs "...".
(** A readme but for its text; a dataset but for the text of its readme. *)
Definition readme_rest (c : script_component) :=
  (sc_format c, sc_path c, sc_qri c, sc_script_file c, sc_rendered_file c, sc_script_path c, sc_rendered_path c).
Definition dataset_rest (d : dataset) :=
  (ds_body_file d, ds_body d, ds_body_bytes d, ds_body_path d, ds_commit d, ds_id d, ds_meta d, ds_name d, ds_path d,
   (ds_peername d, ds_previous d, ds_profile d, option_map readme_rest (ds_readme d), ds_num_versions d, ds_qri d, ds_structure d,
    ds_stats d, ds_transform d, ds_viz d)).
(** The entries a preview takes: up to [n], ending early only before an entry that cannot be read or that
    does not fit the ones before. *)
Definition leading {F S : Type} (fits : list (entry F) -> Prop) (n : nat) (rd : S -> res (entry F) * S) (s : S) (es : list (entry F)) : Prop :=
  fits es /\ exists s', reads rd s es s' /\
  (length es = n \/ (length es < n)%nat /\
   ((exists e s2, rd s' = (Err e, s2)) \/ exists x s2, rd s' = (Ok x, s2) /\ ~ fits (es ++ [x]))).
