(** Specification of Meta.Set: fields, the keys that address them, and readings of values. *)
From Verif Require Import Base M_Doc M_Components.

Inductive mfield := FMeta | FAccessURL | FAccrual | FCitations | FContributors | FDescription | FDownloadURL | FHomeURL
  | FIdentifier | FKeywords | FLanguage | FLicense | FPath | FQri | FReadmeURL | FTitle | FTheme | FVersion.
Inductive fval := VS (s : bytes) | VL (l : goslice bytes) | VC (l : goslice (option citation)) | VU (l : goslice (option user))
  | VLic (l : option license) | VM (m : gomap jdoc).
Definition get (f : mfield) (m : meta) : fval :=
  match f with
  | FMeta => VM (md_meta m) | FAccessURL => VS (md_access_url m) | FAccrual => VS (md_accrual m) | FCitations => VC (md_citations m)
  | FContributors => VU (md_contributors m) | FDescription => VS (md_description m) | FDownloadURL => VS (md_download_url m)
  | FHomeURL => VS (md_home_url m) | FIdentifier => VS (md_identifier m) | FKeywords => VL (md_keywords m)
  | FLanguage => VL (md_language m) | FLicense => VLic (md_license m) | FPath => VS (md_path m) | FQri => VS (md_qri m)
  | FReadmeURL => VS (md_readme_url m) | FTitle => VS (md_title m) | FTheme => VL (md_theme m) | FVersion => VS (md_version m)
  end.

(** The JSON names of the settable fields.  Note there is no "path". *)
Definition settable : list (bytes * mfield) :=
  [(bs "accessURL", FAccessURL); (bs "accrualPeriodicity", FAccrual); (bs "citations", FCitations);
   (bs "contributors", FContributors); (bs "description", FDescription); (bs "downloadURL", FDownloadURL);
   (bs "homeURL", FHomeURL); (bs "identifier", FIdentifier); (bs "keywords", FKeywords); (bs "language", FLanguage);
   (bs "license", FLicense); (bs "qri", FQri); (bs "readmeURL", FReadmeURL); (bs "title", FTitle); (bs "theme", FTheme);
   (bs "version", FVersion)].

Definition blank (c : byte) : Prop := (9 <= c <= 13)%N \/ c = 32%N.
Definition same_letter (a b : byte) : Prop :=
  a = b \/ (65 <= a <= 90 /\ b = a + 32)%N \/ (65 <= b <= 90 /\ a = b + 32)%N.
(** [key] is [name] in any case, between blanks. *)
Definition addresses (key name : bytes) : Prop :=
  exists pre mid post, key = pre ++ mid ++ post /\ Forall blank pre /\ Forall blank post /\ Forall2 same_letter mid name.
Definition ascii (s : bytes) : Prop := Forall (fun c => c < 128)%N s.

(** Readings of a value: null reads as empty. *)
Definition reads_str (v : jdoc) (s : bytes) : Prop := v = JStr s \/ (v = JNull /\ s = []).
Definition at_key (m : list (bytes * jdoc)) (k : bytes) (s : bytes) : Prop :=
  match map_get k m with None => s = [] | Some v => reads_str v s end.
Definition reads_citation (v : jdoc) (c : citation) : Prop := exists m, v = JObj m /\
  at_key m (bs "name") (ci_name c) /\ at_key m (bs "url") (ci_url c) /\ at_key m (bs "email") (ci_email c).
Definition reads_user (v : jdoc) (u : user) : Prop := exists m, v = JObj m /\
  at_key m (bs "id") (u_id u) /\ at_key m (bs "name") (u_name u) /\ at_key m (bs "email") (u_email u).
Definition reads_license (v : jdoc) (l : license) : Prop := exists m, v = JObj m /\
  at_key m (bs "type") (li_type l) /\ at_key m (bs "url") (li_url l).
Definition slice_of {A} (l : list A) : goslice A := match l with [] => None | _ => Some l end.
(** [x] is what field [f] should hold for the value [v]. *)
Definition reads (f : mfield) (v : jdoc) (x : fval) : Prop :=
  match f with
  | FCitations => exists l cs, v = JArr l /\ Forall2 reads_citation l cs /\ x = VC (Some (map Some cs))
  | FContributors => exists l cs, v = JArr l /\ Forall2 reads_user l cs /\ x = VU (Some (map Some cs))
  | FLicense => exists l, reads_license v l /\ x = VLic (Some l)
  | FKeywords | FLanguage | FTheme =>
      (v = JNull /\ x = VL None) \/ exists l ss, v = JArr l /\ Forall2 reads_str l ss /\ x = VL (slice_of ss)
  | FMeta | FPath => False
  | _ => exists s, reads_str v s /\ x = VS s
  end.
(** [x] is what an ill-typed value leaves in field [f], which held [old]. *)
Definition after_error (f : mfield) (v : jdoc) (old x : fval) : Prop :=
  match f with
  | FCitations => match v with
      | JArr l => exists good bad cs, l = good ++ bad /\ bad <> [] /\ Forall2 reads_citation good cs /\
                    x = VC (Some (map Some cs ++ repeat None (length bad)))
      | _ => x = old end
  | FContributors => match v with
      | JArr l => exists good bad cs, l = good ++ bad /\ bad <> [] /\ Forall2 reads_user good cs /\
                    x = VU (Some (map Some cs ++ repeat None (length bad)))
      | _ => x = old end
  | FLicense => exists t, x = VLic (Some (mkLicense t []))
  | FKeywords | FLanguage | FTheme => x = VL None
  | FMeta | FPath => False
  | _ => x = VS []
  end.
