(** Model of Meta.Set and the Decode methods it uses (meta.go:116-237, 438-500).
    Values are json.Unmarshal-style values; a Go map value is a [JObj] with sorted distinct keys. *)
From Verif Require Import Base M_Doc M_Components.

(** strings.ToLower, as far as it decides equality with an ASCII text: ASCII letters, and the two characters outside
    ASCII whose lower case is ASCII, U+0130 and U+212A (the Kelvin sign).  Other bytes are kept. *)
Fixpoint to_lower (s : bytes) : bytes :=
  match s with
  | [] => []
  | c :: s1 =>
      let plain := lower_byte c :: to_lower s1 in
      match s1 with
      | d :: s2 =>
          if N.eqb c 196 && N.eqb d 176 then 105%N :: to_lower s2
          else match s2 with
               | e :: s3 => if N.eqb c 226 && N.eqb d 132 && N.eqb e 170 then 107%N :: to_lower s3 else plain
               | [] => plain
               end
      | [] => plain
      end
  end.

(** The encodings of the white space characters of unicode.IsSpace. *)
Definition spaces : list bytes :=
  [[9]; [10]; [11]; [12]; [13]; [32]; [194; 133]; [194; 160]; [225; 154; 128];
   [226; 128; 128]; [226; 128; 129]; [226; 128; 130]; [226; 128; 131]; [226; 128; 132]; [226; 128; 133];
   [226; 128; 134]; [226; 128; 135]; [226; 128; 136]; [226; 128; 137]; [226; 128; 138];
   [226; 128; 168]; [226; 128; 169]; [226; 128; 175]; [226; 129; 159]; [227; 128; 128]]%N.
Fixpoint drop_prefix (p s : bytes) : option bytes :=
  match p, s with
  | [], _ => Some s
  | x :: p', y :: s' => if N.eqb x y then drop_prefix p' s' else None
  | _, [] => None
  end.
Fixpoint first_prefix (ps : list bytes) (s : bytes) : option bytes :=
  match ps with
  | [] => None
  | p :: ps' => match drop_prefix p s with Some r => Some r | None => first_prefix ps' s end
  end.
(** Drop members of [sp] from the front; every round removes a byte, so [length s] rounds suffice. *)
Fixpoint trim_front (sp : list bytes) (fuel : nat) (s : bytes) : bytes :=
  match fuel with
  | O => s
  | S f => match first_prefix sp s with Some r => trim_front sp f r | None => s end
  end.
(** strings.TrimSpace: front, then back (on the reversal). *)
Definition trim_space (s : bytes) : bytes :=
  let s1 := trim_front spaces (length s) s in
  rev (trim_front (map (@rev N) spaces) (length s1) (rev s1)).

(** meta.go:116-126, strVal: the string and the error *)
Definition e_string : err := EMsg "type must be a string".
Definition str_val (v : jdoc) : bytes * option err :=
  match v with JNull => ([], None) | JStr s => (s, None) | _ => ([], Some e_string) end.
(** meta.go:129-148, strSliceVal: nil on error, and also for an empty slice *)
Fixpoint str_slice_go (l : list jdoc) : list bytes * option err :=
  match l with
  | [] => ([], None)
  | v :: l' => match str_val v with
               | (_, Some e) => ([], Some (EMsg "index: type must be a string"))
               | (s, None) => match str_slice_go l' with (r, None) => (s :: r, None) | (_, Some e) => ([], Some e) end
               end
  end.
Definition str_slice_val (v : jdoc) : goslice bytes * option err :=
  match v with
  | JNull => (None, None)
  | JArr l => match str_slice_go l with
              | (_, Some e) => (None, Some e)
              | ([], None) => (None, None)
              | (r, None) => (Some r, None)
              end
  | _ => (None, Some (EMsg "type must be a set of strings"))
  end.

(** A missing map key reads as nil. *)
Definition member (k : string) (m : list (bytes * jdoc)) : jdoc := match map_get (bs k) m with Some v => v | None => JNull end.
Definition e_map : err := EMsg "expected map[string]interface{}".
(** meta.go:438-453, User.Decode on a fresh User *)
Definition user_decode (v : jdoc) : user * option err :=
  match v with
  | JObj m =>
      match str_val (member "id" m) with
      | (i, Some e) => (mkUser i [] [], Some e)
      | (i, None) => match str_val (member "name" m) with
                     | (n, Some e) => (mkUser i n [], Some e)
                     | (n, None) => let '(m', e) := str_val (member "email" m) in (mkUser i n m', e)
                     end
      end
  | _ => (mkUser [] [] [], Some e_map)
  end.
(** meta.go:462-474, License.Decode *)
Definition license_decode (v : jdoc) : license * option err :=
  match v with
  | JObj m =>
      match str_val (member "type" m) with
      | (t, Some e) => (mkLicense t [], Some e)
      | (t, None) => let '(u, e) := str_val (member "url" m) in (mkLicense t u, e)
      end
  | _ => (mkLicense [] [], Some e_map)
  end.
(** meta.go:485-499, Citation.Decode *)
Definition citation_decode (v : jdoc) : citation * option err :=
  match v with
  | JObj m =>
      match str_val (member "name" m) with
      | (n, Some e) => (mkCitation n [] [], Some e)
      | (n, None) => match str_val (member "url" m) with
                     | (u, Some e) => (mkCitation n u [], Some e)
                     | (u, None) => let '(m', e) := str_val (member "email" m) in (mkCitation n u m', e)
                     end
      end
  | _ => (mkCitation [] [] [], Some e_map)
  end.
(** meta.go:188-200, 202-214: a slice of len(sl) pointers filled up to the first error *)
Fixpoint decode_all {A} (dec : jdoc -> A * option err) (l : list jdoc) : list (option A) * option err :=
  match l with
  | [] => ([], None)
  | v :: l' => match dec v with
               | (_, Some e) => (repeat None (length l), Some (EMsg "parsing index"))
               | (a, None) => let '(r, e) := decode_all dec l' in (Some a :: r, e)
               end
  end.

(** meta.go:152-227, Set *)
Definition meta_set (m : meta) (key : bytes) (v : jdoc) : meta * option err :=
  let '(mkMeta mm au ac ci co de dn ho id kw la li pa qr re ti th ve) := m in
  let k := trim_space (to_lower key) in
  let s := fst (str_val v) in
  let se := snd (str_val v) in
  let sl := fst (str_slice_val v) in
  let sle := snd (str_slice_val v) in
  if beqb k (bs "qri") then (mkMeta mm au ac ci co de dn ho id kw la li pa s re ti th ve, se)
  else if beqb k (bs "accessurl") then (mkMeta mm s ac ci co de dn ho id kw la li pa qr re ti th ve, se)
  else if beqb k (bs "accrualperiodicity") then (mkMeta mm au s ci co de dn ho id kw la li pa qr re ti th ve, se)
  else if beqb k (bs "description") then (mkMeta mm au ac ci co s dn ho id kw la li pa qr re ti th ve, se)
  else if beqb k (bs "downloadurl") then (mkMeta mm au ac ci co de s ho id kw la li pa qr re ti th ve, se)
  else if beqb k (bs "homeurl") then (mkMeta mm au ac ci co de dn s id kw la li pa qr re ti th ve, se)
  else if beqb k (bs "identifier") then (mkMeta mm au ac ci co de dn ho s kw la li pa qr re ti th ve, se)
  else if beqb k (bs "readmeurl") then (mkMeta mm au ac ci co de dn ho id kw la li pa qr s ti th ve, se)
  else if beqb k (bs "title") then (mkMeta mm au ac ci co de dn ho id kw la li pa qr re s th ve, se)
  else if beqb k (bs "version") then (mkMeta mm au ac ci co de dn ho id kw la li pa qr re ti th s, se)
  else if beqb k (bs "keywords") then (mkMeta mm au ac ci co de dn ho id sl la li pa qr re ti th ve, sle)
  else if beqb k (bs "language") then (mkMeta mm au ac ci co de dn ho id kw sl li pa qr re ti th ve, sle)
  else if beqb k (bs "theme") then (mkMeta mm au ac ci co de dn ho id kw la li pa qr re ti sl ve, sle)
  else if beqb k (bs "citations") then
    match v with
    | JArr l => let '(r, e) := decode_all citation_decode l in
                (mkMeta mm au ac (Some r) co de dn ho id kw la li pa qr re ti th ve, e)
    | _ => (m, Some (EMsg "citation: expected interface slice"))
    end
  else if beqb k (bs "contributors") then
    match v with
    | JArr l => let '(r, e) := decode_all user_decode l in
                (mkMeta mm au ac ci (Some r) de dn ho id kw la li pa qr re ti th ve, e)
    | _ => (m, Some (EMsg "contributors: expected interface slice"))
    end
  else if beqb k (bs "license") then
    let '(l, e) := license_decode v in (mkMeta mm au ac ci co de dn ho id kw la (Some l) pa qr re ti th ve, e)
  else (mkMeta (Some (map_set key v (match mm with Some x => x | None => [] end))) au ac ci co de dn ho id kw la li pa qr re ti th ve, None).
(** meta.go:230-236, SetArbitrary *)
Definition meta_set_arbitrary (m : meta) (key : bytes) (v : jdoc) : meta :=
  mkMeta (Some (map_set key v (match md_meta m with Some x => x | None => [] end))) (md_access_url m) (md_accrual m) (md_citations m)
    (md_contributors m) (md_description m) (md_download_url m) (md_home_url m) (md_identifier m) (md_keywords m) (md_language m)
    (md_license m) (md_path m) (md_qri m) (md_readme_url m) (md_title m) (md_theme m) (md_version m).
(** meta.go:104-113, Meta(): a copy of the arbitrary metadata *)
Definition meta_meta (m : meta) : list (bytes * jdoc) := match md_meta m with Some x => x | None => [] end.
