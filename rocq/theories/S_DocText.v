(** Specification of component documents as text: which texts stand for a document, which text a point in time has,
    and which components survive the way through text. *)
From Verif Require Import Base M_Decimal S_Utf8 S_JsonText S_JsonBack S_NDJson S_Hash M_Time S_Signing M_Doc M_Components S_Encode.

(** [dtext d v t]: t is a JSON text, nested at most d deep, of the document v: members in order, duplicates
  kept, numbers by their literals. *)
Inductive dtext : nat -> jdoc -> bytes -> Prop :=
| dt_null : forall d, dtext d JNull (bs "null")
| dt_true : forall d, dtext d (JBool true) (bs "true")
| dt_false : forall d, dtext d (JBool false) (bs "false")
| dt_num : forall d t, strict_number t -> dtext d (JReal t) t
| dt_str : forall d s t, schars s t -> dtext d (JStr s) (34%N :: t ++ [34%N])
| dt_arr0 : forall d w, blank w -> dtext (S d) (JArr []) (91%N :: w ++ [93%N])
| dt_arr : forall d v vs w t r, blank w -> dtext d v t -> dtail d vs r ->
    dtext (S d) (JArr (v :: vs)) (91%N :: w ++ t ++ r ++ [93%N])
| dt_obj0 : forall d w, blank w -> dtext (S d) (JObj []) (123%N :: w ++ [125%N])
| dt_obj : forall d kv kvs w t r, blank w -> dpair d kv t -> dptail d kvs r ->
    dtext (S d) (JObj (kv :: kvs)) (123%N :: w ++ t ++ r ++ [125%N])
with dtail : nat -> list jdoc -> bytes -> Prop :=
| dl_nil : forall d w, blank w -> dtail d [] w
| dl_cons : forall d v vs w1 w2 t r, blank w1 -> blank w2 -> dtext d v t -> dtail d vs r ->
    dtail d (v :: vs) (w1 ++ 44%N :: w2 ++ t ++ r)
with dpair : nat -> bytes * jdoc -> bytes -> Prop :=
| dpr_intro : forall d k kt v t w1 w2, schars k kt -> blank w1 -> blank w2 -> dtext d v t ->
    dpair d (k, v) (34%N :: kt ++ 34%N :: w1 ++ 58%N :: w2 ++ t)
with dptail : nat -> list (bytes * jdoc) -> bytes -> Prop :=
| dpl_nil : forall d w, blank w -> dptail d [] w
| dpl_cons : forall d kv kvs w1 w2 t r, blank w1 -> blank w2 -> dpair d kv t -> dptail d kvs r ->
    dptail d (kv :: kvs) (w1 ++ 44%N :: w2 ++ t ++ r).
(** Blanks around it. *)
Definition dline (d : nat) (v : jdoc) (l : bytes) : Prop :=
  exists w1 t w2, blank w1 /\ blank w2 /\ dtext d v t /\ l = w1 ++ t ++ w2.

Scheme dtext_mut := Minimality for dtext Sort Prop
  with dtail_mut := Minimality for dtail Sort Prop
  with dpair_mut := Minimality for dpair Sort Prop
  with dptail_mut := Minimality for dptail Sort Prop.
Combined Scheme doc_text_ind from dtext_mut, dtail_mut, dpair_mut, dptail_mut.

(** ** Points in time: RFC 3339 *)
(** Nanoseconds of a fraction of a second: nine digits count. *)
Definition fraction_of (ns : Z) (t : bytes) : Prop :=
  (t = [] /\ ns = 0%Z) \/
  exists ds, t = 46%N :: ds /\ ds <> [] /\ digits ds /\ ns = (Z.of_N (dec_val ds) * 10 ^ 9 / 10 ^ Z.of_nat (length ds))%Z.
(** The zone, as minutes ahead of UTC. *)
Definition zone_of (z : Z) (t : bytes) : Prop :=
  (t = bs "Z" /\ z = 0%Z) \/
  exists h m, (0 <= h < 24 /\ 0 <= m < 60)%Z /\
    ((t = bs "+" ++ two_digits h ++ bs ":" ++ two_digits m /\ z = (h * 60 + m)%Z) \/
     (t = bs "-" ++ two_digits h ++ bs ":" ++ two_digits m /\ z = (- (h * 60 + m))%Z)).
(** [time_text t f zt s]: s names the point in time t, with fraction f and zone zt.  The date is that of P_Signing,
    calendar: day 0 is 0001-01-01 and each day is followed by the next date. *)
Definition time_text (t : Z) (f zt s : bytes) : Prop :=
  exists day y m d hour minute second ns z,
    date_of_day day = (y, m, d) /\ (0 <= y <= 9999 /\ 0 <= hour < 24 /\ 0 <= minute < 60 /\ 0 <= second < 60)%Z /\
    fraction_of ns f /\ zone_of z zt /\
    t = ((((day * 24 + hour) * 60 + minute - z) * 60 + second) * 1000000000 + ns)%Z /\
    s = four_digits y ++ bs "-" ++ two_digits m ++ bs "-" ++ two_digits d ++ bs "T" ++
        two_digits hour ++ bs ":" ++ two_digits minute ++ bs ":" ++ two_digits second ++ f ++ zt.
(** The text that is written: in UTC, a fraction of at most nine digits that does not end in a zero. *)
Definition utc_text (t : Z) (s : bytes) : Prop :=
  exists f, time_text t f (bs "Z") s /\ (length f <= 10)%nat /\ last f 0%N <> 48%N.

(** ** Texts of a document *)
(** [spelled d r]: r is d with everything spelled as JSON knows it: numbers as literals, times and bytes as strings,
    and ill-formed UTF-8 replaced. *)
Inductive spelled : jdoc -> jdoc -> Prop :=
| sp_null : spelled JNull JNull
| sp_bool : forall b, spelled (JBool b) (JBool b)
| sp_int : forall z, spelled (JInt z) (JReal (itoa z))
| sp_real : forall l, spelled (JReal l) (JReal l)
| sp_str : forall s s', cleaned s s' -> spelled (JStr s) (JStr s')
| sp_time : forall t s, utc_text t s -> spelled (JTime t) (JStr s)
| sp_b64 : forall b s, base64 b s -> spelled (JB64 b) (JStr s)
| sp_arr : forall l l', Forall2 spelled l l' -> spelled (JArr l) (JArr l')
| sp_obj : forall o o', Forall2 (fun kv kv' => cleaned (fst kv) (fst kv') /\ spelled (snd kv) (snd kv')) o o' -> spelled (JObj o) (JObj o').
(** t is a text of the document d: any blanks between the tokens, any escapes in the strings. *)
Definition text_of (depth : nat) (d : jdoc) (t : bytes) : Prop := exists r, spelled d r /\ dline depth r t.

(** ** What survives *)
(** P of every value and K of every key inside a document. *)
Fixpoint every (P : jdoc -> Prop) (K : bytes -> Prop) (d : jdoc) : Prop :=
  P d /\ match d with
         | JArr l => fold_right (fun x q => every P K x /\ q) True l
         | JObj o => fold_right (fun kv q => K (fst kv) /\ every P K (snd kv) /\ q) True o
         | _ => True
         end.
(** Values that have a text at all. *)
Definition writable (d : jdoc) : Prop :=
  every (fun d => match d with
                  | JReal l => strict_number l
                  | JTime t => encodable_time t
                  | JB64 b => bytes_ok b
                  | _ => True
                  end) (fun _ => True) d.
(** Texts are UTF-8 and integers fit into 64 bits. *)
Definition legible (d : jdoc) : Prop :=
  every (fun d => match d with JStr s => well_formed s | JInt z => (- 2 ^ 63 <= z < 2 ^ 63)%Z | _ => True end) well_formed d.
Fixpoint height (d : jdoc) : nat :=
  match d with
  | JArr l => S (fold_right (fun x q => Nat.max (height x) q) O l)
  | JObj o => S (fold_right (fun kv q => Nat.max (height (snd kv)) q) O o)
  | _ => O
  end.
(** A dynamic value that float64 does not change: [renum lit] is what the number of that literal is written as again. *)
Definition dynamic (renum : bytes -> jdoc) (d : jdoc) : Prop :=
  every (fun d => match d with
                  | JInt z => renum (itoa z) = JInt z
                  | JReal l => renum l = JReal l
                  | JTime _ | JB64 _ => False
                  | _ => True
                  end) (fun _ => True) d.
(** The dynamic values of the components. *)
Definition values (m : gomap jdoc) : list jdoc := match m with Some m => map snd m | None => [] end.
Definition stats_dynamic (s : stats) : list jdoc := [sa_stats s].
Definition transform_dynamic (t : transform) : list jdoc :=
  values (tf_config t) ++
  flat_map (fun o => match o with Some s => [sp_script s] | None => [] end) (match tf_steps t with Some l => l | None => [] end).
Definition structure_dynamic (s : structure) : list jdoc := values (st_format_config s) ++ values (st_schema s).
Definition meta_dynamic (m : meta) : list jdoc := values (md_meta m).
Definition dynamic_of {A} (f : A -> list jdoc) (o : option A) : list jdoc := match o with Some a => f a | None => [] end.
Definition dataset_dynamic (d : dataset) : list jdoc :=
  ds_body d :: dynamic_of meta_dynamic (ds_meta d) ++ dynamic_of structure_dynamic (ds_structure d) ++
  dynamic_of stats_dynamic (ds_stats d) ++ dynamic_of transform_dynamic (ds_transform d).

(** ** What a typed member is read from *)
(** The last member of that name, in any letter case. *)
Definition last_named (n : bytes) (o : list (bytes * jdoc)) (v : jdoc) : Prop :=
  exists pre k post, o = pre ++ (k, v) :: post /\ fold_name k = fold_name n /\ Forall (fun kv => fold_name (fst kv) <> fold_name n) post.
(** Integers of 64 bits in their usual notation; minus zero counts as zero. *)
Definition count_from (v : jdoc) (z : Z) : Prop :=
  (v = JNull /\ z = 0%Z) \/ (exists l, v = JReal l /\ (- 2 ^ 63 <= z < 2 ^ 63)%Z /\ (l = itoa z \/ l = bs "-0" /\ z = 0%Z)).
Definition time_from (v : jdoc) (t : Z) : Prop :=
  (v = JNull /\ t = 0%Z) \/ (exists s f zt, v = JStr s /\ time_text t f zt s).
(** Base 64 whose last character may have bits that belong to no byte. *)
Inductive base64_lax : bytes -> bytes -> Prop :=
| bl_nil : base64_lax [] []
| bl_one : forall a w x k cw cx, sextet w cw -> sextet x cx -> (k < 16)%N -> (a * 16 + k = w * 64 + x)%N -> base64_lax [a] [cw; cx; 61%N; 61%N]
| bl_two : forall a b w x y k cw cx cy, sextet w cw -> sextet x cx -> sextet y cy -> (b < 256)%N -> (k < 4)%N ->
    ((a * 256 + b) * 4 + k = (w * 64 + x) * 64 + y)%N -> base64_lax [a; b] [cw; cx; cy; 61%N]
| bl_three : forall a b c w x y z cw cx cy cz s t, sextet w cw -> sextet x cx -> sextet y cy -> sextet z cz ->
    (b < 256 /\ c < 256)%N -> ((a * 256 + b) * 256 + c = ((w * 64 + x) * 64 + y) * 64 + z)%N -> base64_lax s t ->
    base64_lax (a :: b :: c :: s) (cw :: cx :: cy :: cz :: t).
(** Line feeds and carriage returns put in anywhere. *)
Inductive broken_up : bytes -> bytes -> Prop :=
| bu_nil : broken_up [] []
| bu_char : forall c s t, broken_up s t -> broken_up (c :: s) (c :: t)
| bu_lf : forall s t, broken_up s t -> broken_up s (10%N :: t)
| bu_cr : forall s t, broken_up s t -> broken_up s (13%N :: t).
Definition bytes_from (v : jdoc) (b : option bytes) : Prop :=
  (v = JNull /\ b = None) \/ (exists s t x, v = JStr t /\ b = Some x /\ broken_up s t /\ base64_lax x s).
Definition structure_from (o : list (bytes * jdoc)) (s : structure) : Prop :=
  (forall v, last_named (bs "depth") o v -> count_from v (st_depth s)) /\
  (forall v, last_named (bs "errCount") o v -> count_from v (st_err_count s)) /\
  (forall v, last_named (bs "entries") o v -> count_from v (st_entries s)) /\
  (forall v, last_named (bs "length") o v -> count_from v (st_length s)).
Definition commit_from (o : list (bytes * jdoc)) (c : commit) : Prop :=
  forall v, last_named (bs "timestamp") o v -> time_from v (cm_timestamp c).
Definition dataset_from (o : list (bytes * jdoc)) (d : dataset) : Prop :=
  (forall v, last_named (bs "numVersions") o v -> count_from v (ds_num_versions d)) /\
  (forall v, last_named (bs "bodyBytes") o v -> bytes_from v (ds_body_bytes d)) /\
  (forall o', last_named (bs "structure") o (JObj o') -> exists s, ds_structure d = Some s /\ structure_from o' s) /\
  (forall o', last_named (bs "commit") o (JObj o') -> exists c, ds_commit d = Some c /\ commit_from o' c).
(** float64 is a number again. *)
Definition numeric (renum : bytes -> jdoc) : Prop := forall l, (exists z, renum l = JInt z) \/ (exists m, renum l = JReal m).
