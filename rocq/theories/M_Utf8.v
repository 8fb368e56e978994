(** UTF-8 as the Go packages unicode/utf8, strconv and encoding/json use it. *)
From Verif Require Import Base.

(** utf8.EncodeRune for a code point below 0x110000 (surrogates are handled by the callers). *)
Definition encode_rune (r : N) : bytes :=
  if (r <? 128)%N then [r]
  else if (r <? 2048)%N then [(192 + r / 64)%N; (128 + r mod 64)%N]
  else if (r <? 65536)%N then [(224 + r / 4096)%N; (128 + (r / 64) mod 64)%N; (128 + r mod 64)%N]
  else [(240 + r / 262144)%N; (128 + (r / 4096) mod 64)%N; (128 + (r / 64) mod 64)%N; (128 + r mod 64)%N].

(** A continuation byte within [lo, hi]. *)
Definition in_range (lo hi c : N) : bool := ((lo <=? c) && (c <=? hi))%N.

(** utf8.DecodeRune: [Some (rune, size)] for a well-formed sequence at the front, [None] for
    (RuneError, 1), an ill-formed or cut sequence.  The accept ranges of the second byte are those of
    the table in unicode/utf8. *)
Definition decode_rune (s : bytes) : option (N * nat) :=
  match s with
  | [] => None
  | a :: t =>
      if (a <? 128)%N then Some (a, 1%nat)
      else if in_range 194 223 a then
        match t with
        | b :: _ => if in_range 128 191 b then Some ((a - 192) * 64 + (b - 128), 2%nat)%N else None
        | _ => None
        end
      else if in_range 224 239 a then
        match t with
        | b :: c :: _ =>
            let lo := if (a =? 224)%N then 160%N else 128%N in
            let hi := if (a =? 237)%N then 159%N else 191%N in
            if in_range lo hi b && in_range 128 191 c
            then Some ((a - 224) * 4096 + (b - 128) * 64 + (c - 128), 3%nat)%N else None
        | _ => None
        end
      else if in_range 240 244 a then
        match t with
        | b :: c :: d :: _ =>
            let lo := if (a =? 240)%N then 144%N else 128%N in
            let hi := if (a =? 244)%N then 143%N else 191%N in
            if in_range lo hi b && in_range 128 191 c && in_range 128 191 d
            then Some ((a - 240) * 262144 + (b - 128) * 4096 + (c - 128) * 64 + (d - 128), 4%nat)%N else None
        | _ => None
        end
      else None
  end.
