(** Specification vocabulary for base64, independent of the model. *)
From Verif Require Import Prelude.
Local Open Scope Z_scope.

Definition is_byte (b : Z) : Prop := 0 <= b < 256.

(** The base64 alphabet of RFC 4648 (without the padding sign). *)
Definition is_alpha64 (c : Z) : bool :=
  ((65 <=? c) && (c <=? 90)) || ((97 <=? c) && (c <=? 122)) ||
  ((48 <=? c) && (c <=? 57)) || (c =? 43) || (c =? 47).

(** Alphabet or padding. *)
Definition is_text64 (c : Z) : bool := is_alpha64 c || (c =? 61).

(** RFC 4648 reading of a character: its six-bit value. The padding sign counts as 0. *)
Definition value64 (c : Z) : Z :=
  if (65 <=? c) && (c <=? 90) then c - 65
  else if (97 <=? c) && (c <=? 122) then c - 97 + 26
  else if (48 <=? c) && (c <=? 57) then c - 48 + 52
  else if c =? 43 then 62
  else if c =? 47 then 63
  else 0.

(** What a text denotes: four characters are one 24-bit big-endian number, that is three bytes. *)
Fixpoint denote (t : list Z) : list Z :=
  match t with
  | a :: b :: c :: d :: t' =>
      let n := value64 a * 262144 + value64 b * 4096 + value64 c * 64 + value64 d in
      (n / 65536) :: (n / 256) mod 256 :: n mod 256 :: denote t'
  | _ => []
  end.
