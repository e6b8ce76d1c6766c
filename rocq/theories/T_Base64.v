(** C01, C02: base64 text. *)
From Verif Require Import Prelude M_Base64 S_Base64 P_Base64.
Local Open Scope Z_scope.

(** C01. Encoding any bytes succeeds, the text has the advertised length, consists of base64
    characters only, denotes the bytes, and decoding it (alone or followed by anything) gives the
    bytes back. *)
Theorem base64_encode_decode : forall bytes rest,
  Forall is_byte bytes ->
  exists text, encode bytes = Ok text /\
    zlen text = encoded_size (zlen bytes) /\
    Forall (fun c => is_text64 c = true) text /\
    decode (text ++ rest) (zlen bytes) = Ok bytes.
Proof.
  exact encode_decode_all.
Qed.
Print Assumptions base64_encode_decode.

(** C01 through a stream: what [encode] wrote, followed by one character that is not base64 text
    (in the files: a newline), is read back by [read_encoded]. *)
Theorem base64_stream_roundtrip : forall bytes stop rest,
  Forall is_byte bytes -> is_byte stop -> is_text64 stop = false ->
  exists text, encode bytes = Ok text /\
    read_encoded (text ++ stop :: rest) = Ok (text, rest) /\
    decode text (zlen bytes) = Ok bytes.
Proof.
  exact stream_roundtrip_all.
Qed.
Print Assumptions base64_stream_roundtrip.

(** C01/C02. Exact behaviour of [decode] on every 7-bit text that is long enough: it returns what
    the text denotes under RFC 4648, unless one of the characters it consumes is not base64 text, in
    which case it aborts. *)
Theorem base64_decode_7bit : forall size text,
  0 <= size -> encoded_size size <= zlen text ->
  Forall (fun c => 0 <= c < 128) text ->
  decode text size =
  if forallb is_text64 (firstn (Z.to_nat (encoded_size size)) text)
  then Ok (firstn (Z.to_nat size) (denote text)) else Abort.
Proof. exact decode_text_all. Qed.
Print Assumptions base64_decode_7bit.

(** C02 is false as stated for arbitrary characters: a character with the top bit set indexes far
    outside the table. *)
Theorem base64_decode_no_ub_refuted :
  exists text size, Forall is_byte text /\ encoded_size size <= zlen text /\ decode text size = UB.
Proof.
  exact decode_high_bit_ub.
Qed.
Print Assumptions base64_decode_no_ub_refuted.

(** ... and also when the text is shorter than the size requires. *)
Theorem base64_decode_short_refuted :
  exists text size, Forall (fun c => is_text64 c = true) text /\ decode text size = UB.
Proof. exact decode_short_ub. Qed.
Print Assumptions base64_decode_short_refuted.

(* "Man!" -> "TWFuIQ==" *)
Example base64_ex1 : encode [77; 97; 110; 33] = Ok [84; 87; 70; 117; 73; 81; 61; 61].
Proof. reflexivity. Qed.
Example base64_ex2 : Forall is_byte [77; 97; 110; 33] /\ is_byte 10 /\ is_text64 10 = false.
Proof. split; [repeat constructor; unfold is_byte; lia | split; [unfold is_byte; lia | reflexivity]]. Qed.
Example base64_ex3 : decode [84; 87; 70; 117; 73; 81; 61; 61] 4 = Ok [77; 97; 110; 33].
Proof. reflexivity. Qed.
Example base64_ex4 : decode [84; 42; 70; 117] 3 = Abort. (* '*' *)
Proof. reflexivity. Qed.
